(** Batches in reachable states. *)
From Coq Require Import Permutation.
From Verif Require Import Base UtilModel CliModel CliSpec CliProofs CliMoves CliInv CliBatch.
Local Open Scope nat_scope.

(** one entry per batch *)
Definition Uniq (lg : list ev) : Prop :=
  forall t b n t' n', 0 < b -> In (EBatch t b n) lg -> In (EBatch t' b n') lg -> t = t' /\ n = n' /\ 0 < n.
Lemma size_in lg t b n : In (EBatch t b n) lg -> n <= size lg b.
Proof.
  induction lg as [|e lg IH]; [contradiction|]. change (e :: lg) with ([e] ++ lg). rewrite size_app, size1.
  intros [->|HI]; [rewrite Nat.eqb_refl; lia|]. apply IH in HI. lia.
Qed.
Lemma uniq_snoc lg e : Uniq lg -> (forall t b n, e = EBatch t b n -> b = 0) -> Uniq (lg ++ [e]).
Proof.
  intros HU HE t b n t' n' Hb H1 H2. apply in_snoc in H1 as [H1|H1]; [|symmetry in H1; apply HE in H1; lia].
  apply in_snoc in H2 as [H2|H2]; [|symmetry in H2; apply HE in H2; lia]. eapply HU; eauto.
Qed.
Lemma uniq_idle lg es : Forall idle_ev es -> Uniq lg -> Uniq (lg ++ es).
Proof.
  intros HE. revert lg. induction HE as [|e es He _ IH]; intros lg H; [now rewrite app_nil_r|].
  change (e :: es) with ([e] ++ es). rewrite app_assoc. apply IH. apply uniq_snoc; [exact H|]. intros t b n ->. contradiction He.
Qed.
Lemma uniq_move l k k' : Prog k -> Uniq (k_lg k) -> Move l k k' -> Uniq (k_lg k').
Proof.
  intros (P1 & P2 & _) HU HM. destruct HM; kg; try exact HU; try (apply uniq_snoc; [exact HU|]; let t := fresh in let b := fresh in let n := fresh in let E := fresh in intros t b n E; discriminate E).
  - now apply uniq_idle.
  - specialize (P1 nb (or_introl (le_n _))).
    assert (HN : forall t n, In (EBatch t nb n) lg -> n = 0) by (intros t n HI; apply size_in in HI; lia).
    intros t b n t' n' Hb H1 H2. apply in_snoc in H1 as [H1|H1]; apply in_snoc in H2 as [H2|H2].
    + eapply HU; eauto.
    + injection H2 as -> -> ->. destruct (HU t nb n t n Hb H1 H1) as (_ & _ & HX). apply HN in H1. lia.
    + injection H1 as -> -> ->. destruct (HU t' nb n' t' n' Hb H2 H2) as (_ & _ & HX). apply HN in H2. lia.
    + injection H1 as -> -> ->. injection H2 as -> ->. destruct us; [contradiction|]. cbn [length]. refine (conj eq_refl (conj eq_refl _)). lia.
  - apply uniq_snoc; [exact HU|]. intros ? ? ? E. injection E as _ <- _. reflexivity.
Qed.
Definition BatchInv (s : st) : Prop :=
  Acc s /\ Shape (core_of s) /\ Prog (core_of s) /\ Uniq (s_log s) /\ BatP (s_batches s) (s_stack s) (s_log s).
Lemma acc_step s l s' : Acc s -> step s l = Some s' -> Acc s'.
Proof.
  intros HA E. apply (step_cases Acc) with (ls := [l]) (s := s); [intros; now apply acc_api| | | | |].
  - intros s0 k H HK. eapply acc_pop; eauto. exact I.
  - intros. now apply acc_exec.
  - intros. eapply acc_io; eauto.
  - exact HA.
  - cbn [run]. now rewrite E.
Qed.
Lemma batch_step s l s' : BatchInv s -> step s l = Some s' -> BatchInv s'.
Proof.
  intros (HA & HS & HP & HU & HB) E. pose proof (move_step _ _ _ E) as HM.
  refine (conj (acc_step _ _ _ HA E) (conj (shape_move _ _ _ HS HM) (conj (prog_move _ _ _ HP HM) (conj _ _)))).
  - exact (uniq_move _ _ _ HP HU HM).
  - exact (bat_move _ _ _ HS (acck _ HA) HP HM HB).
Qed.
Lemma batch_init base : BatchInv (init base).
Proof.
  refine (conj _ (conj _ (conj _ (conj _ _)))).
  - apply (acc_reach base []). reflexivity.
  - constructor.
  - unfold Prog. refine (conj _ (conj _ _)); [reflexivity|cbn; lia|]. intros bid j. reflexivity.
  - intros t b n t' n' _ [].
  - refine (conj _ (conj _ (conj _ (conj _ _)))); [constructor|constructor|intros; reflexivity|intros; reflexivity|]. intros tok bid rs [[]|(r & E)]. discriminate E.
Qed.
Lemma run_inv (P : st -> Prop) : (forall s l s', P s -> step s l = Some s' -> P s') -> forall ls s s', P s -> run s ls = Some s' -> P s'.
Proof.
  intros HP. induction ls as [|l ls IH]; cbn [run]; intros s s' H E; [congruence|]. destruct (step s l) as [s1|] eqn:ES; [|discriminate E]. eauto.
Qed.
Lemma batch_reach base ls s : reaches base ls s -> BatchInv s.
Proof. apply run_inv; [exact batch_step|apply batch_init]. Qed.
Lemma somes_none l : somes l < length l -> exists j, j < length l /\ nth_error l j = Some None.
Proof.
  unfold somes. induction l as [|x l IH]; cbn [filter length]; intros H; [lia|]. destruct x as [r|].
  - cbn [is_some length] in H. destruct IH as (j & H1 & H2); [lia|]. exists (S j). split; [lia|exact H2].
  - exists 0. split; [lia|reflexivity].
Qed.
