(** Lemmas about the life of a request context: two monitors over its events. *)
From Coq Require Import Sorted.
From Verif Require Import Base CtxModel.
Open Scope N_scope.

(** ** Monitor of the end of the life *)

Record mon := mkMon { mc : bool; mo : bool; mr : bool; ms : bool; mt : bool }.
Definition mon0 : mon := mkMon false false false false false.

Definition mstep (m : mon) (e : event) : option mon :=
  match e with
  | Made _ => Some m
  | Executed _ _ => if mc m || mo m then None else Some m
  | CancelRequested => if mc m || mo m then None else Some (mkMon true (mo m) (mr m) (ms m) (mt m))
  | TaskCancelled _ _ => if mc m && negb (mo m) && negb (mt m) then Some (mkMon (mc m) (mo m) (mr m) (ms m) true) else None
  | Hooked => if mo m then None else Some (mkMon (mc m) true (mr m) (ms m) (mt m))
  | Suppressed => Some (mkMon (mc m) true (mr m) true (mt m))
  | Responded _ => if mo m && negb (mr m) && negb (ms m) then Some (mkMon (mc m) (mo m) true (ms m) (mt m)) else None
  end.

Fixpoint mrun (t : list event) (m : mon) : option mon :=
  match t with [] => Some m | e :: t' => match mstep m e with Some m' => mrun t' m' | None => None end end.

Lemma mrun_app t1 t2 m : mrun (t1 ++ t2) m = match mrun t1 m with Some m1 => mrun t2 m1 | None => None end.
Proof. revert m. induction t1 as [|e t1 IH]; intros m; cbn [mrun app]; [reflexivity|]. destruct (mstep m e); auto. Qed.

Definition MR (m : mon) (c : ctx) : Prop :=
  mo m = finalised c /\ (mc m = true -> cancelled c = true) /\ callback c = negb (ms m)
  /\ (mt m = true -> mc m = true) /\ (mr m = true -> mo m = true).

Definition MQ (m m' : mon) : Prop :=
  (mo m = true -> mo m' = true /\ mr m' = mr m) /\ (ms m = true -> ms m' = true) /\ (mr m = true -> mr m' = true)
  /\ (mo m = false -> mo m' = true -> mr m' = true \/ ms m' = true).

Lemma MQ_refl m : MQ m m.
Proof. unfold MQ. intuition congruence. Qed.

Lemma MQ_trans m1 m2 m3 : MQ m1 m2 -> MQ m2 m3 -> MQ m1 m3.
Proof.
  unfold MQ. intros (A1 & A2 & A3 & A4) (B1 & B2 & B3 & B4). refine (conj _ (conj _ (conj _ _))); auto.
  - intros X. destruct (A1 X) as [Y Z]. destruct (B1 Y) as [U V]. split; congruence.
  - intros X Y. destruct (mo m2) eqn:E; [|auto]. destruct (A4 X eq_refl); [left|right]; auto.
Qed.

Section Ctx.
Variable route_chain error_chain : list bool.
Variable task_code : chain_kind -> nat -> list ucall -> bool -> Prop.
Variable hook_code callback_code cancel_code : list ucall -> Prop.
Notation Runs := (Runs route_chain error_chain task_code hook_code callback_code cancel_code).
Notation Starts := (Starts route_chain error_chain task_code hook_code callback_code cancel_code).
Notation Routed := (Routed route_chain error_chain task_code hook_code callback_code cancel_code).
Notation Life := (Life route_chain error_chain task_code hook_code callback_code cancel_code).
Notation Destroyed := (Destroyed route_chain error_chain task_code hook_code callback_code cancel_code).

Definition MGood (c : ctx) (t : list event) (c' : ctx) : Prop :=
  forall m, MR m c -> exists m', mrun t m = Some m' /\ MR m' c' /\ MQ m m'.

Lemma mgood_refl c : MGood c [] c.
Proof. intros m H. exists m. split; [reflexivity|]. split; [exact H|apply MQ_refl]. Qed.

Lemma mgood_app c t1 c1 t2 c2 : MGood c t1 c1 -> MGood c1 t2 c2 -> MGood c (t1 ++ t2) c2.
Proof.
  intros A B m H. destruct (A m H) as (m1 & E1 & R1 & Q1). destruct (B m1 R1) as (m2 & E2 & R2 & Q2).
  exists m2. rewrite mrun_app, E1. split; [exact E2|]. split; [exact R2|]. now apply MQ_trans with m1.
Qed.

(** Same as far as the monitor can tell. *)
Definition msame (c d : ctx) : Prop := finalised c = finalised d /\ (cancelled c = true -> cancelled d = true) /\ callback c = callback d.

Lemma mgood_from c d t c' : msame c d -> MGood d t c' -> MGood c t c'.
Proof.
  intros (A & B & C) G m (R1 & R2 & R3 & R4 & R5). apply G. repeat split; auto; try congruence.
Qed.

Lemma mgood_to c t d c' : msame d c' -> MGood c t d -> MGood c t c'.
Proof.
  intros (A & B & C) G m H. destruct (G m H) as (m' & E & (R1 & R2 & R3 & R4 & R5) & Q). exists m'. split; [exact E|].
  split; [|exact Q]. repeat split; auto; try congruence.
Qed.

Ltac same := repeat split; cbn; auto.

Lemma mgood_exec c k i t c' : stopped c = false -> MGood c t c' -> MGood c (Executed k i :: t) c'.
Proof.
  intros S G m H. destruct (G m H) as (m' & E & R & Q). exists m'. split; [|now split]. cbn [mrun mstep].
  destruct H as (R1 & R2 & _). unfold stopped in S. apply Bool.orb_false_iff in S as [S1 S2].
  destruct (mc m) eqn:Em; [rewrite R2 in S1 by auto; discriminate|]. unfold finalised in R1. rewrite R1, S2. cbn. exact E.
Qed.

Lemma runs_monitor p c t c' : Runs p c t c' -> MGood c t c'.
Proof.
  induction 1.
  - apply mgood_refl.
  - intros m Hm. cbn [mrun mstep]. now apply (mgood_app c t1 c1 t2 c2).
  - apply mgood_refl.
  - eapply mgood_to; [|apply mgood_refl]. same.
  - (* finalised silently *)
    intros m (R1 & R2 & R3 & R4 & R5). cbn [mrun mstep].
    assert (Em : mo m = false) by (rewrite R1; unfold finalised; destruct (state c); congruence). rewrite Em.
    destruct (IHRuns (mkMon (mc m) true (mr m) (ms m) (mt m))) as (m' & E & R & Q).
    { repeat split; cbn; auto. }
    exists m'. split; [exact E|]. split; [exact R|]. destruct Q as (Q1 & Q2 & Q3 & Q4). cbn in *.
    destruct R as (_ & _ & R3' & _). rewrite H3 in R3'. symmetry in R3'. apply Bool.negb_false_iff in R3'.
    unfold MQ. rewrite Em. repeat split; auto; discriminate.
  - intros m (R1 & R2 & R3 & R4 & R5). cbn [mrun mstep].
    assert (Em : mo m = false) by (rewrite R1; unfold finalised; destruct (state c); congruence). rewrite Em.
    destruct (IHRuns1 (mkMon (mc m) true (mr m) (ms m) (mt m))) as (m1 & E & R & Q).
    { repeat split; cbn; auto. }
    rewrite mrun_app, E. cbn [mrun mstep]. destruct Q as (Q1 & Q2 & Q3 & Q4). cbn in *.
    destruct (Q1 eq_refl) as [Q1a Q1b]. rewrite Q1a.
    assert (Er : mr m = false) by (destruct (mr m); auto; now rewrite R5 in Em by auto). rewrite Q1b, Er.
    destruct R as (U1 & U2 & U3 & U4 & U5). rewrite H3 in U3. symmetry in U3. apply Bool.negb_true_iff in U3. rewrite U3. cbn [andb negb].
    destruct (IHRuns2 (mkMon (mc m1) true true (ms m1) (mt m1))) as (m2 & E2 & S & T).
    { repeat split; cbn; auto; try congruence. rewrite U3. exact H3. }
    rewrite U3 in E2. exists m2. split; [exact E2|]. split; [exact S|]. destruct T as (T1 & T2 & T3 & T4). cbn in *.
    unfold MQ. rewrite Em, Er. repeat split; auto; try discriminate.
  - assumption.
  - apply mgood_refl.
  - apply mgood_exec; [assumption|]. eapply mgood_from; [|eassumption]. same.
  - apply mgood_exec; [assumption|]. eapply mgood_from; [|eapply mgood_to; [|eassumption]]; same.
  - apply mgood_exec; [assumption|]. apply mgood_app with c1.
    + eapply mgood_from; [|eassumption]. same.
    + eapply mgood_from; [|eassumption]. same.
  - eapply mgood_from; [|eassumption]. same.
  - assumption.
  - apply mgood_refl.
  - assumption.
  - eapply mgood_from; [|eassumption]. same.
  - eapply mgood_from; [|eassumption]. same.
  - eapply mgood_from; [|eassumption]. same.
  - eapply mgood_from; [|eassumption]. same.
  - eapply mgood_from; [|eassumption]. same.
  - eapply mgood_from; [|eassumption]. same.
  - apply mgood_refl.
  - (* cancel with a task in flight *)
    intros m (R1 & R2 & R3 & R4 & R5). unfold stopped in H. apply Bool.orb_false_iff in H as [S1 S2].
    assert (Em : mc m = false) by (destruct (mc m); auto; rewrite R2 in S1; auto). cbn [mrun mstep].
    unfold finalised in R1. rewrite S2 in R1. rewrite Em, R1. cbn.
    assert (Et : mt m = false) by (destruct (mt m); auto; rewrite R4 in Em; auto). rewrite Et. cbn.
    destruct (mgood_app _ _ _ _ _ IHRuns1 (mgood_from _ _ _ _ ltac:(same) IHRuns2)
       (mkMon true false (mr m) (ms m) true)) as (m' & E & R & Q).
    { repeat split; cbn; auto. intros X. rewrite R5 in R1; auto. }
    exists m'. split; [exact E|]. split; [exact R|]. destruct Q as (Q1 & Q2 & Q3 & Q4). cbn in *. unfold MQ. rewrite R1. repeat split; auto; discriminate.
  - intros m (R1 & R2 & R3 & R4 & R5). unfold stopped in H. apply Bool.orb_false_iff in H as [S1 S2].
    assert (Em : mc m = false) by (destruct (mc m); auto; rewrite R2 in S1; auto). cbn [mrun mstep].
    unfold finalised in R1. rewrite S2 in R1. rewrite Em, R1. cbn.
    destruct (IHRuns (mkMon true false (mr m) (ms m) (mt m))) as (m' & E & R & Q).
    { repeat split; cbn; auto. intros X. rewrite R5 in R1; auto. }
    exists m'. split; [exact E|]. split; [exact R|]. destruct Q as (Q1 & Q2 & Q3 & Q4). cbn in *. unfold MQ. rewrite R1. repeat split; auto; discriminate.
  - intros m (R1 & R2 & R3 & R4 & R5). cbn. eexists. split; [reflexivity|]. unfold MR, MQ. cbn. repeat split; auto.
  - eapply mgood_to; [|apply mgood_refl]. same.
  - eapply mgood_to; [|apply mgood_refl]. same.
  - eapply mgood_from; [|eassumption]. same.
  - eapply mgood_to; [|apply mgood_refl]. same.
Qed.

Lemma starts_monitor c t c' : Starts c t c' -> MGood c t c'.
Proof.
  intros [c0 H|c0 t0 c0' H Hr]; [apply mgood_refl|]. apply runs_monitor in Hr. eapply mgood_from; [|exact Hr].
  unfold stopped in H. apply Bool.orb_false_iff in H as [S1 S2]. repeat split; auto.
Qed.

Lemma routed_monitor t1 t2 c : Routed t1 t2 c -> MGood fresh (t1 ++ t2) c.
Proof.
  intros [us a c1 b c2 A B|us a c1 na us' a' c1' b c2 A B C].
  - apply mgood_app with c1; [now apply runs_monitor in A|]. apply runs_monitor in B. eapply mgood_from; [|exact B]. same.
  - apply mgood_app with c1'; [apply mgood_app with c1|now apply starts_monitor]; [now apply runs_monitor in A|].
    apply runs_monitor in B. eapply mgood_from; [|exact B]. destruct na; same.
Qed.

Lemma life_monitor t1 t2 c : Life t1 t2 c -> MGood fresh (t1 ++ t2) c.
Proof.
  intros [b s c1 l us c' A B]. rewrite app_assoc. apply mgood_app with c1; [now apply routed_monitor|now apply runs_monitor in B].
Qed.

Lemma destroyed_monitor c t c' : Destroyed c t c' -> MGood c t c'.
Proof. intros [c0 H|c0 t0 c0' H A]; [apply mgood_refl|now apply runs_monitor in A]. Qed.

Lemma fresh_MR : MR mon0 fresh.
Proof. repeat split; cbn; auto; discriminate. Qed.

(** ** Sealed: the request has been ended, though a guard may still delay the response *)

Definition Sealed (c : ctx) : Prop := finalised c = true \/ (pending c = true /\ (0 < depth c)%nat).

Lemma finalised_iff c : finalised c = true <-> state c = Finalised.
Proof. unfold finalised. destruct (state c); split; congruence. Qed.

(** The calls that end a request. *)
Definition ends (u : ucall) : bool :=
  match u with UComplete COMPLETE | UComplete CANCELLED | UComplete FATAL | UCancel | USuppress => true | _ => false end.

Definition Seals (p : proc) (c : ctx) (t : list event) (c' : ctx) : Prop :=
  (Sealed c -> Sealed c')
  /\ (cancelled c = true -> cancelled c' = true)
  /\ (cancelled c = false -> (cancelled c' = true -> Sealed c') /\ (forall u, In (Made u) t -> ends u = true -> Sealed c'))
  /\ match p with Finalize => Sealed c' | Call u => ends u = true -> (u = UCancel -> cancelled c = false) -> Sealed c' | _ => True end.

Lemma stopped_false c : stopped c = false -> cancelled c = false /\ finalised c = false.
Proof. unfold stopped, finalised. intros H. now apply Bool.orb_false_iff in H. Qed.

Lemma seals_user p c t c' : Seals p c t c' -> Seals (User []) c t c'.
Proof. intros (A & B & C & D). exact (conj A (conj B (conj C I))). Qed.

Lemma seals_app c t1 c1 t2 c2 : Seals (User []) c t1 c1 -> Seals (User []) c1 t2 c2 -> Seals (User []) c (t1 ++ t2) c2.
Proof.
  intros (A1 & A2 & A3 & _) (B1 & B2 & B3 & _). refine (conj _ (conj _ (conj _ I))); auto. intros H. destruct (A3 H) as [A4 A5]. split.
  - intros E. destruct (cancelled c1) eqn:E1; [auto|]. now apply B3.
  - intros u Hin Hu. apply in_app_iff in Hin as [Hin|Hin]; [eauto|].
    destruct (cancelled c1) eqn:E1; [auto|]. eapply (proj2 (B3 eq_refl)); eauto.
Qed.

Lemma seals_nil c : Seals (User []) c [] c.
Proof. refine (conj _ (conj _ (conj _ I))); auto. intros H. split; [congruence|intros u []]. Qed.

Lemma seals_skip e c t c' : (forall u, e <> Made u) -> Seals (User []) c t c' -> Seals (User []) c (e :: t) c'.
Proof.
  intros He (A & B & C & D). refine (conj A (conj B (conj _ I))). intros H. destruct (C H) as [C1 C2]. split; [exact C1|].
  intros u [E|Hin]; [now apply He in E|now apply C2].
Qed.

Lemma runs_seals p c t c' : Runs p c t c' -> Seals p c t c'.
Proof.
  assert (Fin : forall (c : ctx), state c = Finalised -> Sealed c) by (intros c0 E; left; now apply finalised_iff).
  induction 1.
  - apply seals_nil.
  - (* user *)
    destruct (seals_app _ _ _ _ _ (seals_user _ _ _ _ IHRuns1) (seals_user _ _ _ _ IHRuns2)) as (A & B & C & _).
    destruct IHRuns1 as (_ & _ & _ & P1). destruct IHRuns2 as (P2 & _).
    refine (conj A (conj B (conj _ I))). intros Hc. destruct (C Hc) as [C1 C2]. split; [exact C1|].
    intros v [E|Hin] Hv; [injection E as <-; auto|eauto].
  - destruct (seals_nil c) as (A & B & C & _). refine (conj A (conj B (conj C _))). auto.
  - assert (S : Sealed (set_pending true c)) by (right; cbn; auto with arith).
    refine (conj (fun _ => S) (conj (fun E => E) (conj _ S))). intros E. split; [intros; exact S|intros ? []].
  - destruct IHRuns as (A & B & C & _). assert (S : Sealed c1) by (apply A; left; reflexivity).
    refine (conj (fun _ => S) (conj B (conj _ S))). intros E. split; intros; exact S.
  - destruct IHRuns1 as (A & B & _). destruct IHRuns2 as (A2 & B2 & _).
    assert (S : Sealed c2) by (apply A2, A; left; reflexivity).
    refine (conj (fun _ => S) (conj _ (conj _ S))); [intros E; apply B2; now apply B|intros; split; intros; exact S].
  - now apply seals_user in IHRuns.
  - apply seals_nil.
  - apply seals_skip; [discriminate|]. now apply seals_user in IHRuns.
  - apply seals_skip; [discriminate|]. now apply seals_user in IHRuns.
  - apply seals_skip; [discriminate|]. apply seals_app with c1; [now apply seals_user in IHRuns1|now apply seals_user in IHRuns2].
  - now apply seals_user in IHRuns.
  - now apply seals_user in IHRuns.
  - destruct (seals_nil c) as (A & B & C & _). refine (conj A (conj B (conj C _))). intros _ _. now left.
  - destruct IHRuns as (A & B & C & D). refine (conj A (conj B (conj C _))). auto.
  - destruct IHRuns as (A & B & C & D). refine (conj A (conj B (conj C _))). discriminate.
  - destruct IHRuns as (A & B & C & D). refine (conj A (conj B (conj C _))). auto.
  - destruct IHRuns as (A & B & C & D). refine (conj A (conj _ (conj _ _))); auto; try (intros; split; auto; fail).
  - destruct IHRuns as (A & B & C & D). refine (conj A (conj B (conj C _))). auto.
  - destruct IHRuns as (A & B & C & D). refine (conj A (conj B (conj C _))). discriminate.
  - destruct IHRuns as (A & B & C & D). refine (conj A (conj B (conj C _))). discriminate.
  - destruct (seals_nil c) as (A & B & C & _). refine (conj A (conj B (conj C _))). intros _ Hc. unfold stopped in H.
    rewrite Hc in H by auto. left. exact H.
  - destruct IHRuns1 as (A1 & B1 & C1 & _). destruct IHRuns2 as (A2 & B2 & C2 & D2).
    assert (S : Sealed c') by (apply D2; auto; discriminate).
    refine (conj (fun _ => S) (conj _ (conj _ (fun _ _ => S)))); [intros E; apply B2; now apply B1|intros; split; intros; exact S].
  - destruct IHRuns as (A & B & C & D). assert (S : Sealed c') by (apply D; auto; discriminate).
    refine (conj (fun _ => S) (conj _ (conj _ (fun _ _ => S)))); [intros E; now apply B|intros; split; intros; exact S].
  - assert (S : Sealed (set_in_flight false (set_state Finalised (set_callback false c)))) by (left; reflexivity).
    refine (conj (fun _ => S) (conj (fun E => E) (conj _ (fun _ _ => S)))). intros; split; intros; exact S.
  - refine (conj _ (conj (fun E => E) (conj _ _))); [|intros E; split; [cbn; congruence|intros ? []]|discriminate].
    intros [S|[S1 S2]]; [now left|right; cbn; auto with arith].
  - refine (conj _ (conj (fun E => E) (conj _ _))); [|intros E; split; [cbn; congruence|intros ? []]|discriminate].
    intros [S|[S1 S2]]; [now left|right; cbn]. destruct H0 as [H0|H0]; [|congruence]. split; [exact S1|lia].
  - destruct IHRuns as (A & B & C & D). refine (conj (fun _ => D) (conj B (conj C _))). discriminate.
  - destruct (seals_nil c) as (A & B & C & _). refine (conj A (conj B (conj C _))). discriminate.
Qed.

Lemma starts_seals c t c' : Starts c t c' -> Seals (User []) c t c'.
Proof.
  intros [c0 H|c0 t0 c0' H Hr]; [apply seals_nil|]. apply runs_seals, seals_user in Hr. destruct Hr as (A & B & C & D).
  apply stopped_false in H as [H1 H2]. refine (conj _ (conj B (conj C I))). intros [S|S]; [congruence|]. apply A. now right.
Qed.

Lemma routed_seals t1 t2 c : Routed t1 t2 c -> Seals (User []) fresh (t1 ++ t2) c.
Proof.
  intros [us a c1 b c2 A B|us a c1 na us' a' c1' b c2 A B C].
  - apply seals_app with c1; [now apply runs_seals, seals_user in A|]. now apply runs_seals, seals_user in B.
  - apply seals_app with c1'; [apply seals_app with c1|now apply starts_seals]; [now apply runs_seals, seals_user in A|].
    apply runs_seals, seals_user in B. destruct na; exact B.
Qed.

Lemma life_seals t1 t2 c : Life t1 t2 c -> Seals (User []) fresh (t1 ++ t2) c.
Proof.
  intros [b s c1 l us c' A B]. rewrite app_assoc. apply seals_app with c1; [now apply routed_seals|now apply runs_seals, seals_user in B].
Qed.

(** ** The order in which tasks run *)

Definition kind_eqb (a b : chain_kind) : bool :=
  match a, b with NoChain, NoChain | RouteChain, RouteChain | ErrorChain, ErrorChain => true | _, _ => false end.
Lemma kind_eqb_eq a b : kind_eqb a b = true <-> a = b.
Proof. destruct a, b; cbn; split; congruence. Qed.

Definition ostep (kn : chain_kind * nat) (e : event) : option (chain_kind * nat) :=
  let '(k, n) := kn in
  match e with
  | Executed k1 i => if kind_eqb k1 k && (n <=? i)%nat then Some (k1, S i)
                     else if kind_eqb k1 ErrorChain && negb (kind_eqb k ErrorChain) then Some (k1, S i) else None
  | TaskCancelled k1 i => if kind_eqb k1 k && (S i =? n)%nat then Some kn else None
  | _ => Some kn
  end.

Fixpoint orun (t : list event) (kn : chain_kind * nat) : option (chain_kind * nat) :=
  match t with [] => Some kn | e :: t' => match ostep kn e with Some x => orun t' x | None => None end end.

Lemma orun_app t1 t2 x : orun (t1 ++ t2) x = match orun t1 x with Some y => orun t2 y | None => None end.
Proof. revert x. induction t1 as [|e t1 IH]; intros x; cbn [orun app]; [reflexivity|]. destruct (ostep x e); auto. Qed.

Definition OI (strict : bool) (kn : chain_kind * nat) (c : ctx) : Prop :=
  let '(k, n) := kn in
  (chain c = k -> (n <= if strict then index c else S (index c))%nat)
  /\ (chain c <> k -> k <> ErrorChain /\ chain c = ErrorChain)
  /\ (chain c = ErrorChain -> error_phase c = true)
  /\ (in_flight c = true -> chain c = k /\ n = S (index c)).

Definition strict (p : proc) : bool := match p with Proceed => true | _ => false end.

Definition OGood (p : proc) (c : ctx) (t : list event) (c' : ctx) : Prop :=
  forall x, OI (strict p) x c -> exists x', orun t x = Some x' /\ OI false x' c'.

Lemma OI_weak x c : OI true x c -> OI false x c.
Proof. destruct x as [k n]. cbn. intros (A & B & C & D). repeat split; auto; try apply B; try apply D; auto. Qed.

Lemma OI_quiet b x c : OI b x c -> OI b x (set_in_flight false c).
Proof. destruct x as [k n]. cbn. intros (A & B & C & D). refine (conj A (conj B (conj C _))). discriminate. Qed.

Lemma ogood_weak p c t c' : OGood (User []) c t c' -> OGood p c t c'.
Proof. intros G x H. apply G. destruct p; auto. now apply OI_weak. Qed.

Lemma ogood_app c t1 c1 t2 c2 : OGood (User []) c t1 c1 -> OGood (User []) c1 t2 c2 -> OGood (User []) c (t1 ++ t2) c2.
Proof.
  intros A B x H. destruct (A x H) as (y & E & Y). destruct (B y Y) as (z & F & Z). exists z. rewrite orun_app, E. now split.
Qed.

Lemma ogood_nil c : OGood (User []) c [] c.
Proof. intros x H. exists x. split; [reflexivity|exact H]. Qed.

(** Running a task from the main loop. *)
Lemma ogood_exec c t c1 : OGood (User []) (set_in_flight true c) t c1 -> OGood Proceed c (Executed (chain c) (index c) :: t) c1.
Proof.
  intros G [k n] (A & B & C & D). cbn [orun ostep].
  assert (N : OI false (chain c, S (index c)) (set_in_flight true c)).
  { cbn. refine (conj _ (conj _ (conj C _))); auto; try lia. intros H. now destruct H. }
  destruct (kind_eqb (chain c) k) eqn:E1.
  - apply kind_eqb_eq in E1. cbn [andb]. specialize (A E1). cbn [strict] in A. replace (n <=? index c)%nat with true by (symmetry; now apply Nat.leb_le).
    now apply G.
  - cbn [andb]. assert (E2 : chain c <> k) by (intros E2; apply kind_eqb_eq in E2; congruence). destruct (B E2) as [B1 B2].
    replace (kind_eqb (chain c) ErrorChain) with true by (symmetry; now apply kind_eqb_eq).
    destruct (kind_eqb k ErrorChain) eqn:E3; [now apply kind_eqb_eq in E3|]. cbn [andb negb]. now apply G.
Qed.

Lemma runs_order p c t c' : Runs p c t c' -> OGood p c t c'.
Proof.
  induction 1.
  - apply ogood_nil.
  - intros x H1. cbn [orun ostep].
    replace (match (let '(k, n) := x in Some x) with Some y => orun (t1 ++ t2) y | None => None end) with (orun (t1 ++ t2) x) by (destruct x; reflexivity).
    destruct x as [k n]. exact (ogood_app _ _ _ _ _ IHRuns1 IHRuns2 (k, n) H1).
  - apply ogood_nil.
  - intros [k n] Hx. exists (k, n). split; [reflexivity|exact Hx].
  - intros [k n] Hx. cbn [orun ostep]. apply IHRuns. exact (OI_quiet _ _ _ Hx).
  - intros [k n] Hx. cbn [orun ostep]. destruct (IHRuns1 (k, n) (OI_quiet _ _ _ Hx)) as ([k' n'] & E & Y).
    rewrite orun_app, E. cbn [orun ostep]. exact (IHRuns2 _ Y).
  - apply ogood_weak. exact IHRuns.
  - apply ogood_weak, ogood_nil.
  - apply ogood_exec. exact IHRuns.
  - apply ogood_exec. intros x Hx. destruct (IHRuns x Hx) as (y & E & Y). exists y. split; [exact E|now apply OI_quiet].
  - apply ogood_exec. apply ogood_app with c1; [exact IHRuns1|]. intros x Hx. apply IHRuns2. now apply OI_quiet.
  - intros [k n] (A & B & C & D). apply IHRuns. cbn in *. refine (conj _ (conj B (conj C _))); [intros E; specialize (A E); lia|].
    intros E. destruct (D E) as [D1 D2]. specialize (A D1). lia.
  - apply ogood_weak. exact IHRuns.
  - apply ogood_nil.
  - exact IHRuns.
  - intros [k n] (A & B & C & D). apply IHRuns. cbn in *. refine (conj A (conj B (conj C _))). discriminate.
  - intros x Hx. apply IHRuns. exact (OI_quiet _ _ _ Hx).
  - intros x Hx. apply IHRuns. exact (OI_quiet _ _ _ Hx).
  - intros x Hx. apply IHRuns. exact (OI_quiet _ _ _ Hx).
  - intros x Hx. apply IHRuns. exact (OI_quiet _ _ _ Hx).
  - intros [k n] (A & B & C & D). apply IHRuns. cbn in *.
    assert (Hk : k <> ErrorChain).
    { intros ->. destruct (chain c) eqn:E; [destruct (B ltac:(discriminate)); congruence|destruct (B ltac:(discriminate)); congruence|].
      rewrite C in H0; congruence. }
    refine (conj _ (conj _ (conj _ _))); auto; try congruence.
  - apply ogood_nil.
  - intros [k n] (A & B & C & D). cbn [orun ostep]. destruct (D H0) as [E1 E2].
    replace (kind_eqb (chain c) k) with true by (symmetry; now apply kind_eqb_eq). subst n. rewrite Nat.eqb_refl. cbn [andb].
    assert (X : OI false (k, S (index c)) (set_cancelled true c)) by (exact (conj A (conj B (conj C D)))).
    destruct (IHRuns1 _ X) as (y & E & Y). destruct (IHRuns2 y) as (z & F & Z); [destruct y; exact Y|].
    exists z. rewrite orun_app, E. now split.
  - intros [k n] Hx. cbn [orun ostep]. apply IHRuns. exact Hx.
  - intros [k n0] Hx. exists (k, n0). split; [reflexivity|]. exact (OI_quiet _ _ _ Hx).
  - intros [k n0] Hx. exists (k, n0). split; [reflexivity|exact Hx].
  - intros [k n0] Hx. exists (k, n0). split; [reflexivity|exact Hx].
  - intros [k n] Hx. apply IHRuns. exact Hx.
  - intros [k n0] Hx. exists (k, n0). split; [reflexivity|exact Hx].
Qed.

(** The tasks run, in order. *)
Definition execs (t : list event) : list (chain_kind * nat) :=
  flat_map (fun e => match e with Executed k i => [(k, i)] | _ => [] end) t.

Lemma execs_app a b : execs (a ++ b) = execs a ++ execs b.
Proof. apply flat_map_app. Qed.

Lemma app_nil_both {A} (a b : list A) : a ++ b = [] -> a = [] /\ b = [].
Proof. destruct a; [auto|discriminate]. Qed.

(** Events that concern no task. *)
Definition taskless (e : event) : Prop := match e with Executed _ _ | TaskCancelled _ _ => False | _ => True end.

Lemma taskless_orun t x : Forall taskless t -> orun t x = Some x.
Proof. induction 1 as [|e t H F IH]; [reflexivity|]. destruct x as [k n], e; cbn in *; auto; contradiction. Qed.

Lemma runs_stopped p c t c' : Runs p c t c' -> stopped c = true -> stopped c' = true /\ Forall taskless t.
Proof.
  assert (F : forall c : ctx, state c = Finalised -> stopped c = true) by (intros c0 E; unfold stopped; rewrite E; apply Bool.orb_true_r).
  induction 1; intros Hs; try congruence; auto.
  - destruct (IHRuns1 Hs) as [A1 A2]. destruct (IHRuns2 A1) as [B1 B2]. split; [exact B1|].
    constructor; [exact I|]. now apply Forall_app.
  - destruct IHRuns as [A1 A2]; [apply F; reflexivity|]. split; [exact A1|]. constructor; [exact I|exact A2].
  - destruct IHRuns1 as [A1 A2]; [apply F; reflexivity|]. destruct (IHRuns2 A1) as [B1 B2]. split; [exact B1|].
    constructor; [exact I|]. apply Forall_app. split; [exact A2|]. constructor; [exact I|exact B2].
  - split; [apply F; reflexivity|]. constructor; [exact I|constructor].
Qed.

Lemma runs_noexec p c t c' : Runs p c t c' -> execs t = [] -> in_flight c = false -> in_flight c' = false /\ Forall taskless t.
Proof.
  induction 1; cbn; intros He Hf; auto; try discriminate.
  - change (execs (t1 ++ t2) = []) in He. rewrite execs_app in He. apply app_nil_both in He as [E1 E2].
    destruct (IHRuns1 E1 Hf) as [A B]. destruct (IHRuns2 E2 A) as [C D]. split; [exact C|]. constructor; [exact I|]. now apply Forall_app.
  - destruct (IHRuns He eq_refl) as [A B]. split; [exact A|]. constructor; [exact I|exact B].
  - change (execs (t1 ++ Responded (status c1) :: t2) = []) in He. rewrite execs_app in He. apply app_nil_both in He as [E1 E2].
    destruct (IHRuns1 E1 eq_refl) as [A B]. destruct (IHRuns2 E2 A) as [C D]. split; [exact C|].
    constructor; [exact I|]. apply Forall_app. split; [exact B|]. constructor; [exact I|exact D].
  - congruence.
  - destruct (IHRuns He Hf) as [A B]. split; [exact A|]. constructor; [exact I|exact B].
  - split; [reflexivity|]. constructor; [exact I|constructor].
Qed.

(** Every task run is a real task of the chain named. *)
Lemma runs_tasks p c t c' : Runs p c t c' -> Forall (fun x => nth_error (tasks route_chain error_chain (fst x)) (snd x) = Some true) (execs t).
Proof.
  assert (C : forall k i t, Forall (fun x => nth_error (tasks route_chain error_chain (fst x)) (snd x) = Some true) (execs t) ->
    nth_error (tasks route_chain error_chain k) i = Some true ->
    Forall (fun x => nth_error (tasks route_chain error_chain (fst x)) (snd x) = Some true) (execs (Executed k i :: t))) by (intros; constructor; auto).
  induction 1; try (constructor; fail); auto.
  - change (execs (Made u :: t1 ++ t2)) with (execs (t1 ++ t2)). rewrite execs_app. apply Forall_app. auto.
  - change (execs (Hooked :: t1 ++ Responded (status c1) :: t2)) with (execs (t1 ++ Responded (status c1) :: t2)). rewrite execs_app. apply Forall_app. auto.
  - apply C; auto. rewrite execs_app. apply Forall_app. auto.
  - change (execs (CancelRequested :: TaskCancelled (chain c) (index c) :: t1 ++ t)) with (execs (t1 ++ t)). rewrite execs_app. apply Forall_app. auto.
Qed.

End Ctx.

Lemma order_shape t k n x : orun t (k, n) = Some x -> exists l1 l2,
  execs t = map (fun i => (k, i)) l1 ++ map (fun i => (ErrorChain, i)) l2 /\ (k = ErrorChain -> l2 = [])
  /\ Sorted.StronglySorted lt l1 /\ Sorted.StronglySorted lt l2 /\ Forall (fun i => (n <= i)%nat) l1.
Proof.
  revert k n. induction t as [|e t IH]; intros k n; cbn [orun].
  - intros _. exists [], []. cbn. repeat split; auto; constructor.
  - destruct e as [u|k1 i|k1 i| | | |s]; cbn [ostep]; try (intros E; destruct (IH _ _ E) as (l1 & l2 & A); exists l1, l2; exact A).
    + destruct (kind_eqb k1 k && (n <=? i)%nat) eqn:E1.
      * apply andb_prop in E1 as [E1 E2]. apply kind_eqb_eq in E1. subst k1. apply Nat.leb_le in E2. intros E.
        destruct (IH _ _ E) as (l1 & l2 & A & B & C & D & F). exists (i :: l1), l2. cbn. unfold execs in A. rewrite A. repeat split; auto.
        -- constructor; auto.
        -- constructor; auto. eapply Forall_impl; [|exact F]. cbn. lia.
      * destruct (kind_eqb k1 ErrorChain && negb (kind_eqb k ErrorChain)) eqn:E2; [|discriminate].
        apply andb_prop in E2 as [E2 E3]. apply kind_eqb_eq in E2. subst k1. intros E.
        destruct (IH _ _ E) as (l1 & l2 & A & B & C & D & F). rewrite (B eq_refl) in A. cbn [map] in A. rewrite app_nil_r in A.
        exists [], (i :: l1). cbn. unfold execs in A. rewrite A. repeat split; auto; try constructor; auto.
        -- intros ->. discriminate.
    + destruct (kind_eqb k1 k && (S i =? n)%nat); [|discriminate].
      intros E; destruct (IH _ _ E) as (l1 & l2 & A); exists l1, l2; exact A.
Qed.
