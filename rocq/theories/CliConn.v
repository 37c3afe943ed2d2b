(** Invariants of the client's connection side. *)
From Verif Require Import Base UtilModel CliModel CliSpec CliProofs CliBatch2.
Local Open Scope nat_scope.

Lemma flat_count_app {A} (f : A -> nat) a b : list_sum (map f (a ++ b)) = list_sum (map f a) + list_sum (map f b).
Proof. now rewrite map_app, list_sum_app. Qed.

(** ** Connection callbacks *)
Definition occ (t x : nat) : nat := if x =? t then 1 else 0.
Definition asks (t : nat) (e : ev) : nat := match e with EConnAsked x => occ t x | _ => 0 end.
Definition tells (t : nat) (e : ev) : nat := match e with EConnCalled x _ => occ t x | _ => 0 end.
Definition tot {A} (f : A -> nat) (l : list A) : nat := list_sum (map f l).
Definition owes (t : nat) (f : frame) : nat := match f with FConnCall x _ => occ t x | FConnCbs _ l => tot (occ t) l | _ => 0 end.
Lemma tot_app {A} (f : A -> nat) a b : tot f (a ++ b) = tot f a + tot f b. Proof. apply flat_count_app. Qed.
Lemma tot_cons {A} (f : A -> nat) x b : tot f (x :: b) = f x + tot f b. Proof. reflexivity. Qed.
Lemma tot_nil {A} (f : A -> nat) : tot f [] = 0. Proof. reflexivity. Qed.
Definition CcbInv (t : nat) (s : st) : Prop :=
  tot (asks t) (s_log s) = tot (tells t) (s_log s) + tot (occ t) (s_ccbs s) + tot (owes t) (s_stack s).
Ltac unf := unfold api, exec, push_request, push_requests, do_disconnect, process_pending, do_connect, fail_active, connection_success, connection_failure,
  fail_connection, handle_response, reset_deferred, batch_lambda, start_attempt, create_connection, destroy, invoke, is_open.
Ltac tots := repeat (rewrite ?tot_app, ?tot_cons, ?tot_nil in * ); cbn [asks tells owes] in *; repeat (rewrite ?tot_app, ?tot_cons, ?tot_nil in * ).
Ltac explode := repeat (brk; sg).
Lemma ccb_api t s a : CcbInv t s -> CcbInv t (api s a).
Proof.
  unfold CcbInv. ds s. sg. intros H. destruct a; unf; sg; cbn zeta; sg; explode; tots; lia.
Qed.
Lemma ccb_exec t s f k ch : CcbInv t s -> s_stack s = f :: k -> CcbInv t (exec (set_stack s k) f ch).
Proof.
  unfold CcbInv. ds s. sg. intros H HK. subst sk. destruct f; unf; sg; cbn zeta; sg; explode; subst; tots; try lia.
Qed.
Lemma ccb_io t s e s' : CcbInv t s -> io s e = Some s' -> CcbInv t s'.
Proof.
  unfold CcbInv. ds s. sg. intros H. destruct e; unfold io; unf; sg; cbn zeta; sg; explode; intros HE; try discriminate HE; injection HE as <-; sg; tots; try lia.
Qed.
Lemma ccb_reach t base ls s : reaches base ls s -> CcbInv t s.
Proof.
  apply (step_cases (CcbInv t)).
  - intros s0 a H _. now apply ccb_api.
  - intros s0 k H HK. unfold CcbInv in *. sg. rewrite HK in H. tots. lia.
  - intros. now apply ccb_exec.
  - intros. eapply ccb_io; eauto.
  - reflexivity.
Qed.

(** ** Depth of callbacks *)
Definition scoped (f : frame) : nat := match f with FScope => 1 | _ => 0 end.
Definition Depth (s : st) : Prop := s_depth s = tot scoped (s_stack s).
Ltac tots2 := repeat (rewrite ?tot_app, ?tot_cons, ?tot_nil in * ); cbn [scoped pred] in *; repeat (rewrite ?tot_app, ?tot_cons, ?tot_nil in * ).
Lemma depth_step s l s' : Depth s -> step s l = Some s' -> Depth s'.
Proof.
  intros H E. apply (step_cases Depth) with (ls := [l]) (s := s); [| | | | |cbn [run]; now rewrite E].
  all: unfold Depth.
  - intros s0 a H0 _. revert H0. ds s0. sg. intros H0. destruct a; unf; sg; cbn zeta; sg; explode; tots2; lia.
  - intros s0 k H0 HK. rewrite HK in H0. sg. tots2. lia.
  - intros s0 f k ch H0 HK _. revert H0 HK. ds s0. sg. intros H0 HK. subst sk dp. destruct f; unf; sg; cbn zeta; sg; explode; subst; tots2; lia.
  - intros s0 e s1 H0 HK. revert H0 HK. ds s0. sg. intros H0 HK. subst sk dp. destruct e; unfold io; unf; sg; cbn zeta; sg; explode; intros HE; try discriminate HE; injection HE as <-; sg; tots2; lia.
  - exact H.
Qed.
Lemma depth_reach base ls s : reaches base ls s -> Depth s.
Proof. apply run_inv; [exact depth_step|reflexivity]. Qed.
