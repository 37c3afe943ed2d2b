(** Theorems on the coroutine WebSocket endpoints coro_client and coro_session (C178-C183). *)
From Verif Require Import Base CoroModel CoroSpec CoroProofs CoroProofs2 CoroKeep.
Local Open Scope N_scope.

(** ** C178: order *)
(** Whatever happens, what the application gets on a connection is what arrived on it, in order, without repetitions. *)
Theorem coro_frames_in_order sd es : usable sd es -> subsequence (returned (since (chronicle sd es))) (arrived (since (chronicle sd es))).
Proof.
  intros U. pose proof (o_sub _ _ (ord_run sd es U)) as H. unfold A, B in H. eapply sub_trans; [exact H|]. rewrite <- (app_nil_r (returned _)) at 1. apply sub_app; [apply sub_refl|apply sub_nil_l].
Qed.

(** ** C179: nothing is lost while the reader keeps up *)
(** [c] is at most every limit in force; whenever something arrives, fewer than [c] frames wait to be read. *)
Definition limits_from (c : nat) (es : list event) : Prop := (c <= 1024)%nat /\ forall k, In (ECap k) es -> (c <= k)%nat.
Definition reader_keeps_up (c : nat) (sd : side) (es : list event) : Prop := forall a e b, es = a ++ e :: b -> incoming e <> None \/ e = EDisconnected ->
  (length (arrived (since (chronicle sd a))) < length (returned (since (chronicle sd a))) + c)%nat.
(** No coroutine is destroyed while it is suspended in a call. *)
Definition none_destroyed (sd : side) (es : list event) : Prop := forall a n b, es = a ++ EDestroy n :: b -> outcome n (chronicle sd a).
(** Nothing arrives on a connection that is gone. *)
Definition quiet_after_end (sd : side) (es : list event) : Prop := forall a e b, es = a ++ e :: b -> incoming e <> None \/ e = EDisconnected -> ~ gone (since (chronicle sd a)).
Lemma keep_run c sd es : (0 < c)%nat -> usable sd es -> limits_from c es -> reader_keeps_up c sd es -> none_destroyed sd es -> quiet_after_end sd es -> keep c [] (run sd es).
Proof.
  intros C0. induction es as [|e es IH] using rev_ind; intros U [L1 L2] K D Q.
  - constructor; cbn; auto; try discriminate; [exists []; auto].
  - apply usable_app in U as [U1 U2]. rewrite run_snoc. apply keep_step; [exact C0|apply uni_run, U1| |].
    + constructor; [exact U2| | | |].
      * intros k ->. apply L2, in_or_app. right. left. reflexivity.
      * intros n ->. apply outcomes_iff, (D es n []). reflexivity.
      * intros X. exact (Q es e [] eq_refl X).
      * intros X. exact (K es e [] eq_refl X).
    + apply IH; [exact U1|split; [exact L1|intros k X; apply L2, in_or_app; auto]| | |].
      * intros a x b ->. apply (K a x (b ++ [e])). rewrite <- app_assoc. reflexivity.
      * intros a n b ->. apply (D a n (b ++ [e])). rewrite <- app_assoc. reflexivity.
      * intros a x b ->. apply (Q a x (b ++ [e])). rewrite <- app_assoc. reflexivity.
Qed.
(** Everything that arrived was yielded or is still there, in order, and the next call yields the oldest frame there. *)
Theorem coro_keeping_up_loses_nothing_partial c sd es : (0 < c)%nat -> usable sd es -> limits_from c es -> reader_keeps_up c sd es -> none_destroyed sd es -> quiet_after_end sd es ->
  exists unread, arrived (since (chronicle sd es)) = returned (since (chronicle sd es)) ++ unread /\
    forall f rest, unread = f :: rest -> chronicle sd (es ++ [ECall KReceive]) = LDone (calls_made es) (RFrame f) :: LEvent (ECall KReceive) :: chronicle sd es.
Proof.
  intros C0 U L K D Q. pose proof (keep_run c sd es C0 U L K D Q) as [H1 (t & H2 & H2') H3 H4 H5]. pose proof (uni_run sd es U) as UN.
  exists (filter real (frames (run sd es))). rewrite app_nil_r in H1. split; [exact H1|]. intros f rest E. unfold chronicle. rewrite run_snoc. unfold step, do_call. cbv zeta. unfold do_receive.
  rewrite E in H2. cbn [Datatypes.app] in H2. cl. rewrite H2. rewrite run_calls.
  match goal with |- context [complete ?n ?r ?s] => destruct (complete_cases n r s) as [[_ X]|(-> & _ & _)] end; [|reflexivity]. exfalso. cl.
  assert (X' : In (calls_made es) (outcomes (log (run sd es))) \/ In (calls_made es) (dead (run sd es))) by (destruct X as [X|X]; [auto|left; apply (u_fin _ _ UN), X]).
  destruct (u_lt _ _ UN (calls_made es)) as [LT _]; [tauto|]. rewrite run_calls in LT. lia.
Qed.
Lemma splits {X} (es a : list X) e b : es = a ++ e :: b -> exists k, a = firstn k es /\ nth_error es k = Some e /\ (k < length es)%nat.
Proof.
  intros ->. exists (length a). split; [rewrite firstn_app, Nat.sub_diag, firstn_all; cbn; rewrite app_nil_r; reflexivity|]. split; [rewrite nth_error_app2, Nat.sub_diag by lia; reflexivity|rewrite app_length; cbn; lia].
Qed.
(** A coroutine destroyed in receive() takes the next frame with it, and another receive() is refused. *)
Theorem coro_destroyed_receive_loses_a_frame_refuted : forall sd, exists es, usable sd es /\ limits_from 1024 es /\ quiet_after_end sd es /\
  arrived (since (chronicle sd es)) = [FPing [1]] /\ returned (since (chronicle sd es)) = [] /\ chronicle sd (es ++ [ECall KReceive; EPing [2]]) = LDone 1 (RFrame (FPing [2])) :: LEvent (EPing [2]) :: LEvent (ECall KReceive) :: chronicle sd es.
Proof.
  intros sd. exists [ECall KReceive; EDestroy 0; EPing [1]]. split; [intros _ [C|[C|[C|[]]]]; discriminate|]. split; [split; [lia|intros k [C|[C|[C|[]]]]; discriminate]|]. split; [|destruct sd; repeat split; vm_compute; reflexivity].
  intros a e b E X. destruct (splits _ _ _ _ E) as (k & -> & N & L). cbn in L. unfold gone.
  do 3 (destruct k as [|k]; [cbn in N; injection N as <-; destruct X as [X|X]; try discriminate; try (destruct X; reflexivity); destruct sd; vm_compute; intros C; decompose [or] C; try discriminate; assumption|]). lia.
Qed.

(** ** C180: bounded memory *)
(** The frames kept for the application never exceed the largest limit ever in force (1024 unless set_pending_cap was called). *)
Theorem coro_buffer_bounded sd es m : (1024 <= m)%nat -> (forall k, In (ECap k) es -> (k <= m)%nat) -> (length (frames (run sd es)) <= m)%nat.
Proof.
  intros M. assert (G : (forall k, In (ECap k) es -> (k <= m)%nat) -> (length (frames (run sd es)) <= m)%nat /\ (cap (run sd es) <= m)%nat); [|intros C; apply G, C].
  induction es as [|e es IH] using rev_ind; intros C; [cbn; lia|]. rewrite run_snoc. destruct IH as [I1 I2]; [intros k X; apply C, in_or_app; auto|].
  apply step_length; auto. intros c ->. apply C, in_or_app. right. left. reflexivity.
Qed.
(** It may exceed the limit in force: lowering the limit drops nothing. *)
Theorem coro_lowered_limit_is_exceeded_refuted : forall sd, exists es, cap (run sd es) = 1%nat /\ length (frames (run sd es)) = 3%nat.
Proof. intros sd. exists [EPing [1]; EPing [2]; EPing [3]; ECap 1; EPing [4]]. destruct sd; vm_compute; auto. Qed.

(** ** C181: every call has one outcome at most *)
Theorem coro_one_outcome sd es : usable sd es -> NoDup (outcomes (chronicle sd es)) /\ forall n, outcome n (chronicle sd es) -> (n < calls_made es)%nat.
Proof.
  intros U. pose proof (uni_run sd es U) as H. split; [apply H|]. intros n O. apply outcomes_iff in O. destruct (u_lt _ _ H n (or_introl O)) as [L _]. rewrite run_calls in L. exact L.
Qed.

(** ** C182: nothing waits for a transport that is gone *)
Theorem coro_nothing_waits_after_the_end sd a e b : usable sd (a ++ e :: b) -> ends sd e -> ~ In (ECall KConnect) b ->
  forall n, (n < calls_made (a ++ e :: b))%nat -> outcome n (chronicle sd (a ++ e :: b)) \/ destroyed n (chronicle sd (a ++ e :: b)).
Proof.
  intros U E NC n L. pose proof (uni_run _ _ U) as H.
  assert (O : over (run sd (a ++ e :: b))).
  { clear H n L. induction b as [|x b IH] using rev_ind.
    - rewrite run_snoc. apply over_step; [|intros ->|exact E]; [apply uni_run; intros Q C; apply (U Q), in_or_app; auto|]. apply session_no_connect. intros Q C. apply (U Q), in_or_app. auto.
    - rewrite app_comm_cons, app_assoc, run_snoc. apply over_stays; [intros ->; apply NC, in_or_app; right; left; reflexivity|]. apply IH; [|intros C; apply NC, in_or_app; auto].
      intros Q C. apply (U Q). rewrite app_comm_cons, app_assoc. apply in_or_app. auto. }
  destruct O as (_ & O1 & O2 & O3). rewrite <- (run_calls sd) in L. destruct (u_set _ _ H n L) as [Q|[Q|[Q|[Q|[Q|Q]]]]]; try congruence.
  - left. apply outcomes_iff, Q.
  - destruct (u_dead _ _ H n Q) as [X|X]; [left; apply outcomes_iff, X|right; exact X].
Qed.

(** ** C183: Close frames *)
Definition sent_close s := closes (since (log s)).
Record shut (b : bool) (s : st) : Prop := { s_sent : sent_close s <> [] -> ~ gn s -> csent s = true; s_only : b = true -> csent s = true -> sent_close s <> [] }.
Definition like (s s' : st) : Prop := sent_close s' = sent_close s /\ (gn s' <-> gn s) /\ csent s' = csent s.
Lemma like_shut b s s' : like s s' -> shut b s -> shut b s'.
Proof. intros (E1 & E2 & E3) [H1 H2]. constructor; rewrite ?E1, ?E3; [intros X Y; apply H1; tauto|exact H2]. Qed.
Lemma like_refl s : like s s.
Proof. repeat split; auto. Qed.
Lemma like_trans s1 s2 s3 : like s1 s2 -> like s2 s3 -> like s1 s3.
Proof. intros (E1 & E2 & E3) (F1 & F2 & F3). split; [congruence|]. split; [tauto|congruence]. Qed.
Lemma like_complete n r s0 s : like s0 s -> like s0 (complete n r s).
Proof.
  intros H. destruct (complete_cases n r s) as [[-> _]|[-> _]]; [exact H|]. eapply like_trans; [exact H|]. split; [reflexivity|]. split; [|reflexivity].
  unfold gn. cl. split; [intros [C|C]; [discriminate|exact C]|intros C; right; exact C].
Qed.
Lemma like_frame f s0 s : like s0 s -> like s0 (finish_frame f s).
Proof. intros H. unfold finish_frame. destruct (frame_w s); [apply like_complete|]; exact H. Qed.
Lemma like_close f s0 s : like s0 s -> like s0 (finish_close f s).
Proof. intros H. unfold finish_close. destruct (close_w s); [apply like_complete|]; exact H. Qed.
Lemma like_connect f s0 s : like s0 s -> like s0 (finish_connect f s).
Proof. intros H. unfold finish_connect. destruct (connect_w s); [apply like_complete|]; exact H. Qed.
Lemma like_deliver f s0 s : like s0 s -> like s0 (deliver f s).
Proof. intros H. unfold deliver. destruct (frame_w s); [apply like_complete; exact H|]. destruct (Nat.eqb _ _); exact H. Qed.
Lemma like_throw n x s0 s : like s0 s -> like s0 (throw n x s).
Proof.
  intros H. eapply like_trans; [exact H|]. split; [reflexivity|]. split; [|reflexivity]. unfold gn, throw. cl. split; [intros [C|C]; [discriminate|exact C]|intros C; right; exact C].
Qed.
Lemma like_event e s : e <> ECall KConnect -> e <> EDisconnected -> like s (note (LEvent e) s).
Proof.
  intros N1 N2. unfold like, sent_close, gn. cl. assert (Q : since (LEvent e :: log s) = LEvent e :: since (log s)) by (destruct e as [[]| | | | | | | | |]; try reflexivity; destruct N1; reflexivity).
  rewrite Q. split; [reflexivity|]. split; [|reflexivity]. split; [intros [C|C]; [congruence|exact C]|intros C; right; exact C].
Qed.
Lemma sendable_iff c : sendable c = true <-> ok_status c.
Proof.
  unfold sendable, ok_status. destruct (N.ltb_spec c 1000), (N.ltb_spec 4999 c); cbn [orb]; try (split; [discriminate|lia]).
  destruct (N.eqb_spec c 1004), (N.eqb_spec c 1005), (N.eqb_spec c 1006), (N.eqb_spec c 1015); cbn; split; try discriminate; try reflexivity; lia.
Qed.
(** The server side's close_async with a status that may not be sent. *)
Definition refused_close (e : event) : Prop := exists c r, e = ECall (KClose c r) /\ ~ ok_status c.
Lemma shut_step b sd s e : (sd = Session -> e <> ECall KConnect) -> (b = true -> sd = Session -> ~ refused_close e) -> shut b s -> shut b (step sd s e).
Proof.
  intros U R H. unfold step. destruct e as [k|n|c|h d|d|d|d| | |]; cbv zeta; try (eapply like_shut; [apply like_deliver, like_event; discriminate|exact H]).
  - destruct k as [| |status reason].
    + unfold do_call. destruct sd; [|destruct (U eq_refl eq_refl)]. unfold do_connect. cbv zeta. set (s0 := set_calls _ _).
      assert (L1 : like s0 (finish_close false (finish_frame FDisconnected s0))) by (apply like_close, like_frame, like_refl).
      set (s3 := set_csent false (set_disc false (set_frames [] (finish_close false (finish_frame FDisconnected s0))))).
      assert (H3 : shut b s3). { constructor; [intros C; destruct C; exact (proj1 L1)|discriminate]. }
      eapply like_shut; [|exact H3]. exact (like_connect false s3 s3 (like_refl s3)).
    + eapply like_shut; [|exact H]. unfold do_call, do_receive. pose proof (like_event (ECall KReceive) s ltac:(discriminate) ltac:(discriminate)) as L. set (s0 := note _ s) in *.
      destruct (frames (set_calls (S (calls s0)) s0)); [destruct (disc _); [|destruct (frame_w _)]|]; [apply like_complete|apply like_throw| |apply like_complete]; exact L.
    + pose proof (like_event (ECall (KClose status reason)) s ltac:(discriminate) ltac:(discriminate)) as L. pose proof (like_shut b _ _ L H) as H1. unfold do_call, do_close. set (s0 := note _ s) in *.
      destruct (close_w _); [eapply like_shut; [apply like_throw; exact L|exact H]|]. destruct (disc _); [eapply like_shut; [apply like_complete; exact L|exact H]|].
      destruct (sendable status) eqn:E.
      * constructor; [reflexivity|]. intros _ _. unfold sent_close. destruct sd; discriminate.
      * assert (NB : sd = Session -> b = false). { intros S. destruct b; [|reflexivity]. exfalso. apply (R eq_refl S). exists status, reason. split; [reflexivity|]. intros C. apply sendable_iff in C. congruence. }
        destruct sd; [eapply like_shut; [apply like_throw; exact L|exact H]|]. rewrite (NB eq_refl) in *. constructor; [reflexivity|discriminate].
  - eapply like_shut; [|exact H]. pose proof (like_event (EDestroy n) s ltac:(discriminate) ltac:(discriminate)) as L. destruct (Nat.ltb _ _); exact L.
  - eapply like_shut; [|exact H]. exact (like_event (ECap c) s ltac:(discriminate) ltac:(discriminate)).
  - unfold on_peer_close. cbv zeta. pose proof (like_event (EPeerClose d) s ltac:(discriminate) ltac:(discriminate)) as L. pose proof (like_shut b _ _ L H) as H1. set (s0 := note _ s) in *.
    assert (H2 : shut b (if csent s0 then s0 else note (LEcho d) (set_csent true s0))). { destruct (csent s0); [exact H1|]. constructor; [reflexivity|]. intros _ _. discriminate. }
    eapply like_shut; [|exact H2]. apply like_close, like_deliver, like_refl.
  - eapply like_shut; [|exact H]. pose proof (like_event EConnected s ltac:(discriminate) ltac:(discriminate)) as L. destruct sd; [apply like_connect|]; exact L.
  - eapply like_shut; [|exact H]. pose proof (like_event EError s ltac:(discriminate) ltac:(discriminate)) as L. unfold on_error. destruct sd; [apply like_close, like_frame, like_connect|]; exact L.
  - unfold on_disconnected. cbv zeta. set (s1 := set_csent false _). assert (H1 : shut b s1) by (constructor; [intros _ C; destruct C; left; reflexivity|discriminate]).
    eapply like_shut; [|exact H1]. destruct sd; [apply like_close, like_frame, like_connect|apply like_close, like_deliver]; apply like_refl.
Qed.
Definition no_refused_close (sd : side) (es : list event) : Prop := sd = Session -> forall e, In e es -> ~ refused_close e.
Lemma shut_run b sd es : usable sd es -> (b = true -> no_refused_close sd es) -> shut b (run sd es).
Proof.
  induction es as [|e es IH] using rev_ind; intros U N.
  - constructor; [intros C; destruct C; reflexivity|discriminate].
  - apply usable_app in U as [U1 U2]. rewrite run_snoc. apply shut_step; auto.
    + intros B S. apply (N B S), in_or_app. right. left. reflexivity.
    + apply IH; [exact U1|]. intros B S x X. apply (N B S), in_or_app. left. exact X.
Qed.
Lemma peer_close_log sd es d : closes (since (chronicle sd (es ++ [EPeerClose d]))) = if csent (run sd es) then closes (since (chronicle sd es)) else LEcho d :: closes (since (chronicle sd es)).
Proof.
  unfold chronicle. rewrite run_snoc. unfold step, on_peer_close. cbv zeta. set (s0 := note _ _).
  pose proof (like_event (EPeerClose d) (run sd es) ltac:(discriminate) ltac:(discriminate)) as L. fold s0 in L. change (csent s0) with (csent (run sd es)).
  destruct (csent (run sd es)).
  - destruct (like_close true _ _ (like_deliver (make_close d) _ _ L)) as [E _]. exact E.
  - destruct (like_close true _ _ (like_deliver (make_close d) _ _ (like_refl (note (LEcho d) (set_csent true s0))))) as [E _]. unfold sent_close in E. rewrite E. destruct L as [L _]. unfold sent_close in L. cl. cbn [closes filter is_close since]. f_equal.
Qed.
(** The peer's Close is answered with its own payload if no Close was sent on the connection, *)
Theorem coro_peer_close_answered_partial sd es d : usable sd es -> no_refused_close sd es -> closes (since (chronicle sd es)) = [] ->
  closes (since (chronicle sd (es ++ [EPeerClose d]))) = [LEcho d].
Proof.
  intros U N E. rewrite peer_close_log. destruct (csent (run sd es)) eqn:C; [|rewrite E; reflexivity]. destruct (s_only _ _ (shut_run true sd es U (fun _ => N)) eq_refl C). exact E.
Qed.
(** and not answered if one was. *)
Theorem coro_peer_close_not_echoed_twice sd es d : usable sd es -> ~ gone (since (chronicle sd es)) -> closes (since (chronicle sd es)) <> [] ->
  closes (since (chronicle sd (es ++ [EPeerClose d]))) = closes (since (chronicle sd es)).
Proof.
  intros U G E. rewrite peer_close_log. rewrite (s_sent _ _ (shut_run false sd es U ltac:(discriminate)) E G). reflexivity.
Qed.
(** A session whose close_async() was refused for its status leaves the peer's Close without an answer. *)
Theorem coro_session_refused_close_silences_refuted : exists es d, usable Session es /\ closes (chronicle Session es) = [] /\ closes (chronicle Session (es ++ [EPeerClose d])) = [].
Proof. exists [ECall (KClose 1005 [])], [3; 232]. split; [intros _ [C|[]]; discriminate|]. split; vm_compute; reflexivity. Qed.
(** On both sides the refused call blocks the next one, though nothing was sent. *)
Theorem coro_refused_close_blocks_the_next_refuted : forall sd, chronicle sd [ECall (KClose 1005 []); ECall (KClose 1000 [])] =
  [LThrow 1 AlreadyWaiting; LEvent (ECall (KClose 1000 [])); LThrow 0 BadStatus; LEvent (ECall (KClose 1005 []))].
Proof. intros []; vm_compute; reflexivity. Qed.
(** close_async() after the peer's Close sends a second Close, and waits. *)
Theorem coro_close_after_peer_close_refuted : forall sd, chronicle sd [EPeerClose [3; 232]; ECall (KClose 1000 [])] =
  [LSentClose 1000 []; LEvent (ECall (KClose 1000 [])); LEcho [3; 232]; LEvent (EPeerClose [3; 232])].
Proof. intros []; vm_compute; reflexivity. Qed.

(** ** The hypotheses are met *)
Definition visit : list event :=
  [ECall KReceive; EMessage 129 [104; 105]; ECap 2; EMessage 130 [7]; EPing []; ECall KReceive; ECall KReceive; ECall (KClose 1000 []); EPeerClose [3; 232]; ECall KReceive; EDisconnected; ECall KReceive].
Example visit_ok sd : returned (since (chronicle sd visit)) = [FMessage true [104; 105]; FMessage false [7]; FPing []; FClose 1000 []] /\
  arrived (since (chronicle sd visit)) = returned (since (chronicle sd visit)) /\ closes (chronicle sd visit) = [LSentClose 1000 []].
Proof. destruct sd; vm_compute; auto. Qed.
Example visit_meets_hypotheses sd : usable sd visit /\ limits_from 2 visit /\ reader_keeps_up 2 sd visit /\ none_destroyed sd visit /\ quiet_after_end sd visit /\ no_refused_close sd visit.
Proof.
  assert (IN : forall P : event -> Prop, Forall P visit -> forall e, In e visit -> P e) by (intros P F e; apply Forall_forall; exact F).
  split; [intros _ C; cbn in C; decompose [or] C; try discriminate; assumption|]. split; [split; [lia|intros k C; cbn in C; decompose [or] C; try discriminate; try contradiction; injection H; lia]|].
  split; [|split; [|split]].
  - intros a e b E X. destruct (splits _ _ _ _ E) as (k & -> & N & L). cbn in L. do 12 (destruct k as [|k]; [cbn in N; injection N as <-; try solve [destruct X as [X|X]; [destruct X; reflexivity|discriminate]]; destruct sd; vm_compute; lia|]). lia.
  - intros a n b E. assert (C : In (EDestroy n) visit) by (rewrite E; apply in_or_app; right; left; reflexivity). cbn in C. decompose [or] C; try discriminate; contradiction.
  - intros a e b E X. destruct (splits _ _ _ _ E) as (k & -> & N & L). cbn in L. unfold gone. do 12 (destruct k as [|k]; [cbn in N; injection N as <-; destruct X as [X|X]; try discriminate; try (destruct X; reflexivity); destruct sd; vm_compute; intros C; decompose [or] C; try discriminate; assumption|]). lia.
  - intros _ e C (c & r & -> & NO). cbn in C. repeat (destruct C as [C|C]; [try discriminate C|]); try contradiction. injection C as <- <-. apply NO. unfold ok_status. lia.
Qed.
Print Assumptions coro_frames_in_order.
Print Assumptions coro_keeping_up_loses_nothing_partial.
Print Assumptions coro_buffer_bounded.
Print Assumptions coro_one_outcome.
Print Assumptions coro_nothing_waits_after_the_end.
Print Assumptions coro_peer_close_answered_partial.
Print Assumptions coro_peer_close_not_echoed_twice.
Print Assumptions coro_destroyed_receive_loses_a_frame_refuted.
