(** Invariants of the coroutine WebSocket endpoints. *)
From Verif Require Import Base CoroModel CoroSpec.
Local Open Scope N_scope.

Ltac cl := cbn [set_frames set_connect_w set_frame_w set_close_w set_disc set_csent set_cap set_calls set_dead set_fin note
  frames connect_w frame_w close_w disc csent cap calls dead fin log] in *.

Lemma run_snoc sd es e : run sd (es ++ [e]) = step sd (run sd es) e.
Proof. unfold run. rewrite fold_left_app. reflexivity. Qed.
Lemma memb_in n l : memb n l = true <-> In n l.
Proof.
  unfold memb. rewrite existsb_exists. split.
  - intros (x & H & E). apply Nat.eqb_eq in E. congruence.
  - intros H. exists n. split; [exact H|apply Nat.eqb_refl].
Qed.
(** [complete] touches the completion flags and the log only. *)
Lemma complete_cases n r s : complete n r s = s /\ (In n (dead s) \/ In n (fin s)) \/
  complete n r s = note (LDone n r) (set_fin (n :: fin s) s) /\ ~ In n (dead s) /\ ~ In n (fin s).
Proof.
  unfold complete. destruct (memb n (dead s)) eqn:E; [left; split; [reflexivity|left; apply memb_in, E]|].
  destruct (memb n (fin s)) eqn:E2; [left; split; [reflexivity|right; apply memb_in, E2]|].
  right. split; [reflexivity|]. split; intro H; apply memb_in in H; congruence.
Qed.
Lemma complete_frames n r s : frames (complete n r s) = frames s.
Proof. unfold complete. destruct (memb _ _); [|destruct (memb _ _)]; reflexivity. Qed.
Lemma complete_frame_w n r s : frame_w (complete n r s) = frame_w s.
Proof. unfold complete. destruct (memb _ _); [|destruct (memb _ _)]; reflexivity. Qed.
Lemma complete_connect_w n r s : connect_w (complete n r s) = connect_w s.
Proof. unfold complete. destruct (memb _ _); [|destruct (memb _ _)]; reflexivity. Qed.
Lemma complete_close_w n r s : close_w (complete n r s) = close_w s.
Proof. unfold complete. destruct (memb _ _); [|destruct (memb _ _)]; reflexivity. Qed.
Lemma complete_disc n r s : disc (complete n r s) = disc s.
Proof. unfold complete. destruct (memb _ _); [|destruct (memb _ _)]; reflexivity. Qed.
Lemma complete_csent n r s : csent (complete n r s) = csent s.
Proof. unfold complete. destruct (memb _ _); [|destruct (memb _ _)]; reflexivity. Qed.
Lemma complete_cap n r s : cap (complete n r s) = cap s.
Proof. unfold complete. destruct (memb _ _); [|destruct (memb _ _)]; reflexivity. Qed.
Lemma complete_calls n r s : calls (complete n r s) = calls s.
Proof. unfold complete. destruct (memb _ _); [|destruct (memb _ _)]; reflexivity. Qed.
Lemma complete_dead n r s : dead (complete n r s) = dead s.
Proof. unfold complete. destruct (memb _ _); [|destruct (memb _ _)]; reflexivity. Qed.
Global Hint Rewrite complete_frames complete_frame_w complete_connect_w complete_close_w complete_disc complete_csent complete_cap complete_calls complete_dead : comp.
Ltac cc := repeat (cl; autorewrite with comp in * ); cl.

(** What a completion adds to the log: nothing, or its own entry. *)
Lemma complete_log n r s : log (complete n r s) = log s \/ log (complete n r s) = LDone n r :: log s.
Proof. destruct (complete_cases n r s) as [[-> _]|[-> _]]; [left|right]; reflexivity. Qed.

(** ** Subsequences *)
Lemma sub_refl {A} (l : list A) : subsequence l l.
Proof. induction l; constructor; assumption. Qed.
Lemma sub_app {A} (a b c d : list A) : subsequence a b -> subsequence c d -> subsequence (a ++ c) (b ++ d).
Proof. induction 1; intros H'; cbn [app]; [exact H'|constructor; auto|constructor; auto]. Qed.
Lemma sub_nil_l {A} (l : list A) : subsequence [] l.
Proof. induction l; constructor; assumption. Qed.
Lemma sub_trans {A} (b c : list A) : subsequence b c -> forall a, subsequence a b -> subsequence a c.
Proof.
  induction 1; intros a H1; [exact H1| |].
  - inversion H1; subst; constructor; auto.
  - constructor. auto.
Qed.
Lemma sub_tail {A} (l : list A) : subsequence (tl l) l.
Proof. destruct l; [constructor|constructor; apply sub_refl]. Qed.

(** ** Order *)
Definition real (f : frame) : bool := match f with FDisconnected => false | _ => true end.
Definition A s := arrived (since (log s)).
Definition B s := returned (since (log s)).
(** [x] is what has arrived and is not stored yet. *)
Record ord (x : list frame) (s : st) : Prop := {
  o_sub : subsequence (B s ++ filter real (frames s) ++ filter real x) (A s);
  o_wait : frame_w s <> None -> frames s = [] }.
Lemma real_incoming e f : incoming e = Some f -> real f = true.
Proof. destruct e; cbn; intros H; try discriminate; injection H as <-; try reflexivity. destruct payload as [|? [|? ?]]; reflexivity. Qed.
Lemma B_done n f s l : l = log s -> returned (since (LDone n (RFrame f) :: l)) = B s ++ filter real [f].
Proof. intros ->. unfold B. cbn. destruct f; cbn; rewrite ?app_nil_r; reflexivity. Qed.

Lemma ord_finish_frame f x s : ord (f :: x) s \/ (f = FDisconnected /\ ord x s) -> ord x (finish_frame f s) \/ frame_w s = None.
Proof.
  intros H. unfold finish_frame. destruct (frame_w s) as [n|] eqn:E; [|right; reflexivity]. left.
  assert (S0 : subsequence (B s ++ filter real (frames s) ++ filter real (f :: x)) (A s) /\ frames s = []).
  { destruct H as [[H1 H2]|[-> [H1 H2]]]; (split; [exact H1|apply H2; congruence]). }
  destruct S0 as [S1 S2]. rewrite S2 in S1. change (filter real (f :: x)) with (filter real ([f] ++ x)) in S1. rewrite filter_app in S1. cbn [filter Datatypes.app] in S1.
  constructor; unfold A, B.
  - cc. rewrite S2. destruct (complete_log n (RFrame f) (set_frame_w None s)) as [->| ->]; cc; cbn [filter Datatypes.app].
    + eapply sub_trans; [exact S1|]. unfold B. apply sub_app; [apply sub_refl|]. rewrite <- (app_nil_l (filter real x)) at 1. apply sub_app; [apply sub_nil_l|apply sub_refl].
    + rewrite (B_done n f s) by reflexivity. rewrite <- app_assoc. exact S1.
  - cc. intros C. destruct C. reflexivity.
Qed.
Lemma ord_finish_disc s : ord [] s -> ord [] (finish_frame FDisconnected s).
Proof.
  intros H. destruct (ord_finish_frame FDisconnected [] s) as [Q|Q]; [right; auto|exact Q|]. unfold finish_frame. rewrite Q. exact H.
Qed.
Lemma ord_deliver f s : ord [f] s -> ord [] (deliver f s).
Proof.
  intros H. unfold deliver. destruct (frame_w s) as [n|] eqn:E.
  - destruct (ord_finish_frame f [] s) as [Q|Q]; [left; exact H| |congruence]. unfold finish_frame in Q. rewrite E in Q. exact Q.
  - destruct H as [H1 H2]. destruct (Nat.eqb (cap s) 0).
    + constructor; [|intros C; congruence]. eapply sub_trans; [exact H1|]. cbn [filter]. rewrite app_nil_r.
      apply sub_app; [apply sub_refl|]. rewrite <- (app_nil_r (filter real (frames s))) at 1. apply sub_app; [apply sub_refl|apply sub_nil_l].
    + constructor; cl; [|congruence]. eapply sub_trans; [exact H1|]. unfold A, B. cl. cbn [filter]. rewrite app_nil_r, filter_app. apply sub_app; [apply sub_refl|].
      apply sub_app; [|apply sub_refl]. destruct (Nat.leb _ _); [|apply sub_refl]. destruct (frames s) as [|y l]; cbn; [constructor|]. destruct (real y); [apply sub_skip|]; apply sub_refl.
Qed.
(** Entries that are neither arrivals nor frames yielded do not matter. *)
Definition silent (i : item) : Prop := match i with LEvent e => incoming e = None /\ e <> ECall KConnect | LDone _ (RFrame f) => f = FDisconnected | _ => True end.
Lemma silent_AB i l : silent i -> arrived (since (i :: l)) = arrived (since l) /\ returned (since (i :: l)) = returned (since l).
Proof.
  intros H. destruct i; cbn in H; try (split; reflexivity).
  - destruct H as [H1 H2]. destruct e; cbn in *; try discriminate; rewrite ?app_nil_r; try (split; reflexivity). destruct k; cbn in *; rewrite ?app_nil_r; try (split; reflexivity). destruct H2. reflexivity.
  - destruct r; try (split; reflexivity). subst f. split; reflexivity.
Qed.
Lemma ord_silent i x s : silent i -> ord x s -> ord x (note i s).
Proof. intros Hi [H1 H2]. destruct (silent_AB i (log s) Hi) as [Q1 Q2]. constructor; unfold A, B in *; cl; [rewrite Q1, Q2; exact H1|exact H2]. Qed.
Lemma ord_same x s s' : log s' = log s -> frames s' = frames s -> frame_w s' = frame_w s -> ord x s -> ord x s'.
Proof. intros E1 E2 E3 [H1 H2]. constructor; unfold A, B in *; rewrite ?E1, ?E2, ?E3; assumption. Qed.
Lemma ord_complete n r x s : silent (LDone n r) -> ord x s -> ord x (complete n r s).
Proof.
  intros Hr H. destruct (complete_cases n r s) as [[-> _]|[-> _]]; [exact H|]. apply ord_silent; [exact Hr|]. eapply ord_same; [| | |exact H]; reflexivity.
Qed.
Lemma ord_finish_close b x s : ord x s -> ord x (finish_close b s).
Proof. intros H. unfold finish_close. destruct (close_w s); [|exact H]. apply ord_complete; [exact I|]. eapply ord_same; [| | |exact H]; reflexivity. Qed.
Lemma ord_finish_connect b x s : ord x s -> ord x (finish_connect b s).
Proof. intros H. unfold finish_connect. destruct (connect_w s); [|exact H]. apply ord_complete; [exact I|]. eapply ord_same; [| | |exact H]; reflexivity. Qed.
Ltac osame := match goal with |- ord ?x (_ _ ?s) => apply (ord_same x s); [reflexivity|reflexivity|reflexivity|] end.
Lemma ord_arrival e f s : incoming e = Some f -> ord [] s -> ord [f] (note (LEvent e) s).
Proof.
  intros E [H1 H2]. constructor; cl; [|exact H2]. unfold A, B in *; cl.
  assert (Q : since (LEvent e :: log s) = LEvent e :: since (log s)) by (destruct e as [[]| | | | | | | | |]; try discriminate; reflexivity).
  rewrite Q. cbn [arrived returned]. rewrite E. cbn [filter] in *. rewrite app_nil_r in H1. rewrite app_assoc. apply sub_app; [exact H1|]. rewrite (real_incoming _ _ E). apply sub_refl.
Qed.
Lemma make_message_ok h d : make_message h d = FMessage (h mod 16 =? 1) d.
Proof. unfold make_message. change 15 with (N.ones 4). rewrite N.land_ones. reflexivity. Qed.
Lemma make_close_ok d : Some (make_close d) = incoming (EPeerClose d).
Proof. destruct d as [|a [|b r]]; cbn; try reflexivity. do 2 f_equal. lia. Qed.
Lemma ord_step sd s e : (sd = Session -> e <> ECall KConnect) -> ord [] s -> ord [] (step sd s e).
Proof.
  intros U H. unfold step. destruct e as [k|n|c|h d|d|d|d| | |]; cbv zeta.
  - destruct k as [| |status reason].
    + unfold do_call. destruct sd; [|destruct (U eq_refl eq_refl)]. unfold do_connect. cbv zeta.
      set (s0 := set_calls _ _). assert (H0 : since (log s0) = []) by reflexivity.
      assert (G : forall s1, since (log s1) = [] -> frames s1 = [] -> ord [] s1) by (intros s1 E1 E2; constructor; [unfold A, B; rewrite E1, E2; constructor|auto]).
      assert (K : forall n r s1, silent (LDone n r) -> arrived (since (log (complete n r s1))) = arrived (since (log s1)) /\ returned (since (log (complete n r s1))) = returned (since (log s1))).
      { intros n r s1 Hr. destruct (complete_cases n r s1) as [[-> _]|[-> _]]; [auto|]. exact (silent_AB _ _ Hr). }
      set (s1 := finish_frame FDisconnected s0). set (s2 := finish_close false s1). set (s3 := set_csent false (set_disc false (set_frames [] s2))).
      assert (H1 : A s1 = [] /\ B s1 = []). { unfold s1, A, B, finish_frame. destruct (frame_w s0) as [m|]; [|rewrite H0; auto]. destruct (K m (RFrame FDisconnected) (set_frame_w None s0) eq_refl) as [-> ->]. cl. rewrite H0. auto. }
      assert (H2 : A s2 = [] /\ B s2 = []). { unfold s2, A, B, finish_close. destruct (close_w s1) as [m|]; [|exact H1]. destruct (K m (RClose false) (set_close_w None s1) I) as [-> ->]. exact H1. }
      assert (H3 : ord [] s3). { constructor; [|reflexivity]. unfold A, B in *. unfold s3. cl. destruct H2 as [-> ->]. constructor. }
      osame. apply ord_finish_connect. exact H3.
    + unfold do_call, do_receive. set (s0 := set_calls _ _). assert (H0 : ord [] s0) by (unfold s0; osame; apply ord_silent; [split; [reflexivity|discriminate]|exact H]).
      destruct (frames s0) as [|f rest] eqn:EF.
      * destruct (disc s0); [apply ord_complete; [reflexivity|exact H0]|]. destruct (frame_w s0); [apply ord_silent; [exact I|]; osame; exact H0|].
        constructor; [apply H0|]. intros _. exact EF.
      * destruct H0 as [H1 H2]. constructor.
        -- unfold A, B in *. rewrite EF in H1. change (filter real (f :: rest)) with (filter real ([f] ++ rest)) in H1. rewrite filter_app, <- app_assoc in H1. cc.
           destruct (complete_log (calls s) (RFrame f) (set_frames rest s0)) as [->| ->]; cc.
           ++ eapply sub_trans; [exact H1|]. apply sub_app; [apply sub_refl|]. rewrite <- (app_nil_l (filter real rest ++ _)) at 1. apply sub_app; [apply sub_nil_l|apply sub_refl].
           ++ rewrite (B_done _ f s0) by reflexivity. unfold B. rewrite <- app_assoc. exact H1.
        -- cc. intros C. apply H2 in C. congruence.
    + unfold do_call, do_close. set (s0 := set_calls _ _). assert (H0 : ord [] s0) by (unfold s0; osame; apply ord_silent; [split; [reflexivity|discriminate]|exact H]).
      destruct (close_w s0); [apply ord_silent; [exact I|]; osame; exact H0|]. destruct (disc s0); [apply ord_complete; [exact I|exact H0]|].
      destruct (sendable status); (apply ord_silent; [exact I|]); destruct sd; repeat osame; exact H0.
  - destruct (Nat.ltb _ _); [osame|]; (apply ord_silent; [split; [reflexivity|discriminate]|exact H]).
  - osame. apply ord_silent; [split; [reflexivity|discriminate]|exact H].
  - apply ord_deliver, ord_arrival; [rewrite make_message_ok; reflexivity|exact H].
  - apply ord_deliver, ord_arrival; [reflexivity|exact H].
  - apply ord_deliver, ord_arrival; [reflexivity|exact H].
  - unfold on_peer_close. cbv zeta. apply ord_finish_close, ord_deliver. assert (H0 : ord [make_close d] (note (LEvent (EPeerClose d)) s)) by (apply ord_arrival; [symmetry; apply make_close_ok|exact H]).
    destruct (csent _); [exact H0|]. apply ord_silent; [exact I|]. osame. exact H0.
  - assert (H0 : ord [] (note (LEvent EConnected) s)) by (apply ord_silent; [split; [reflexivity|discriminate]|exact H]). destruct sd; [apply ord_finish_connect|]; exact H0.
  - unfold on_error. assert (H0 : ord [] (note (LEvent EError) s)) by (apply ord_silent; [split; [reflexivity|discriminate]|exact H]). destruct sd; [|exact H0].
    apply ord_finish_close, ord_finish_disc, ord_finish_connect. osame. exact H0.
  - unfold on_disconnected. cbv zeta. assert (H0 : ord [] (note (LEvent EDisconnected) s)) by (apply ord_silent; [split; [reflexivity|discriminate]|exact H]).
    destruct sd.
    + apply ord_finish_close, ord_finish_disc, ord_finish_connect. repeat osame. exact H0.
    + apply ord_finish_close, ord_deliver. destruct H0 as [H1 H2]. constructor; [exact H1|exact H2].
Qed.
Lemma usable_app sd es e : usable sd (es ++ [e]) -> usable sd es /\ (sd = Session -> e <> ECall KConnect).
Proof. intros U. split; intros E H; destruct (U E); apply in_or_app; [left; exact H|right; left; exact H]. Qed.
Lemma ord_run sd es : usable sd es -> ord [] (run sd es).
Proof.
  induction es as [|e es IH] using rev_ind; intros U.
  - constructor; [constructor|reflexivity].
  - apply usable_app in U as [U1 U2]. rewrite run_snoc. apply ord_step; auto.
Qed.

(** ** How much is stored *)
Lemma deliver_length f s m : (length (frames s) <= m)%nat -> (cap s <= m)%nat -> (length (frames (deliver f s)) <= m)%nat.
Proof.
  intros H C. unfold deliver. destruct (frame_w s); [cc; exact H|]. destruct (Nat.eqb_spec (cap s) 0); [exact H|]. cl. rewrite app_length. cbn [length].
  destruct (Nat.leb_spec (cap s) (length (frames s))); [|lia]. destruct (frames s); cbn in *; lia.
Qed.
Lemma finish_close_frames b s : frames (finish_close b s) = frames s.
Proof. unfold finish_close. destruct (close_w s); [cc|]; reflexivity. Qed.
Lemma finish_connect_frames b s : frames (finish_connect b s) = frames s.
Proof. unfold finish_connect. destruct (connect_w s); [cc|]; reflexivity. Qed.
Lemma finish_frame_frames f s : frames (finish_frame f s) = frames s.
Proof. unfold finish_frame. destruct (frame_w s); [cc|]; reflexivity. Qed.
Lemma deliver_cap f s : cap (deliver f s) = cap s.
Proof. unfold deliver. destruct (frame_w s); [cc; reflexivity|]. destruct (Nat.eqb _ _); reflexivity. Qed.
Lemma finish_close_cap b s : cap (finish_close b s) = cap s.
Proof. unfold finish_close. destruct (close_w s); [cc|]; reflexivity. Qed.
Lemma finish_connect_cap b s : cap (finish_connect b s) = cap s.
Proof. unfold finish_connect. destruct (connect_w s); [cc|]; reflexivity. Qed.
Lemma finish_frame_cap f s : cap (finish_frame f s) = cap s.
Proof. unfold finish_frame. destruct (frame_w s); [cc|]; reflexivity. Qed.
Global Hint Rewrite finish_close_frames finish_connect_frames finish_frame_frames deliver_cap finish_close_cap finish_connect_cap finish_frame_cap : comp.
Lemma step_length sd s e m : (length (frames s) <= m)%nat -> (cap s <= m)%nat -> (forall c, e = ECap c -> (c <= m)%nat) ->
  (length (frames (step sd s e)) <= m)%nat /\ (cap (step sd s e) <= m)%nat.
Proof.
  intros H C E. unfold step. destruct e as [k|n|c|h d|d|d|d| | |]; cbv zeta;
    try (split; [apply deliver_length|rewrite deliver_cap]; assumption).
  - unfold do_call. destruct k as [| |status reason].
    + destruct sd; [|auto]. unfold do_connect. cc. split; [cbn; lia|exact C].
    + unfold do_receive. cl. destruct (frames s) eqn:EF; [destruct (disc s); [|destruct (frame_w s)]|]; unfold throw; cc; rewrite ?EF; cbn [length] in *; split; assumption || lia.
    + unfold do_close. cl. destruct (close_w s); [|destruct (disc s); [|destruct sd, (sendable status)]]; unfold throw; cc; auto.
  - destruct (Nat.ltb _ _); auto.
  - cl. auto.
  - unfold on_peer_close. cbv zeta. cc. split; [|destruct (csent s); assumption]. apply deliver_length; destruct (csent s); assumption.
  - destruct sd; cc; auto.
  - unfold on_error. destruct sd; cc; auto.
  - unfold on_disconnected. cbv zeta. destruct sd; cc; auto. split; [apply deliver_length|]; assumption.
Qed.
