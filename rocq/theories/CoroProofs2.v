(** Invariants of the coroutine WebSocket endpoints, continued: outcomes of calls, what waits, what is lost. *)
From Verif Require Import Base CoroModel CoroSpec CoroProofs.
Local Open Scope N_scope.

Definition slot (s : st) (n : nat) : Prop := connect_w s = Some n \/ frame_w s = Some n \/ close_w s = Some n.
(** [h] is a call that has been numbered and is not accounted for yet. *)
Record uni (h : option nat) (s : st) : Prop := {
  u_nodup : NoDup (outcomes (log s));
  u_fin : forall n, In n (fin s) -> In n (outcomes (log s));
  u_out : forall n, In n (outcomes (log s)) -> In n (fin s) \/ In n (dead s);
  u_lt : forall n, In n (outcomes (log s)) \/ In n (dead s) \/ slot s n -> (n < calls s)%nat /\ h <> Some n;
  u_dead : forall n, In n (dead s) -> In n (outcomes (log s)) \/ destroyed n (log s);
  u_set : forall n, (n < calls s)%nat -> h = Some n \/ In n (outcomes (log s)) \/ In n (dead s) \/ slot s n;
  u_hole : forall n, h = Some n -> (n < calls s)%nat;
  u_fw : forall n, frame_w s = Some n -> close_w s <> Some n /\ connect_w s <> Some n /\ ~ In n (outcomes (log s)) }.

Lemma uni_same h s s' : log s' = log s -> fin s' = fin s -> dead s' = dead s -> calls s' = calls s -> connect_w s' = connect_w s -> frame_w s' = frame_w s -> close_w s' = close_w s -> uni h s -> uni h s'.
Proof.
  intros E1 E2 E3 E4 E5 E6 E7 [H1 H2 H3 H4 H5 H6 H7 H8]. constructor; unfold slot in *; rewrite ?E1, ?E2, ?E3, ?E4, ?E5, ?E6, ?E7; assumption.
Qed.
(** Entries without an outcome. *)
Lemma uni_note h i s : outcomes (i :: log s) = outcomes (log s) -> uni h s -> uni h (note i s).
Proof.
  intros E [H1 H2 H3 H4 H5 H6 H7 H8]. constructor; unfold slot in *; cl; rewrite ?E; try assumption.
  intros n D. destruct (H5 n D); [left|right; right]; assumption.
Qed.
Lemma uni_clear h n r s s1 : uni h s -> slot s n -> log s1 = log s -> fin s1 = fin s -> dead s1 = dead s -> calls s1 = calls s ->
  (forall m, slot s1 m -> slot s m) -> (forall m, slot s m -> m = n \/ slot s1 m) ->
  (forall m, frame_w s1 = Some m -> frame_w s = Some m /\ m <> n) -> (forall m, close_w s1 = Some m -> close_w s = Some m) -> (forall m, connect_w s1 = Some m -> connect_w s = Some m) ->
  uni h (complete n r s1).
Proof.
  intros [H1 H2 H3 H4 H5 H6 H7 H8] SL E1 E2 E3 E4 S1 S2 S3 S4 S5.
  destruct (complete_cases n r s1) as [[-> D]|(-> & D1 & D2)].
  - constructor; rewrite ?E1, ?E2, ?E3, ?E4; try assumption.
    + intros m [Q|[Q|Q]]; apply H4; auto.
    + intros m L. destruct (H6 m L) as [Q|[Q|[Q|Q]]]; auto. destruct (S2 m Q) as [->|Q2]; auto. rewrite E2, E3 in D. destruct D as [D|D]; auto.
    + intros m Q. destruct (S3 m Q) as [Q1 Q2]. destruct (H8 m Q1) as (R1 & R2 & R3). repeat split; auto.
  - rewrite E2, E3 in *.
    assert (NO : ~ In n (outcomes (log s))) by (intros C; destruct (H3 n C); auto).
    destruct (H4 n (or_intror (or_intror SL))) as [LT NH].
    constructor; cl; cbn [outcomes]; rewrite ?E1, ?E2, ?E3, ?E4.
    + constructor; assumption.
    + intros m [->|Q]; [left; reflexivity|right; auto].
    + intros m [->|Q]; [left; left; reflexivity|]. destruct (H3 m Q); [left; right; assumption|right; assumption].
    + intros m [[->|Q]|[Q|Q]]; [auto| | |]; apply H4; auto.
    + intros m Q. destruct (H5 m Q); [left; right; assumption|right; right; assumption].
    + intros m L. destruct (H6 m L) as [Q|[Q|[Q|Q]]]; auto; [right; left; right; exact Q|]. destruct (S2 m Q) as [->|Q2]; [right; left; left; reflexivity|right; right; right; exact Q2].
    + assumption.
    + intros m Q. destruct (S3 m Q) as [Q1 Q2]. destruct (H8 m Q1) as (R1 & R2 & R3). split; [|split]; auto. intros [C|C]; [congruence|auto].
Qed.
Ltac clear_slot n s H := apply (uni_clear _ n _ s); [exact H|unfold slot; auto|reflexivity|reflexivity|reflexivity|reflexivity|unfold slot; cl; intros m [Q|[Q|Q]]; auto; discriminate|
  unfold slot; cl; intros m [Q|[Q|Q]]; auto; left; congruence|cl; intros m Q|cl; intros m Q|cl; intros m Q].
Lemma uni_finish_frame h f s : uni h s -> uni h (finish_frame f s).
Proof.
  intros H. unfold finish_frame. destruct (frame_w s) as [n|] eqn:E; [|exact H]. clear_slot n s H; [discriminate|exact Q|exact Q].
Qed.
Lemma uni_finish_close h b s : uni h s -> uni h (finish_close b s).
Proof.
  intros H. unfold finish_close. destruct (close_w s) as [n|] eqn:E; [|exact H]. clear_slot n s H; [|discriminate|exact Q].
  split; [exact Q|]. intros ->. destruct (u_fw _ _ H n Q). congruence.
Qed.
Lemma uni_finish_connect h b s : uni h s -> uni h (finish_connect b s).
Proof.
  intros H. unfold finish_connect. destruct (connect_w s) as [n|] eqn:E; [|exact H]. clear_slot n s H; [|exact Q|discriminate].
  split; [exact Q|]. intros ->. destruct (u_fw _ _ H n Q) as (_ & Q2 & _). congruence.
Qed.
Lemma uni_deliver h f s : uni h s -> uni h (deliver f s).
Proof.
  intros H. unfold deliver. destruct (frame_w s) as [n|] eqn:E.
  - pose proof (uni_finish_frame h f s H) as Q. unfold finish_frame in Q. rewrite E in Q. exact Q.
  - destruct (Nat.eqb _ _); [exact H|]. eapply uni_same; [..|exact H]; reflexivity.
Qed.
(** The new call yields, throws, or waits. *)
Lemma uni_yield n r s s1 : uni (Some n) s -> log s1 = log s -> fin s1 = fin s -> dead s1 = dead s -> calls s1 = calls s -> connect_w s1 = connect_w s -> frame_w s1 = frame_w s -> close_w s1 = close_w s ->
  uni None (complete n r s1).
Proof.
  intros H E1 E2 E3 E4 E5 E6 E7. pose proof (uni_same _ _ _ E1 E2 E3 E4 E5 E6 E7 H) as H'. clear s H E1 E2 E3 E4 E5 E6 E7. destruct H' as [H1 H2 H3 H4 H5 H6 H7 H8].
  destruct (complete_cases n r s1) as [[_ D]|(-> & D1 & D2)].
  - exfalso. destruct D as [D|D]; [destruct (H4 n (or_intror (or_introl D))) as [_ Q]|destruct (H4 n (or_introl (H2 n D))) as [_ Q]]; apply Q; reflexivity.
  - assert (NO : ~ In n (outcomes (log s1))) by (intros C; destruct (H4 n (or_introl C)) as [_ Q]; apply Q; reflexivity).
    constructor; cl; cbn [outcomes]; unfold slot in *; cl.
    + constructor; assumption.
    + intros m [->|Q]; [left; reflexivity|right; auto].
    + intros m [->|Q]; [left; left; reflexivity|]. destruct (H3 m Q); [left; right; assumption|right; assumption].
    + intros m Q. split; [|discriminate]. destruct Q as [[->|Q]|[Q|Q]]; [apply H7; reflexivity| | |]; apply H4; auto.
    + intros m Q. destruct (H5 m Q); [left; right; assumption|right; right; assumption].
    + intros m L. destruct (H6 m L) as [Q|[Q|[Q|Q]]]; auto; [injection Q as ->; right; left; left; reflexivity|right; left; right; exact Q].
    + discriminate.
    + intros m Q. destruct (H8 m Q) as (R1 & R2 & R3). split; [|split]; auto. intros [C|C]; [|auto]. subst m. destruct (H4 n) as [_ C]; [right; right; auto|]. apply C. reflexivity.
Qed.
(** [s1] may have the call in its close slot already. *)
Lemma uni_throw n x s s1 : uni (Some n) s -> log s1 = log s -> fin s1 = fin s -> dead s1 = dead s -> calls s1 = calls s -> connect_w s1 = connect_w s -> frame_w s1 = frame_w s ->
  (close_w s1 = close_w s \/ close_w s = None /\ close_w s1 = Some n) -> uni None (throw n x s1).
Proof.
  intros [H1 H2 H3 H4 H5 H6 H7 H8] E1 E2 E3 E4 E5 E6 E7. unfold throw.
  assert (NO : ~ In n (outcomes (log s))) by (intros C; destruct (H4 n (or_introl C)) as [_ Q]; apply Q; reflexivity).
  constructor; cl; cbn [outcomes]; unfold slot in *; cl; rewrite ?E1, ?E2, ?E3, ?E4, ?E5, ?E6.
  - constructor; assumption.
  - intros m Q. right. auto.
  - intros m [->|Q]; [right; left; reflexivity|]. destruct (H3 m Q); [left; assumption|right; right; assumption].
  - intros m Q. split; [|discriminate]. destruct Q as [[->|Q]|[[->|Q]|[Q|[Q|Q]]]]; try (apply H7; reflexivity); try solve [apply H4; auto].
    destruct E7 as [E7|[_ E7]]; [apply H4; rewrite <- E7; auto|]. rewrite E7 in Q. injection Q as ->. apply H7. reflexivity.
  - intros m [->|Q]; [left; left; reflexivity|]. destruct (H5 m Q); [left; right; assumption|right; right; assumption].
  - intros m L. destruct (H6 m L) as [Q|[Q|[Q|[Q|[Q|Q]]]]]; [injection Q as ->; right; left; left; reflexivity|right; left; right; exact Q|right; right; left; right; exact Q|auto 6|auto 6|].
    destruct E7 as [E7|[E7 _]]; [rewrite E7; auto 6|congruence].
  - discriminate.
  - intros m Q. destruct (H8 m Q) as (R1 & R2 & R3).
    assert (MN : m <> n) by (intros ->; destruct (H4 n) as [_ C]; [right; right; auto|]; apply C; reflexivity).
    split; [|split]; auto; [|intros [C|C]; [congruence|auto]]. destruct E7 as [->|[_ ->]]; [exact R1|congruence].
Qed.
Lemma uni_wait n s s1 : uni (Some n) s -> log s1 = log s -> fin s1 = fin s -> dead s1 = dead s -> calls s1 = calls s ->
  (connect_w s1 = connect_w s \/ connect_w s = None /\ connect_w s1 = Some n) -> (frame_w s1 = frame_w s \/ frame_w s = None /\ frame_w s1 = Some n) ->
  (close_w s1 = close_w s \/ close_w s = None /\ close_w s1 = Some n) -> slot s1 n ->
  (frame_w s1 = Some n -> close_w s1 <> Some n /\ connect_w s1 <> Some n) -> uni None s1.
Proof.
  intros [H1 H2 H3 H4 H5 H6 H7 H8] E1 E2 E3 E4 E5 E6 E7 SN SD. constructor; rewrite ?E1, ?E2, ?E3, ?E4; auto.
  - intros m Q. split; [|discriminate]. destruct Q as [Q|[Q|Q]]; [apply H4; auto|apply H4; auto|]. destruct (Nat.eq_dec m n) as [->|NE]; [apply H7; reflexivity|].
    apply H4. right; right. unfold slot in *. destruct Q as [Q|[Q|Q]].
    + destruct E5 as [->|[_ X]] in Q; [auto|]. congruence.
    + destruct E6 as [->|[_ X]] in Q; [auto|]. congruence.
    + destruct E7 as [->|[_ X]] in Q; [auto|]. congruence.
  - intros m L. destruct (H6 m L) as [Q|[Q|[Q|Q]]]; auto; [injection Q as ->; auto|]. right; right; right. unfold slot in *. destruct Q as [Q|[Q|Q]].
    + destruct E5 as [->|[X _]]; [auto|congruence].
    + destruct E6 as [->|[X _]]; [auto|congruence].
    + destruct E7 as [->|[X _]]; [auto|congruence].
  - discriminate.
  - intros m Q. assert (NO : ~ In n (outcomes (log s))) by (intros C; destruct (H4 n (or_introl C)) as [_ X]; apply X; reflexivity).
    destruct (Nat.eq_dec m n) as [->|NE]; [destruct (SD Q); auto|].
    assert (Q' : frame_w s = Some m) by (destruct E6 as [<-|[_ X]]; [exact Q|congruence]). destruct (H8 m Q') as (R1 & R2 & R3). split; [|split]; auto.
    + destruct E7 as [->|[_ ->]]; [exact R1|congruence].
    + destruct E5 as [->|[_ ->]]; [exact R2|congruence].
Qed.
Lemma uni_number s : uni None s -> uni (Some (calls s)) (set_calls (S (calls s)) s).
Proof.
  intros [H1 H2 H3 H4 H5 H6 H7 H8]. constructor; unfold slot in *; cl; auto.
  - intros n Q. destruct (H4 n Q) as [L _]. split; [lia|]. intros E. injection E. lia.
  - intros n L. destruct (Nat.eq_dec n (calls s)) as [->|NE]; [auto|]. destruct (H6 n ltac:(lia)) as [Q|Q]; [discriminate|auto].
  - intros n E. injection E as <-. lia.
Qed.
Lemma finish_fields s : connect_w (finish_connect false s) = None.
Proof. unfold finish_connect. destruct (connect_w s) eqn:E; [cc; reflexivity|exact E]. Qed.
Lemma finish_frame_none f s : frame_w (finish_frame f s) = None.
Proof. unfold finish_frame. destruct (frame_w s) eqn:E; [cc; reflexivity|exact E]. Qed.
Lemma finish_close_none b s : close_w (finish_close b s) = None.
Proof. unfold finish_close. destruct (close_w s) eqn:E; [cc; reflexivity|exact E]. Qed.
Lemma finish_close_frame_w b s : frame_w (finish_close b s) = frame_w s.
Proof. unfold finish_close. destruct (close_w s); [cc|]; reflexivity. Qed.
Lemma finish_close_connect_w b s : connect_w (finish_close b s) = connect_w s.
Proof. unfold finish_close. destruct (close_w s); [cc|]; reflexivity. Qed.
Lemma finish_frame_connect_w b s : connect_w (finish_frame b s) = connect_w s.
Proof. unfold finish_frame. destruct (frame_w s); [cc|]; reflexivity. Qed.
Lemma finish_frame_close_w b s : close_w (finish_frame b s) = close_w s.
Proof. unfold finish_frame. destruct (frame_w s); [cc|]; reflexivity. Qed.
Lemma finish_connect_frame_w b s : frame_w (finish_connect b s) = frame_w s.
Proof. unfold finish_connect. destruct (connect_w s); [cc|]; reflexivity. Qed.
Lemma finish_connect_close_w b s : close_w (finish_connect b s) = close_w s.
Proof. unfold finish_connect. destruct (connect_w s); [cc|]; reflexivity. Qed.
Lemma finish_connect_disc b s : disc (finish_connect b s) = disc s.
Proof. unfold finish_connect. destruct (connect_w s); [cc|]; reflexivity. Qed.
Lemma finish_frame_disc b s : disc (finish_frame b s) = disc s.
Proof. unfold finish_frame. destruct (frame_w s); [cc|]; reflexivity. Qed.
Lemma finish_close_disc b s : disc (finish_close b s) = disc s.
Proof. unfold finish_close. destruct (close_w s); [cc|]; reflexivity. Qed.
Lemma deliver_frame_w f s : frame_w (deliver f s) = None.
Proof. unfold deliver. destruct (frame_w s) eqn:E; [cc; reflexivity|]. destruct (Nat.eqb _ _); exact E. Qed.
Lemma deliver_close_w f s : close_w (deliver f s) = close_w s.
Proof. unfold deliver. destruct (frame_w s); [cc; reflexivity|]. destruct (Nat.eqb _ _); reflexivity. Qed.
Lemma deliver_connect_w f s : connect_w (deliver f s) = connect_w s.
Proof. unfold deliver. destruct (frame_w s); [cc; reflexivity|]. destruct (Nat.eqb _ _); reflexivity. Qed.
Lemma deliver_disc f s : disc (deliver f s) = disc s.
Proof. unfold deliver. destruct (frame_w s); [cc; reflexivity|]. destruct (Nat.eqb _ _); reflexivity. Qed.
Lemma finish_close_calls b s : calls (finish_close b s) = calls s.
Proof. unfold finish_close. destruct (close_w s); [cc|]; reflexivity. Qed.
Lemma finish_connect_calls b s : calls (finish_connect b s) = calls s.
Proof. unfold finish_connect. destruct (connect_w s); [cc|]; reflexivity. Qed.
Lemma finish_frame_calls b s : calls (finish_frame b s) = calls s.
Proof. unfold finish_frame. destruct (frame_w s); [cc|]; reflexivity. Qed.
Lemma deliver_calls f s : calls (deliver f s) = calls s.
Proof. unfold deliver. destruct (frame_w s); [cc; reflexivity|]. destruct (Nat.eqb _ _); reflexivity. Qed.
Lemma finish_close_csent b s : csent (finish_close b s) = csent s.
Proof. unfold finish_close. destruct (close_w s); [cc|]; reflexivity. Qed.
Lemma finish_connect_csent b s : csent (finish_connect b s) = csent s.
Proof. unfold finish_connect. destruct (connect_w s); [cc|]; reflexivity. Qed.
Lemma finish_frame_csent b s : csent (finish_frame b s) = csent s.
Proof. unfold finish_frame. destruct (frame_w s); [cc|]; reflexivity. Qed.
Lemma deliver_csent f s : csent (deliver f s) = csent s.
Proof. unfold deliver. destruct (frame_w s); [cc; reflexivity|]. destruct (Nat.eqb _ _); reflexivity. Qed.
Global Hint Rewrite finish_fields finish_frame_none finish_close_none finish_close_frame_w finish_close_connect_w finish_frame_connect_w finish_frame_close_w finish_connect_frame_w finish_connect_close_w
  finish_connect_disc finish_frame_disc finish_close_disc deliver_frame_w deliver_close_w deliver_connect_w deliver_disc finish_close_calls finish_connect_calls finish_frame_calls deliver_calls
  finish_close_csent finish_connect_csent finish_frame_csent deliver_csent : comp.

Ltac usame H := eapply uni_same; [..|exact H]; reflexivity.
Lemma uni_step sd s e : (sd = Session -> e <> ECall KConnect) -> uni None s -> uni None (step sd s e).
Proof.
  intros U H0. unfold step. assert (H : uni None (note (LEvent e) s)) by (apply uni_note; [reflexivity|exact H0]). clear H0.
  destruct e as [k|n|c|h d|d|d|d| | |]; cbv zeta; try (apply uni_deliver; exact H).
  - unfold do_call. set (s0 := note _ s) in *. pose proof (uni_number _ H) as H1. set (n := calls s0) in *. set (s1 := set_calls (S n) s0) in *. destruct k as [| |status reason].
    + destruct sd; [|destruct (U eq_refl eq_refl)]. unfold do_connect. cbv zeta.
      set (s2 := finish_connect false _). assert (H2 : uni (Some n) s2).
      { apply uni_finish_connect. eapply uni_same; [..|apply uni_finish_close, (uni_finish_frame _ FDisconnected _ H1)]; reflexivity. }
      assert (N2 : connect_w s2 = None) by (unfold s2; cc; reflexivity). assert (F2 : frame_w s2 = None) by (unfold s2; cc; reflexivity).
      apply (uni_wait n s2); try reflexivity; auto; [left; reflexivity|]. intros E. unfold s2 in E. cc. congruence.
    + unfold do_receive. destruct (frames s1) as [|f rest] eqn:EF; [destruct (disc s1) eqn:ED; [|destruct (frame_w s1) as [m|] eqn:EW]|].
      * apply (uni_yield n _ s1); auto.
      * apply (uni_throw n _ s1); auto.
      * apply (uni_wait n s1); auto; [right; left; reflexivity|]. cl. intros _. split; intros E; destruct (u_lt _ _ H1 n) as [_ Q]; unfold slot; try (apply Q; reflexivity); cl; auto.
      * apply (uni_yield n _ s1); auto.
    + unfold do_close. destruct (close_w s1) as [m|] eqn:EC; [apply (uni_throw n _ s1); auto|]. destruct (disc s1); [apply (uni_yield n _ s1); auto|].
      assert (G : forall s2, log s2 = log s1 -> fin s2 = fin s1 -> dead s2 = dead s1 -> calls s2 = calls s1 -> connect_w s2 = connect_w s1 -> frame_w s2 = frame_w s1 -> close_w s2 = Some n ->
                  uni None (if sendable status then note (LSentClose status reason) (set_csent true s2) else throw n BadStatus s2)).
      { intros s2 E1 E2 E3 E4 E5 E6 E7. destruct (sendable status).
        - apply uni_note; [reflexivity|]. apply (uni_wait n s1); cl; auto; [right; right; exact E7|]. rewrite E6. intros Q. exfalso. destruct (u_lt _ _ H1 n) as [_ C]; [right; right; right; left; exact Q|]. apply C. reflexivity.
        - apply (uni_throw n _ s1); auto. }
      destruct sd; apply G; reflexivity.
  - destruct (Nat.ltb_spec n (calls (note (LEvent (EDestroy n)) s))) as [L|L]; [|exact H]. destruct H as [H1 H2 H3 H4 H5 H6 H7 H8]. constructor; unfold slot in *; cl; auto.
    + intros m Q. destruct (H3 m Q); auto. right; right; assumption.
    + intros m [Q|[[->|Q]|Q]]; [apply H4; auto|split; [exact L|discriminate]|apply H4; auto|apply H4; auto].
    + intros m [->|Q]; [right; left; reflexivity|auto].
    + intros m L2. destruct (H6 m L2) as [Q|[Q|[Q|Q]]]; auto. right; right; left; right; exact Q.
  - usame H.
  - unfold on_peer_close. cbv zeta. apply uni_finish_close, uni_deliver. destruct (csent _); [exact H|]. apply uni_note; [reflexivity|]. usame H.
  - destruct sd; [apply uni_finish_connect|]; exact H.
  - unfold on_error. destruct sd; [|exact H]. apply uni_finish_close, uni_finish_frame, uni_finish_connect. usame H.
  - unfold on_disconnected. cbv zeta. assert (H2 : uni None (set_csent false (set_disc true (note (LEvent EDisconnected) s)))) by usame H.
    destruct sd; [apply uni_finish_close, uni_finish_frame, uni_finish_connect|apply uni_finish_close, uni_deliver]; exact H2.
Qed.
Lemma uni_run sd es : usable sd es -> uni None (run sd es).
Proof.
  induction es as [|e es IH] using rev_ind; intros U.
  - constructor; cbn; unfold slot; cbn; try tauto; try discriminate; try (intros; lia). + constructor. + intros n [[]|[[]|[E|[E|E]]]]; discriminate.
  - apply usable_app in U as [U1 U2]. rewrite run_snoc. apply uni_step; auto.
Qed.
Lemma outcomes_iff n l : In n (outcomes l) <-> outcome n l.
Proof.
  unfold outcome. induction l as [|i l IH]; cbn [outcomes].
  - split; [intros []|intros [[? []]|[? []]]].
  - assert (G : forall P, (In n (outcomes l) <-> P) -> P = P) by reflexivity. clear G. split.
    + intros H. destruct i as [e|m r|m x|p|c p]; cbn in H; try (apply IH in H as [[r' H]|[x' H]]; [left; exists r'; right; exact H|right; exists x'; right; exact H]).
      * destruct H as [->|H]; [left; exists r; left; reflexivity|]. apply IH in H as [[r' H]|[x' H]]; [left; exists r'; right; exact H|right; exists x'; right; exact H].
      * destruct H as [->|H]; [right; exists x; left; reflexivity|]. apply IH in H as [[r' H]|[x' H]]; [left; exists r'; right; exact H|right; exists x'; right; exact H].
    + intros [[r [->|H]]|[x [->|H]]]; [left; reflexivity| |left; reflexivity|].
      * assert (Q : In n (outcomes l)) by (apply IH; left; exists r; exact H). destruct i; try right; exact Q.
      * assert (Q : In n (outcomes l)) by (apply IH; right; exists x; exact H). destruct i; try right; exact Q.
Qed.
Lemma step_calls sd s e : calls (step sd s e) = (calls s + calls_made [e])%nat.
Proof.
  unfold step. destruct e as [k|n|c|h d|d|d|d| | |]; cbn [calls_made]; cbv zeta; cc; try lia.
  - unfold do_call. destruct k as [| |status reason].
    + destruct sd; [unfold do_connect; cc|cl]; lia.
    + unfold do_receive. cl. destruct (frames s); [destruct (disc s); [|destruct (frame_w s)]|]; unfold throw; cc; lia.
    + unfold do_close. cl. destruct (close_w s); [|destruct (disc s); [|destruct sd, (sendable status)]]; unfold throw; cc; lia.
  - destruct (Nat.ltb _ _); cl; lia.
  - unfold on_peer_close. cbv zeta. cc. destruct (csent s); cl; lia.
  - destruct sd; cc; lia.
  - unfold on_error. destruct sd; cc; lia.
  - unfold on_disconnected. cbv zeta. destruct sd; cc; lia.
Qed.
Lemma calls_made_app a b : calls_made (a ++ b) = (calls_made a + calls_made b)%nat.
Proof. induction a as [|e a IH]; [reflexivity|]. cbn [Datatypes.app calls_made]. destruct e; rewrite IH; lia. Qed.
Lemma run_calls sd es : calls (run sd es) = calls_made es.
Proof. induction es as [|e es IH] using rev_ind; [reflexivity|]. rewrite run_snoc, step_calls, IH, calls_made_app. reflexivity. Qed.

(** ** After the end of the transport nothing waits *)
Definition over (s : st) : Prop := disc s = true /\ connect_w s = None /\ frame_w s = None /\ close_w s = None.
Lemma over_step sd s e : uni None s -> (sd = Session -> connect_w s = None) -> ends sd e -> over (step sd s e).
Proof.
  intros _ SC [->|[-> ->]]; unfold over, step; cbv zeta.
  - unfold on_disconnected. cbv zeta. destruct sd; cc; repeat split; auto.
  - unfold on_error. cc. repeat split; auto.
Qed.
Lemma over_stays sd s e : e <> ECall KConnect -> over s -> over (step sd s e).
Proof.
  intros U (D & E1 & E2 & E3). unfold over, step. destruct e as [k|n|c|h d|d|d|d| | |]; cbv zeta; cc; auto.
  - unfold do_call. destruct k as [| |status reason]; [destruct (U eq_refl)| |].
    + unfold do_receive. cl. rewrite D. destruct (frames s); cc; auto.
    + unfold do_close. cl. rewrite E3, D. cc. auto.
  - destruct (Nat.ltb _ _); cl; auto.
  - unfold on_peer_close. cbv zeta. cc. destruct (csent s); cl; auto.
  - destruct sd; cc; auto. repeat split; auto. unfold finish_connect. cl. rewrite E1. exact E1.
  - unfold on_error. destruct sd; cc; auto.
  - unfold on_disconnected. cbv zeta. destruct sd; cc; auto.
Qed.
Lemma session_no_connect es : usable Session es -> connect_w (run Session es) = None.
Proof.
  induction es as [|e es IH] using rev_ind; intros U; [reflexivity|]. apply usable_app in U as [U1 U2]. specialize (IH U1). specialize (U2 eq_refl). rewrite run_snoc. unfold step.
  destruct e as [k|n|c|h d|d|d|d| | |]; cbv zeta; cc; auto.
  - unfold do_call. destruct k as [| |status reason]; [destruct (U2 eq_refl)| |].
    + unfold do_receive. cl. destruct (frames (run Session es)); [destruct (disc (run Session es)); [|destruct (frame_w (run Session es))]|]; unfold throw; cc; exact IH.
    + unfold do_close. cl. destruct (close_w (run Session es)); [|destruct (disc (run Session es)); [|destruct (sendable status)]]; unfold throw; cc; exact IH.
  - destruct (Nat.ltb _ _); exact IH.
  - unfold on_peer_close. cbv zeta. cc. destruct (csent (run Session es)); exact IH.
  - unfold on_disconnected. cbv zeta. cc. exact IH.
Qed.
