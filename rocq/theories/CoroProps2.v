(** Theorems on the coroutine WebSocket endpoints, continued: which call waits for what (C184-C186). *)
From Verif Require Import Base CoroModel CoroSpec CoroProofs CoroProofs2 CoroKeep CoroProps.
Local Open Scope N_scope.

(** The calls made, in order: call [n] is the [n]-th of them. *)
Fixpoint calls_of (es : list event) : list call :=
  match es with
  | [] => []
  | ECall k :: es => k :: calls_of es
  | _ :: es => calls_of es
  end.
Definition waiting (sd : side) (n : nat) (es : list event) : Prop :=
  (n < calls_made es)%nat /\ ~ outcome n (chronicle sd es) /\ ~ destroyed n (chronicle sd es).
Lemma calls_of_app a b : calls_of (a ++ b) = calls_of a ++ calls_of b.
Proof. induction a as [|e a IH]; [reflexivity|]. cbn [Datatypes.app calls_of]. destruct e; rewrite IH; reflexivity. Qed.
Lemma calls_of_length es : length (calls_of es) = calls_made es.
Proof. induction es as [|e es IH]; [reflexivity|]. cbn [calls_of calls_made]. destruct e; cbn [length]; rewrite ?IH; reflexivity. Qed.

(** Each slot holds a call of its own kind. *)
Record typed (l : list call) (s : st) : Prop := {
  t_connect : forall n, connect_w s = Some n -> nth_error l n = Some KConnect;
  t_frame : forall n, frame_w s = Some n -> nth_error l n = Some KReceive;
  t_close : forall n, close_w s = Some n -> exists c r, nth_error l n = Some (KClose c r) }.
(** The slots of [s'] are those of [s] or empty. *)
Definition fewer (s s' : st) : Prop :=
  (connect_w s' = connect_w s \/ connect_w s' = None) /\ (frame_w s' = frame_w s \/ frame_w s' = None) /\ (close_w s' = close_w s \/ close_w s' = None).
Lemma typed_fewer l s s' : fewer s s' -> typed l s -> typed l s'.
Proof.
  intros (F1 & F2 & F3) [T1 T2 T3]. constructor; intros n E.
  - apply T1. destruct F1; congruence.
  - apply T2. destruct F2; congruence.
  - apply T3. destruct F3; congruence.
Qed.
Lemma typed_more l l' s : typed l s -> typed (l ++ l') s.
Proof.
  assert (G : forall n k, nth_error l n = Some k -> nth_error (l ++ l') n = Some k) by (intros n k E; rewrite nth_error_app1; [exact E|apply nth_error_Some; congruence]).
  intros [T1 T2 T3]. constructor; intros n E; [apply G, T1, E|apply G, T2, E|]. destruct (T3 n E) as (c & r & Q). exists c, r. apply G, Q.
Qed.
Lemma fewer_refl s : fewer s s.
Proof. repeat split; auto. Qed.
Lemma fewer_frame f s0 s : fewer s0 s -> fewer s0 (finish_frame f s).
Proof. intros (F1 & F2 & F3). unfold fewer. cc. auto. Qed.
Lemma fewer_close f s0 s : fewer s0 s -> fewer s0 (finish_close f s).
Proof. intros (F1 & F2 & F3). unfold fewer. cc. auto. Qed.
Lemma finish_connect_none b s : connect_w (finish_connect b s) = None.
Proof. unfold finish_connect. destruct (connect_w s) eqn:E; [cc; reflexivity|exact E]. Qed.
Lemma fewer_connect f s0 s : fewer s0 s -> fewer s0 (finish_connect f s).
Proof. intros (F1 & F2 & F3). unfold fewer. rewrite finish_connect_none. cc. auto. Qed.
Lemma fewer_deliver f s0 s : fewer s0 s -> fewer s0 (deliver f s).
Proof. intros (F1 & F2 & F3). unfold fewer. cc. auto. Qed.
Lemma typed_step sd l s e : calls s = length l -> typed l s -> typed (l ++ calls_of [e]) (step sd s e).
Proof.
  intros C T. unfold step. assert (FE : forall s', fewer (note (LEvent e) s) s' -> typed l s') by (intros s' F; apply (typed_fewer l s); [exact F|exact T]). pose proof (fewer_refl (note (LEvent e) s)) as R.
  destruct e as [k|n|c|h d|d|d|d| | |]; cbv zeta; cbn [calls_of]; rewrite ?app_nil_r; try (apply FE, fewer_deliver, R).
  - unfold do_call. cl. set (s0 := set_calls _ _). assert (T0 : typed (l ++ [k]) s0) by (apply typed_more; apply FE; exact R).
    assert (NW : nth_error (l ++ [k]) (calls s) = Some k) by (rewrite C, nth_error_app2, Nat.sub_diag by lia; reflexivity).
    destruct k as [| |status reason].
    + destruct sd; [|exact T0]. unfold do_connect. cbv zeta. constructor; cc; try discriminate. intros m E. injection E as <-. exact NW.
    + unfold do_receive. destruct (frames s0); [destruct (disc s0); [|destruct (frame_w s0) eqn:EW]|].
      * destruct T0 as [T1 T2 T3]. constructor; cc; auto.
      * destruct T0 as [T1 T2 T3]. constructor; unfold throw; cl; auto.
      * destruct T0 as [T1 T2 T3]. constructor; cl; [exact T1| |exact T3]. intros m E. injection E as <-. exact NW.
      * destruct T0 as [T1 T2 T3]. constructor; cc; auto.
    + unfold do_close. destruct T0 as [T1 T2 T3]. destruct (close_w s0) as [w|] eqn:EW; [constructor; unfold throw; cl; [exact T1|exact T2|intros m E; apply T3; unfold s0 in *; cl; congruence]|]. destruct (disc s0); [constructor; cc; auto; intros m E; exfalso; unfold s0 in *; cl; congruence|].
      assert (G : forall s2, connect_w s2 = connect_w s0 -> frame_w s2 = frame_w s0 -> close_w s2 = Some (calls s) -> typed (l ++ [KClose status reason]) s2).
      { intros s2 E1 E2 E3. constructor; rewrite ?E1, ?E2, ?E3; auto. intros m E. injection E as <-. eauto. }
      destruct sd, (sendable status); apply G; reflexivity.
  - destruct (Nat.ltb _ _); apply FE; exact R.
  - apply FE. exact R.
  - apply FE. unfold on_peer_close. cbv zeta. apply fewer_close, fewer_deliver. destruct (csent _); exact R.
  - apply FE. destruct sd; [apply fewer_connect|]; exact R.
  - apply FE. unfold on_error. destruct sd; [apply fewer_close, fewer_frame, fewer_connect|]; exact R.
  - apply FE. unfold on_disconnected. cbv zeta. destruct sd; [apply fewer_close, fewer_frame, fewer_connect|apply fewer_close, fewer_deliver]; exact R.
Qed.
Lemma typed_run sd es : typed (calls_of es) (run sd es).
Proof.
  induction es as [|e es IH] using rev_ind; [constructor; discriminate|]. rewrite run_snoc, calls_of_app. apply typed_step; [|exact IH]. rewrite run_calls, calls_of_length. reflexivity.
Qed.
(** A waiting call is in the slot of its kind, alive. *)
Lemma waiting_slot sd n es : usable sd es -> waiting sd n es -> slot (run sd es) n /\ ~ In n (dead (run sd es)) /\ ~ In n (fin (run sd es)).
Proof.
  intros U (L & NO & ND). pose proof (uni_run sd es U) as H. rewrite <- (run_calls sd) in L.
  assert (D : ~ In n (dead (run sd es))) by (intros X; destruct (u_dead _ _ H n X) as [Y|Y]; [apply NO, outcomes_iff, Y|contradiction]).
  split; [|split; [exact D|]].
  - destruct (u_set _ _ H n L) as [Q|[Q|[Q|Q]]]; [discriminate|destruct NO; apply outcomes_iff, Q|contradiction|exact Q].
  - intros X. apply NO, outcomes_iff, (u_fin _ _ H), X.
Qed.
Lemma waiting_receive sd n es : usable sd es -> waiting sd n es -> nth_error (calls_of es) n = Some KReceive -> frame_w (run sd es) = Some n.
Proof.
  intros U W K. destruct (waiting_slot sd n es U W) as [[S|[S|S]] _]; [|exact S|].
  - pose proof (t_connect _ _ (typed_run sd es) n S). congruence.
  - destruct (t_close _ _ (typed_run sd es) n S) as (c & r & Q). congruence.
Qed.
Lemma waiting_connect sd n es : usable sd es -> waiting sd n es -> nth_error (calls_of es) n = Some KConnect -> connect_w (run sd es) = Some n.
Proof.
  intros U W K. destruct (waiting_slot sd n es U W) as [[S|[S|S]] _]; [exact S| |].
  - pose proof (t_frame _ _ (typed_run sd es) n S). congruence.
  - destruct (t_close _ _ (typed_run sd es) n S) as (c & r & Q). congruence.
Qed.
Lemma waiting_close sd n es c r : usable sd es -> waiting sd n es -> nth_error (calls_of es) n = Some (KClose c r) -> close_w (run sd es) = Some n.
Proof.
  intros U W K. destruct (waiting_slot sd n es U W) as [[S|[S|S]] _]; [| |exact S].
  - pose proof (t_connect _ _ (typed_run sd es) n S). congruence.
  - pose proof (t_frame _ _ (typed_run sd es) n S). congruence.
Qed.
Lemma complete_live n r s : ~ In n (dead s) -> ~ In n (fin s) -> log (complete n r s) = LDone n r :: log s.
Proof. intros D F. destruct (complete_cases n r s) as [[_ [Q|Q]]|[-> _]]; [contradiction|contradiction|reflexivity]. Qed.

(** ** C184: a waiting receive() gets what arrives next, at once *)
Theorem coro_waiting_receive_is_served sd es n e f : usable sd es -> waiting sd n es -> nth_error (calls_of es) n = Some KReceive -> incoming e = Some f ->
  In (LDone n (RFrame f)) (chronicle sd (es ++ [e])) /\ In (LEvent e) (chronicle sd (es ++ [e])).
Proof.
  intros U W K E. pose proof (waiting_receive _ _ _ U W K) as FW. destruct (waiting_slot _ _ _ U W) as (_ & D & F).
  assert (DEL : forall s, frame_w s = Some n -> dead s = dead (run sd es) -> fin s = fin (run sd es) -> log (deliver f s) = LDone n (RFrame f) :: log s).
  { intros s E1 E2 E3. unfold deliver. rewrite E1. rewrite complete_live; cl; [reflexivity|rewrite E2; exact D|rewrite E3; exact F]. }
  unfold chronicle. rewrite run_snoc. destruct e as [k|m|c|h d|d|d|d| | |]; try discriminate; unfold step; cbv zeta.
  - assert (EF : make_message h d = f) by (rewrite make_message_ok; injection E as <-; reflexivity). rewrite EF. rewrite DEL by (exact FW || reflexivity). split; [left; reflexivity|right; left; reflexivity].
  - injection E as EF. rewrite EF. rewrite DEL by (exact FW || reflexivity). split; [left; reflexivity|right; left; reflexivity].
  - injection E as EF. rewrite EF. rewrite DEL by (exact FW || reflexivity). split; [left; reflexivity|right; left; reflexivity].
  - assert (EF : make_close d = f) by (pose proof (make_close_ok d) as Q; rewrite E in Q; congruence). unfold on_peer_close. cbv zeta. rewrite EF. set (s1 := if csent _ then _ else _).
    assert (L1 : log (deliver f s1) = LDone n (RFrame f) :: log s1) by (apply DEL; unfold s1; destruct (csent _); [exact FW|exact FW|reflexivity|reflexivity|reflexivity|reflexivity]).
    assert (I1 : In (LEvent (EPeerClose d)) (log s1)) by (unfold s1; destruct (csent _); [left|right; left]; reflexivity).
    assert (IN : forall i, In i (log (deliver f s1)) -> In i (log (finish_close true (deliver f s1)))).
    { intros i H. unfold finish_close. destruct (close_w (deliver f s1)) as [m|]; [|exact H]. destruct (complete_log m (RClose true) (set_close_w None (deliver f s1))) as [->| ->]; [|right]; exact H. }
    split; apply IN; rewrite L1; [left; reflexivity|right; exact I1].
Qed.
(** ** C185: connect() yields true when the handshake ends, close_async() when the peer's Close arrives *)
Theorem coro_connect_succeeds es n : waiting Client n es -> nth_error (calls_of es) n = Some KConnect ->
  chronicle Client (es ++ [EConnected]) = LDone n (RConnect true) :: LEvent EConnected :: chronicle Client es.
Proof.
  intros W K. assert (U : usable Client es) by discriminate. pose proof (waiting_connect _ _ _ U W K) as CW. destruct (waiting_slot _ _ _ U W) as (_ & D & F).
  unfold chronicle. rewrite run_snoc. unfold step. cbv zeta. unfold finish_connect. cl. rewrite CW. rewrite complete_live; [reflexivity|exact D|exact F].
Qed.
Theorem coro_close_succeeds sd es n c r d : usable sd es -> waiting sd n es -> nth_error (calls_of es) n = Some (KClose c r) ->
  exists l, chronicle sd (es ++ [EPeerClose d]) = LDone n (RClose true) :: l.
Proof.
  intros U W K. pose proof (waiting_close _ _ _ _ _ U W K) as CW. destruct (waiting_slot _ _ _ U W) as (_ & D & F).
  unfold chronicle. rewrite run_snoc. unfold step. cbv zeta. unfold on_peer_close. cbv zeta. set (s1 := if csent _ then _ else _).
  assert (E1 : close_w s1 = Some n /\ dead s1 = dead (run sd es) /\ fin s1 = fin (run sd es) /\ frame_w s1 = frame_w (run sd es)) by (unfold s1; destruct (csent _); repeat split; exact CW). destruct E1 as (E1 & E2 & E3 & E4).
  unfold finish_close. cc. rewrite E1. eexists. apply complete_live; cl; [unfold deliver; destruct (frame_w s1); [cc|destruct (Nat.eqb _ _); cl]; rewrite E2; exact D|].
  unfold deliver. destruct (frame_w s1) as [m|] eqn:EW; [|destruct (Nat.eqb _ _); cl; rewrite E3; exact F].
  destruct (complete_cases m (RFrame (make_close d)) (set_frame_w None s1)) as [[-> _]|[-> _]]; cl; rewrite ?E3; [exact F|]. intros [->|Q]; [|contradiction].
  destruct (u_fw _ _ (uni_run sd es U) n) as [Q _]; congruence.
Qed.
(** connect() ends the calls made before it. *)
Theorem coro_connect_ends_earlier_calls es n : (n < calls_made es)%nat -> outcome n (chronicle Client (es ++ [ECall KConnect])) \/ destroyed n (chronicle Client (es ++ [ECall KConnect])).
Proof.
  intros L. assert (U : usable Client (es ++ [ECall KConnect])) by discriminate. pose proof (uni_run _ _ U) as H.
  assert (L2 : (n < calls (run Client (es ++ [ECall KConnect])))%nat) by (rewrite run_calls, calls_made_app; lia).
  assert (SL : slot (run Client (es ++ [ECall KConnect])) n -> False).
  { rewrite run_snoc. unfold step, do_call, do_connect. cbv zeta. unfold slot. cc. rewrite run_calls. intros [E|[E|E]]; [injection E; lia|discriminate|discriminate]. }
  destruct (u_set _ _ H n L2) as [Q|[Q|[Q|Q]]]; [discriminate|left; apply outcomes_iff, Q| |destruct (SL Q)].
  destruct (u_dead _ _ H n Q) as [X|X]; [left; apply outcomes_iff, X|right; exact X].
Qed.

(** ** C186: no false notice of disconnection *)
Definition ended (sd : side) (l : list item) : Prop := exists e, In (LEvent e) (since l) /\ ends sd e.
Definition honest (sd : side) (s : st) : Prop := (disc s = true -> ended sd (log s)) /\ (In FDisconnected (frames s) -> ended sd (log s)).
Lemma ended_more sd i l : i <> LEvent (ECall KConnect) -> ended sd l -> ended sd (i :: l).
Proof. intros NE (e & H & E). exists e. split; [|exact E]. destruct i as [[[]| | | | | | | | |]| | | |]; try (right; exact H). destruct NE. reflexivity. Qed.
Lemma honest_grow sd s s' l : log s' = l ++ log s -> Forall (fun i => i <> LEvent (ECall KConnect)) l -> disc s' = disc s -> (In FDisconnected (frames s') -> In FDisconnected (frames s)) -> honest sd s -> honest sd s'.
Proof.
  intros E F D I [H1 H2]. assert (G : ended sd (log s) -> ended sd (log s')). { rewrite E. clear - F. intros X. induction F as [|i l NE F IH]; [exact X|]. apply ended_more; assumption. }
  split; intros X; apply G; [apply H1; congruence|apply H2, I, X].
Qed.
Lemma honest_complete sd n r s : honest sd s -> honest sd (complete n r s).
Proof.
  intros H. destruct (complete_log n r s) as [E|E]; [apply (honest_grow sd s _ []); cc; auto|apply (honest_grow sd s _ [LDone n r]); cc; auto]. constructor; [discriminate|constructor].
Qed.
Lemma honest_frame sd f s : honest sd s -> honest sd (finish_frame f s).
Proof. intros H. unfold finish_frame. destruct (frame_w s); [apply honest_complete|]; exact H. Qed.
Lemma honest_close sd f s : honest sd s -> honest sd (finish_close f s).
Proof. intros H. unfold finish_close. destruct (close_w s); [apply honest_complete|]; exact H. Qed.
Lemma honest_connect sd f s : honest sd s -> honest sd (finish_connect f s).
Proof. intros H. unfold finish_connect. destruct (connect_w s); [apply honest_complete|]; exact H. Qed.
Lemma honest_deliver sd f s : ended sd (log s) \/ f <> FDisconnected -> honest sd s -> honest sd (deliver f s).
Proof.
  intros Q H. unfold deliver. destruct (frame_w s); [apply honest_complete; exact H|]. destruct (Nat.eqb _ _); [exact H|]. destruct H as [H1 H2]. split; cl; [exact H1|]. intros X. apply in_app_or in X as [X|[X|[]]]; [|destruct Q; [assumption|contradiction]].
  apply H2. destruct (Nat.leb _ _); [|exact X]. destruct (frames s); [exact X|right; exact X].
Qed.
Lemma honest_note sd i s : i <> LEvent (ECall KConnect) -> honest sd s -> honest sd (note i s).
Proof. intros NE H. apply (honest_grow sd s _ [i]); cl; auto. Qed.
Lemma honest_step sd s e : (sd = Session -> e <> ECall KConnect) -> honest sd s -> honest sd (step sd s e).
Proof.
  intros U H. unfold step. assert (HN : e <> ECall KConnect -> honest sd (note (LEvent e) s)) by (intros NE; apply honest_note; [congruence|exact H]).
  destruct e as [k|n|c|h d|d|d|d| | |]; cbv zeta; try (apply honest_deliver; [right; discriminate|apply HN; discriminate]).
  - unfold do_call. destruct k as [| |status reason].
    + destruct sd; [|destruct (U eq_refl eq_refl)]. unfold do_connect. cbv zeta. split; cc; [discriminate|]. intros [].
    + specialize (HN ltac:(discriminate)). unfold do_receive. cl. destruct HN as [H1 H2]. cl. destruct (frames s) as [|f rest] eqn:EF; [destruct (disc s) eqn:ED; [|destruct (frame_w s)]|].
      * apply honest_complete. split; cl; [rewrite ED|rewrite EF]; assumption.
      * unfold throw. apply honest_note; [discriminate|]. split; cl; [rewrite ED|rewrite EF]; assumption.
      * split; cl; [rewrite ED|rewrite EF]; assumption.
      * apply honest_complete. split; cl; [exact H1|]. intros X. apply H2. right. exact X.
    + specialize (HN ltac:(discriminate)). unfold do_close, throw. destruct (close_w _); [apply honest_note; [discriminate|exact HN]|]. destruct (disc _); [apply honest_complete; exact HN|].
      destruct (sendable status), sd; (apply honest_note; [discriminate|exact HN]).
  - destruct (Nat.ltb _ _); apply HN; discriminate.
  - apply HN. discriminate.
  - specialize (HN ltac:(discriminate)). unfold on_peer_close. cbv zeta. apply honest_close, honest_deliver; [right; destruct d as [|? [|? ?]]; discriminate|]. destruct (csent _); [exact HN|]. apply honest_note; [discriminate|exact HN].
  - specialize (HN ltac:(discriminate)). destruct sd; [apply honest_connect|]; exact HN.
  - specialize (HN ltac:(discriminate)). unfold on_error. destruct sd; [|exact HN]. apply honest_close, honest_frame, honest_connect.
    assert (E : ended Client (LEvent EError :: log s)) by (exists EError; split; [left; reflexivity|right; auto]). split; cl; intros _; exact E.
  - specialize (HN ltac:(discriminate)). unfold on_disconnected. cbv zeta. assert (E : ended sd (LEvent EDisconnected :: log s)) by (exists EDisconnected; split; [left; reflexivity|left; reflexivity]).
    set (s1 := set_csent false _). assert (H1 : honest sd s1) by (split; cl; intros _; exact E). destruct sd; [apply honest_close, honest_frame, honest_connect|apply honest_close, honest_deliver; [left; exact E|]]; exact H1.
Qed.
Lemma honest_run sd es : usable sd es -> honest sd (run sd es).
Proof.
  induction es as [|e es IH] using rev_ind; intros U; [split; [discriminate|intros []]|]. apply usable_app in U as [U1 U2]. rewrite run_snoc. apply honest_step; auto.
Qed.
(** Before the end of the connection no call of receive() yields a notice of disconnection. *)
Theorem coro_no_false_disconnection sd es : usable sd es -> ~ ended sd (chronicle sd es) ->
  ~ In (LDone (calls_made es) (RFrame FDisconnected)) (chronicle sd (es ++ [ECall KReceive])).
Proof.
  intros U NE H. destruct (honest_run sd es U) as [H1 H2]. unfold chronicle in *. rewrite run_snoc in H. unfold step, do_call, do_receive in H. cbv zeta in H. cl. rewrite run_calls in H.
  assert (NOT : forall r, ~ In (LDone (calls_made es) r) (log (run sd es))).
  { intros r X. pose proof (uni_run sd es U) as UN. assert (Y : In (calls_made es) (outcomes (log (run sd es)))) by (apply outcomes_iff; left; exists r; exact X). destruct (u_lt _ _ UN _ (or_introl Y)) as [L _]. rewrite run_calls in L. lia. }
  destruct (frames (run sd es)) as [|f rest] eqn:EF.
  - destruct (disc (run sd es)) eqn:ED; [apply NE, H1; reflexivity|]. destruct (frame_w (run sd es)); unfold throw in H; cl; [destruct H as [H|H]; [discriminate|]|]; (destruct H as [H|H]; [discriminate|]); exact (NOT _ H).
  - match type of H with In _ (log (complete ?n ?r ?s)) => destruct (complete_log n r s) as [E|E]; rewrite E in H end; cl.
    + destruct H as [H|H]; [discriminate|exact (NOT _ H)].
    + destruct H as [H|[H|H]]; [|discriminate|exact (NOT _ H)]. injection H as ->. apply NE, H2. left. reflexivity.
Qed.

(** ** The hypotheses are met *)
Example coro_waiting_example sd : waiting sd 0 [ECall KReceive; ECall (KClose 1000 [])] /\ waiting sd 1 [ECall KReceive; ECall (KClose 1000 [])] /\ ~ ended sd (chronicle sd [ECall KReceive; ECall (KClose 1000 [])]).
Proof.
  unfold waiting, outcome, destroyed, ended. destruct sd; cbn; (split; [|split]); try (intros (e & [H|[H|[H|[]]]] & [E|[_ E]]); congruence);
    (split; [lia|split; [intros [[r [H|[H|[H|[]]]]]|[x [H|[H|[H|[]]]]]]; discriminate|intros [H|[H|[H|[]]]]; discriminate]]).
Qed.
Example coro_connecting_example : waiting Client 0 [ECall KConnect].
Proof. unfold waiting, outcome, destroyed. cbn. split; [lia|split; [intros [[r [H|[]]]|[x [H|[]]]]; discriminate|intros [H|[]]; discriminate]]. Qed.
Print Assumptions coro_waiting_receive_is_served.
Print Assumptions coro_connect_succeeds.
Print Assumptions coro_close_succeeds.
Print Assumptions coro_connect_ends_earlier_calls.
Print Assumptions coro_no_false_disconnection.
