(** Nothing is lost at a coroutine WebSocket endpoint whose reader keeps up. *)
From Verif Require Import Base CoroModel CoroSpec CoroProofs CoroProofs2.
Local Open Scope N_scope.

Definition gn s := gone (since (log s)).
Record keep (c : nat) (x : list frame) (s : st) : Prop := {
  k_all : A s = B s ++ filter real (frames s) ++ x;
  k_shape : exists t, frames s = filter real (frames s) ++ t /\ (t = [] \/ t = [FDisconnected] /\ gn s);
  k_wait : frame_w s <> None -> frames s = [];
  k_live : forall n, frame_w s = Some n -> ~ In n (dead s) /\ ~ In n (fin s);
  k_cap : (c <= cap s)%nat }.
Lemma gone_mono i l : i <> LEvent (ECall KConnect) -> gone (since l) -> gone (since (i :: l)).
Proof. intros NE G. destruct i as [[[]| | | | | | | | |]| | | |]; try (right; exact G). destruct NE. reflexivity. Qed.
Lemma silent_not_connect i : silent i -> i <> LEvent (ECall KConnect).
Proof. intros H ->. destruct H as [_ H]. apply H. reflexivity. Qed.
Lemma keep_silent c i x s : silent i -> keep c x s -> keep c x (note i s).
Proof.
  intros Hi [H1 (t & H2 & H2') H3 H4 H5]. destruct (silent_AB i (log s) Hi) as [Q1 Q2]. constructor; unfold A, B, gn in *; cl; auto.
  - rewrite Q1, Q2. exact H1.
  - exists t. split; [exact H2|]. destruct H2' as [->|[-> G]]; [auto|]. right. split; [reflexivity|]. apply gone_mono; [apply silent_not_connect, Hi|exact G].
Qed.
Lemma keep_same c x s s' : log s' = log s -> frames s' = frames s -> frame_w s' = frame_w s -> dead s' = dead s -> fin s' = fin s -> cap s' = cap s -> keep c x s -> keep c x s'.
Proof. intros E1 E2 E3 E4 E5 E6 [H1 H2 H3 H4 H5]. constructor; unfold A, B, gn in *; rewrite ?E1, ?E2, ?E3, ?E4, ?E5, ?E6; assumption. Qed.
Lemma keep_complete c n r x s : silent (LDone n r) -> frame_w s <> Some n -> keep c x s -> keep c x (complete n r s).
Proof.
  intros Hr NF H. destruct (complete_cases n r s) as [[-> _]|[-> _]]; [exact H|]. apply keep_silent; [exact Hr|]. destruct H as [H1 H2 H3 H4 H5]. constructor; try assumption.
  cl. intros m E. destruct (H4 m E). split; [assumption|]. intros [->|Q]; [congruence|auto].
Qed.
Ltac ksame := match goal with |- keep ?c ?x (_ _ ?s) => apply (keep_same c x s); [reflexivity|reflexivity|reflexivity|reflexivity|reflexivity|reflexivity|] end.
Lemma keep_finish_close c b x s h : uni h s -> keep c x s -> keep c x (finish_close b s).
Proof.
  intros U H. unfold finish_close. destruct (close_w s) as [n|] eqn:E; [|exact H]. apply keep_complete; [exact I| |ksame; exact H].
  cl. intros C. destruct (u_fw _ _ U n C). congruence.
Qed.
Lemma keep_finish_connect c b x s h : uni h s -> keep c x s -> keep c x (finish_connect b s).
Proof.
  intros U H. unfold finish_connect. destruct (connect_w s) as [n|] eqn:E; [|exact H]. apply keep_complete; [exact I| |ksame; exact H].
  cl. intros C. destruct (u_fw _ _ U n C) as (_ & Q & _). congruence.
Qed.
Lemma keep_finish_disc c x s : keep c x s -> keep c x (finish_frame FDisconnected s).
Proof.
  intros H. unfold finish_frame. destruct (frame_w s) as [n|] eqn:E; [|exact H]. apply keep_complete; [reflexivity|cl; discriminate|].
  destruct H as [H1 H2 H3 H4 H5]. constructor; cl; [exact H1|exact H2|intros C; destruct C; reflexivity|discriminate|exact H5].
Qed.
(** A frame that finds room, or a waiting reader. *)
Lemma keep_deliver c f s : real f = true -> (0 < c)%nat -> ~ gn s -> (length (filter real (frames s)) < c)%nat -> keep c [f] s -> keep c [] (deliver f s).
Proof.
  intros R C0 NG L [H1 (t & H2 & H2') H3 H4 H5]. assert (T : t = []) by (destruct H2' as [->|[_ Q]]; [reflexivity|contradiction]). subst t. rewrite app_nil_r in H2.
  unfold deliver. destruct (frame_w s) as [n|] eqn:E.
  - destruct (H4 n eq_refl) as [D1 D2]. assert (EF : frames s = []) by (apply H3; discriminate).
    destruct (complete_cases n (RFrame f) (set_frame_w None s)) as [[_ [Q|Q]]|(-> & _ & _)]; [contradiction|contradiction|].
    constructor; unfold A, B, gn in *; cl; [| |intros C; destruct C; reflexivity|discriminate|exact H5].
    + rewrite (B_done n f s) by reflexivity. cbn [filter]. rewrite EF, R. cbn [filter Datatypes.app]. rewrite app_nil_r. unfold B. rewrite EF in H1. exact H1.
    + exists []. rewrite EF. auto.
  - rewrite H2 in *. destruct (Nat.eqb_spec (cap s) 0); [lia|]. destruct (Nat.leb_spec (cap s) (length (filter real (frames s)))) as [Q|Q]; [rewrite <- H2 in L; lia|].
    assert (FF : filter real (filter real (frames s) ++ [f]) = filter real (frames s) ++ [f]).
    { rewrite filter_app, <- H2. cbn [filter]. rewrite R. rewrite <- H2. reflexivity. }
    constructor; unfold A, B, gn in *; cl; [| |congruence|congruence|exact H5].
    + rewrite FF, app_nil_r. rewrite <- H2 in H1. exact H1.
    + exists []. rewrite FF, app_nil_r. auto.
Qed.
Lemma keep_deliver_disc c s : (0 < c)%nat -> gn s -> (length (filter real (frames s)) < c)%nat -> frames s = filter real (frames s) -> keep c [] s -> keep c [] (deliver FDisconnected s).
Proof.
  intros C0 G L EQ H. unfold deliver. destruct (frame_w s) as [n|] eqn:E.
  - pose proof (keep_finish_disc c [] s H) as Q. unfold finish_frame in Q. rewrite E in Q. exact Q.
  - destruct H as [H1 _ H3 H4 H5]. destruct (Nat.eqb_spec (cap s) 0); [lia|]. destruct (Nat.leb_spec (cap s) (length (frames s))) as [Q|Q]; [rewrite EQ in Q; lia|].
    assert (FF : filter real (frames s ++ [FDisconnected]) = filter real (frames s)) by (rewrite filter_app; cbn; apply app_nil_r).
    constructor; unfold A, B, gn in *; cl; [| |congruence|congruence|exact H5].
    + rewrite FF. exact H1.
    + exists [FDisconnected]. rewrite FF, <- EQ. auto.
Qed.
Lemma keep_arrival c e f s : incoming e = Some f -> keep c [] s -> keep c [f] (note (LEvent e) s) /\ A (note (LEvent e) s) = A s ++ [f] /\ B (note (LEvent e) s) = B s /\ (gn (note (LEvent e) s) -> gn s).
Proof.
  intros E [H1 (t & H2 & H2') H3 H4 H5].
  assert (Q : since (LEvent e :: log s) = LEvent e :: since (log s)) by (destruct e as [[]| | | | | | | | |]; try discriminate; reflexivity).
  assert (QA : A (note (LEvent e) s) = A s ++ [f]) by (unfold A; cl; rewrite Q; cbn [arrived]; rewrite E; reflexivity).
  assert (QB : B (note (LEvent e) s) = B s) by (unfold B; cl; rewrite Q; reflexivity).
  split; [|split; [exact QA|split; [exact QB|]]].
  - constructor; cl; auto.
    + rewrite QA, QB, H1, app_nil_r, <- app_assoc. reflexivity.
    + exists t. split; [exact H2|]. destruct H2' as [->|[-> G]]; [auto|]. right. split; [reflexivity|]. unfold gn. cl. apply gone_mono; [|exact G]. intros C. injection C as ->. discriminate.
  - unfold gn. cl. rewrite Q. intros [C|C]; [injection C as ->; discriminate|exact C].
Qed.
(** What is asked of one event. *)
Record fine (c : nat) (sd : side) (s : st) (e : event) : Prop := {
  f_side : sd = Session -> e <> ECall KConnect;
  f_cap : forall k, e = ECap k -> (c <= k)%nat;
  f_destroy : forall n, e = EDestroy n -> In n (outcomes (log s));
  f_quiet : incoming e <> None \/ e = EDisconnected -> ~ gn s;
  f_room : incoming e <> None \/ e = EDisconnected -> (length (A s) < length (B s) + c)%nat }.
(** Connecting starts from nothing. *)
Lemma connect_clean n s0 : since (log s0) = [] -> A (do_connect n s0) = [] /\ B (do_connect n s0) = [].
Proof.
  intros H0.
  assert (K : forall n r s1, silent (LDone n r) -> A (complete n r s1) = A s1 /\ B (complete n r s1) = B s1).
  { intros m r s1 Hr. destruct (complete_cases m r s1) as [[-> _]|[-> _]]; [auto|]. exact (silent_AB _ _ Hr). }
  unfold do_connect. cbv zeta. set (s1 := finish_frame FDisconnected s0). set (s2 := finish_close false s1). set (s3 := set_csent false (set_disc false (set_frames [] s2))).
  assert (H1 : A s1 = [] /\ B s1 = []). { unfold s1, finish_frame. destruct (frame_w s0) as [m|]; [destruct (K m (RFrame FDisconnected) (set_frame_w None s0) eq_refl) as [-> ->]|]; unfold A, B; cl; rewrite H0; auto. }
  assert (H2 : A s2 = [] /\ B s2 = []). { unfold s2, finish_close. destruct (close_w s1) as [m|]; [|exact H1]. destruct (K m (RClose false) (set_close_w None s1) I) as [-> ->]. exact H1. }
  change (A (finish_connect false s3) = [] /\ B (finish_connect false s3) = []). unfold finish_connect. destruct (connect_w s3) as [m|]; [|exact H2].
  destruct (K m (RConnect false) (set_connect_w None s3) I) as [-> ->]. exact H2.
Qed.
Lemma keep_step c sd s e : (0 < c)%nat -> uni None s -> fine c sd s e -> keep c [] s -> keep c [] (step sd s e).
Proof.
  intros C0 U0 [F1 F2 F3 F4 F6] H0. unfold step. assert (U : uni None (note (LEvent e) s)) by (apply uni_note; [reflexivity|exact U0]).
  assert (RL : incoming e <> None \/ e = EDisconnected -> (length (filter real (frames s)) < c)%nat) by (intros X; apply F6 in X; pose proof (k_all _ _ _ H0) as Q; rewrite app_nil_r in Q; rewrite Q, app_length in X; lia).
  assert (ARR : forall f, incoming e = Some f -> keep c [f] (note (LEvent e) s) /\ real f = true /\ ~ gn (note (LEvent e) s) /\ (length (filter real (frames s)) < c)%nat).
  { intros f E. destruct (keep_arrival c e f s E H0) as (Q1 & Q2 & Q3 & Q4). split; [exact Q1|]. split; [apply (real_incoming _ _ E)|]. split; [|apply RL; left; congruence]. intros G. apply F4; [left; congruence|auto]. }
  assert (SIL : silent (LEvent e) -> keep c [] (note (LEvent e) s)) by (intros Q; apply keep_silent; assumption).
  destruct e as [k|n|cp|h d|d|d|d| | |]; cbv zeta.
  - destruct k as [| |status reason].
    + clear SIL ARR. unfold do_call. destruct sd; [|destruct (F1 eq_refl eq_refl)]. unfold do_connect. cbv zeta.
      destruct (connect_clean (calls (note (LEvent (ECall KConnect)) s)) (set_calls (S (calls (note (LEvent (ECall KConnect)) s))) (note (LEvent (ECall KConnect)) s)) eq_refl) as [QA QB].
      unfold do_connect in QA, QB. cbv zeta in QA, QB. constructor; [rewrite QA, QB; cc; reflexivity|exists []; cc; auto|cc; auto|cc; discriminate|cc; apply H0].
    + assert (H1 := SIL ltac:(split; [reflexivity|discriminate])). unfold do_call, do_receive. set (s0 := set_calls _ _). pose proof (uni_number _ U) as U1. fold s0 in U1.
      assert (H2 : keep c [] s0) by (unfold s0; ksame; exact H1). set (n := calls _) in *.
      assert (NF : frame_w s0 <> Some n) by (intros C; destruct (u_lt _ _ U1 n) as [_ Q]; [unfold slot; auto|apply Q; reflexivity]).
      destruct (frames s0) as [|f rest] eqn:EF.
      * destruct (disc s0); [apply keep_complete; [reflexivity|exact NF|exact H2]|]. destruct (frame_w s0) as [m|] eqn:EW.
        -- unfold throw. apply keep_silent; [exact I|]. destruct H2 as [K1 K2 K3 K4 K5]. constructor; try assumption. cl. intros j E. destruct (K4 j E). split; [|assumption]. intros [->|Q]; [|auto]. subst s0; cl. congruence.
        -- destruct H2 as [K1 K2 K3 K4 K5]. constructor; cl; auto. intros j E. injection E as <-.
           assert (X : ~ In n (outcomes (log s0)) /\ ~ In n (dead s0)) by (split; intros C; destruct (u_lt _ _ U1 n) as [_ Q]; auto; apply Q; reflexivity).
           destruct X as [X1 X2]. split; [exact X2|]. intros C. apply X1, (u_fin _ _ U1), C.
      * assert (X : ~ In n (outcomes (log s0)) /\ ~ In n (dead s0)) by (split; intros C; destruct (u_lt _ _ U1 n) as [_ Q]; auto; apply Q; reflexivity). destruct X as [X1 X2].
        destruct (complete_cases n (RFrame f) (set_frames rest s0)) as [[_ [Q|Q]]|(-> & _ & _)]; [destruct (X2 Q)|destruct (X1 (u_fin _ _ U1 _ Q))|].
        destruct H2 as [K1 (t & K2 & K2') K3 K4 K5]. assert (EW : frame_w s0 = None) by (destruct (frame_w s0) eqn:EW; [rewrite K3 in EF; [discriminate|congruence]|reflexivity]).
        constructor; cl.
        -- unfold A. cl. change (A s0 = returned (since (LDone n (RFrame f) :: log s0)) ++ filter real rest ++ []). rewrite (B_done n f s0) by reflexivity. rewrite K1, EF, !app_nil_r, <- app_assoc.
           change (f :: rest) with ([f] ++ rest). rewrite filter_app. reflexivity.
        -- rewrite EF in K2. cbn [filter] in K2. destruct (real f) eqn:ER.
           ++ injection K2 as K2. exists t. split; [exact K2|]. destruct K2' as [->|[-> G]]; [auto|]. right. split; [reflexivity|]. right. exact G.
           ++ exists []. rewrite app_nil_r. split; [|auto]. destruct K2' as [->|[-> G]].
              ** rewrite app_nil_r in K2. exfalso. assert (IN : In f (filter real rest)) by (rewrite <- K2; left; reflexivity). apply filter_In in IN. destruct IN as [_ IN]. congruence.
              ** destruct (filter real rest) as [|g l] eqn:EG; [injection K2 as _ ->; reflexivity|]. injection K2 as -> K2. exfalso. assert (IN : In g (filter real rest)) by (rewrite EG; left; reflexivity). apply filter_In in IN. destruct IN as [_ IN]. congruence.
        -- intros C. subst s0. cl. congruence.
        -- intros j E. subst s0. cl. congruence.
        -- exact K5.
    + assert (H1 := SIL ltac:(split; [reflexivity|discriminate])). unfold do_call, do_close. set (s0 := set_calls _ _). pose proof (uni_number _ U) as U1. fold s0 in U1.
      assert (H2 : keep c [] s0) by (unfold s0; ksame; exact H1). set (n := calls _) in *.
      assert (NF : frame_w s0 <> Some n) by (intros C; destruct (u_lt _ _ U1 n) as [_ Q]; [unfold slot; auto|apply Q; reflexivity]).
      assert (TH : forall x s1, frame_w s1 = frame_w s0 -> keep c [] s1 -> keep c [] (throw n x s1)).
      { intros x s1 E1 [K1 K2 K3 K4 K5]. unfold throw. apply keep_silent; [exact I|]. constructor; try assumption. cl. intros j E. destruct (K4 j E). split; [|assumption]. intros [->|Q]; [|auto]. congruence. }
      destruct (close_w s0); [apply TH; [reflexivity|exact H2]|]. destruct (disc s0); [apply keep_complete; [exact I|exact NF|exact H2]|].
      destruct (sendable status); [apply keep_silent; [exact I|]; destruct sd; repeat ksame; exact H2|]. destruct sd; (apply TH; [reflexivity|repeat ksame; exact H2]).
  - assert (H1 := SIL ltac:(split; [reflexivity|discriminate])). destruct (Nat.ltb _ _); [|exact H1]. destruct H1 as [K1 K2 K3 K4 K5]. constructor; try assumption. cl. intros j E. destruct (K4 j E). split; [|assumption]. intros [->|Q]; [|auto].
    destruct (u_fw _ _ U0 j E) as (_ & _ & Q). apply Q, F3. reflexivity.
  - assert (H1 := SIL ltac:(split; [reflexivity|discriminate])). destruct H1 as [K1 K2 K3 K4 K5]. constructor; try assumption. cl. apply F2. reflexivity.
  - destruct (ARR (make_message h d)) as (Q1 & Q2 & Q3 & RR); [rewrite make_message_ok; reflexivity|]. apply (keep_deliver c); assumption.
  - destruct (ARR _ eq_refl) as (Q1 & Q2 & Q3 & RR). apply (keep_deliver c); assumption.
  - destruct (ARR _ eq_refl) as (Q1 & Q2 & Q3 & RR). apply (keep_deliver c); assumption.
  - destruct (ARR (make_close d)) as (Q1 & Q2 & Q3 & RR); [symmetry; apply make_close_ok|]. unfold on_peer_close. cbv zeta. set (s1 := if csent _ then _ else _).
    assert (U1 : uni None s1) by (unfold s1; destruct (csent _); [exact U|apply uni_note; [reflexivity|]; usame U]).
    apply (keep_finish_close c true [] _ None); [apply uni_deliver; exact U1|]. unfold s1 in *. destruct (csent (note (LEvent (EPeerClose d)) s)); [apply (keep_deliver c); assumption|].
    apply (keep_deliver c); auto; [|apply keep_silent; [exact I|ksame; exact Q1]]. unfold gn in *. cl. intros [G|G]; [discriminate|]. apply Q3. exact G.
  - assert (H1 := SIL ltac:(split; [reflexivity|discriminate])). destruct sd; [|exact H1]. apply (keep_finish_connect c true [] _ None); assumption.
  - assert (H1 := SIL ltac:(split; [reflexivity|discriminate])). unfold on_error. destruct sd; [|exact H1]. assert (U1 : uni None (set_disc true (note (LEvent EError) s))) by usame U.
    apply (keep_finish_close c false [] _ None); [apply uni_finish_frame, uni_finish_connect; exact U1|]. apply keep_finish_disc. apply (keep_finish_connect c false [] _ None); [exact U1|]. ksame. exact H1.
  - assert (H1 := SIL ltac:(split; [reflexivity|discriminate])). unfold on_disconnected. cbv zeta. set (s1 := set_csent _ _). assert (U1 : uni None s1) by (unfold s1; usame U). assert (H2 : keep c [] s1) by (unfold s1; repeat ksame; exact H1).
    destruct sd.
    + apply (keep_finish_close c true [] _ None); [apply uni_finish_frame, uni_finish_connect; exact U1|]. apply keep_finish_disc. apply (keep_finish_connect c false [] _ None); assumption.
    + apply (keep_finish_close c true [] _ None); [apply uni_deliver; exact U1|]. apply keep_deliver_disc; [exact C0|left; reflexivity|apply RL; auto| |exact H2].
      destruct (k_shape _ _ _ H0) as (t & E & T). change (frames s1) with (frames s). destruct T as [->|[_ G]]; [rewrite app_nil_r in E; exact E|]. destruct (F4 (or_intror eq_refl) G).
Qed.
