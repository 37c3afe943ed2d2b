(** WebSocket properties (C47-C54). *)
From Verif Require Import Base H2Spec H2Proofs WsSpec WsModel WsProofs WsParser WsParser2 WsSession WsDrive.
Local Open Scope N_scope.

(** ** The specification is unambiguous *)
Lemma app_same {A} (a b c d : list A) : length a = length b -> a ++ c = b ++ d -> a = b /\ c = d.
Proof. revert b. induction a as [|x a IH]; intros [|y b] L E; try discriminate; [auto|]. cbn in E. injection E as -> E. injection L as L. destruct (IH b L E) as [-> ->]. auto. Qed.
Lemma valid_op16 server f : ValidFrame server f -> wf_op f < 16.
Proof. intros ([D|[C _]] & _); unfold data_op, control_op in *; lia. Qed.
Lemma octet_inj fin op fin' op' : op < 16 -> op' < 16 -> (if fin : bool then 128 else 0) + op = (if fin' : bool then 128 else 0) + op' -> fin = fin' /\ op = op'.
Proof. intros. destruct fin, fin'; split; try reflexivity; try lia. Qed.
Lemma wire_inj server f w f' w' t t' : Wire f w -> Wire f' w' -> ValidFrame server f -> ValidFrame server f' -> w ++ t = w' ++ t' -> f = f' /\ w = w' /\ t = t'.
Proof.
  intros W W' V V' E. pose proof (valid_op16 _ _ V) as O. pose proof (valid_op16 _ _ V') as O'. destruct V as (_ & VM & _), V' as (_ & VM' & _).
  destruct W as [fin op p ind ext L|fin op m p ind ext body L M], W' as [fin' op' p' ind' ext' L'|fin' op' m' p' ind' ext' body' L' M']; cbn [wf_op wf_mask] in *; cbn [app] in E; injection E as E0 E1 E2;
    destruct (octet_inj _ _ _ _ O O' E0) as [<- <-].
  - subst ind'. rewrite <- !app_assoc in E2. destruct (length_bytes_inj _ _ _ _ _ _ _ L L' E2) as [N0 ->]. apply app_inv_head in E2.
    destruct (app_same p p' t t') as [-> ->]; [lia|exact E2|]. auto.
  - exfalso. apply proj1 in VM. apply proj2 in VM'. specialize (VM eq_refl). specialize (VM' VM). discriminate.
  - exfalso. apply proj1 in VM'. apply proj2 in VM. specialize (VM' eq_refl). specialize (VM VM'). discriminate.
  - assert (ind' = ind) by lia. subst ind'. rewrite <- !app_assoc in E2. destruct (length_bytes_inj _ _ _ _ _ _ _ L L' E2) as [N0 ->]. apply app_inv_head in E2.
    pose proof M as (M4 & ML & _). pose proof M' as (M4' & ML' & _). destruct (app_same m m' _ _ ltac:(lia) E2) as [-> E3].
    destruct (app_same body body' _ _ ltac:(lia) E3) as [-> ->]. rewrite <- (masked_unmask _ _ _ M), <- (masked_unmask _ _ _ M'). auto.
Qed.
Lemma step_det max st f st1 e1 st2 e2 : FrameStep max st f st1 e1 -> FrameStep max st f st2 e2 -> st1 = st2 /\ e1 = e2.
Proof. intros A B. inversion A; subst; inversion B; subst; auto; lia. Qed.
Lemma step_ops max st f st1 e1 : FrameStep max st f st1 e1 -> wf_op f <> 8 /\ (st = None -> wf_op f <> 0) /\ (forall op d, st = Some (op, d) -> wf_op f <> 1 /\ wf_op f <> 2) /\
  (data_op (wf_op f) -> fits max (wf_payload f)) /\ (forall op d, st = Some (op, d) -> wf_op f = 0 -> fits max (d ++ wf_payload f)) /\
  (st = None -> wf_op f = 1 -> wf_fin f = true -> Utf8 (wf_payload f)) /\ (forall d, st = Some (1, d) -> wf_op f = 0 -> wf_fin f = true -> Utf8 (d ++ wf_payload f)).
Proof.
  assert (FA : forall d p, fits max (d ++ p) -> fits max p) by (intros d p; unfold fits; rewrite app_length; lia).
  destruct 1; cbn [wf_op wf_payload wf_fin]; repeat split; intros; try congruence; try lia; try (repeat match goal with H : Some _ = Some _ |- _ => injection H as ? ?; subst end; eauto; fail); try (unfold data_op in *; lia).
  all: repeat match goal with H : Some _ = Some _ |- _ => injection H as ? ?; subst end; auto.
Qed.
Lemma offence_no_step server max st w t c f st1 e1 : Offence server max st (w ++ t) c -> Wire f w -> ValidFrame server f -> FrameStep max st f st1 e1 -> False.
Proof.
  intros O W V S. pose proof (valid_op16 _ _ V) as O16. destruct (step_ops _ _ _ _ _ S) as (S1 & S2 & S3 & S4 & S5 & S6 & S7).
  assert (HD : exists fin op ind ext p u, w ++ t = (if fin : bool then 128 else 0) + op :: (if server then 128 else 0) + ind :: ext ++ u /\ op = wf_op f /\ fin = wf_fin f /\ p = wf_payload f /\ LengthBytes (N.of_nat (length p)) ind ext).
  { destruct V as (_ & VM & _). destruct W as [fin op p ind ext L|fin op m p ind ext body L M]; cbn [wf_mask] in VM.
    - apply proj1 in VM. rewrite (VM eq_refl). exists fin, op, ind, ext, p, (p ++ t). cbn [app]. rewrite <- app_assoc. repeat split; try reflexivity. exact L.
    - destruct server; [|apply proj2 in VM; specialize (VM eq_refl); discriminate]. exists fin, op, ind, ext, p, ((m ++ body) ++ t). cbn [app]. rewrite <- app_assoc. repeat split; try reflexivity. exact L. }
  destruct HD as (fin & op & ind & ext & p & u & EW & -> & -> & -> & L).
  assert (I128 : ind < 128) by (unfold LengthBytes in L; lia).
  pose proof V as (VO & VM & VB).
  remember (w ++ t) as rest eqn:ER.
  destruct O as [b0 b1 t0 E N1 N2|b0 b1 t0 E N1|b0 b1 t0 E N1 N2|b0 b1 t0 E N1|b0 b1 t0 E N1 N2|b0 b1 x t0 E N1 N2 N3|b0 b1 x t0 E N1 N2 N3|b0 b1 x t0 n E N1 N2 N3 N4
    |f' w' t' op d E W' V' N1 N2|f' w' t' E W' V' N1 N2|f' w' t' op d E W' V' N1 N2 N3|f' w' t' E W' V' N1 N2 N3 N4|f' w' t' d E W' V' N1 N2 N3 N4|f' w' t' E W' V' N1 N2|f' w' t' a b r E W' V' N1 N2 N3].
  all: try (rewrite EW in E; injection E as E0 E1 E2;
    assert (B0 : b0 mod 16 = wf_op f) by (rewrite <- E0; destruct (wf_fin f); lia); assert (B1 : b1 mod 128 = ind) by (rewrite <- E1; destruct server; lia); rewrite ?B0, ?B1 in *).
  all: try (rewrite ER in E; destruct (wire_inj _ _ _ _ _ _ _ W W' V V' E) as (<- & <- & _)).
  - destruct VO as [D|[D _]]; auto.
  - apply N1. rewrite <- E0. destruct (wf_fin f); lia.
  - destruct VO as [D|[D [F _]]]; [unfold data_op, control_op in *; lia|]. rewrite F in E0. lia.
  - destruct server; [assert (128 <= b1) by lia; apply N1 in H; discriminate|]. apply proj2 in N1. specialize (N1 eq_refl). lia.
  - destruct VO as [D|[D [F K]]]; [unfold data_op, control_op in *; lia|]. unfold LengthBytes in L. lia.
  - destruct L as [L|[L|L]]; [lia| |lia]. destruct L as (L1 & L2 & L3 & L4). destruct (app_same ext x _ _ ltac:(lia) E2) as [-> _]. lia.
  - destruct L as [L|[L|L]]; [lia|lia|]. destruct L as (L1 & L2 & L3 & L4). destruct (app_same ext x _ _ ltac:(lia) E2) as [-> _]. lia.
  - destruct (length_bytes_inj _ _ _ _ _ _ _ L N1 E2) as [NE _]. destruct (S4 N4); lia.
  - destruct (S3 _ _ N1). lia.
  - apply (S2 N1). exact N2.
  - apply N3. eapply S5; eauto.
  - apply N4, S6; assumption.
  - apply N4, S7; assumption.
  - contradiction.
  - contradiction.
Qed.
Lemma conversation_unique server has_close max thr st fs st1 evs (C : Conversation server max st fs st1 evs) : forall ws, Forall2 Wire fs ws -> Forall (fun e => thr e = false) evs ->
  forall st2 fs' ws' evs' rest b l', Conversation server max st fs' st2 evs' -> Forall2 Wire fs' ws' -> concat ws = concat ws' ++ rest -> Ends server has_close max thr st2 rest b l' ->
  fs = fs' /\ evs = evs' /\ b = true /\ l' = [].
Proof.
  induction C as [st|st f sa ea fs sb eb V S C IH]; intros ws FW TH st2 fs' ws' evs' rest b l' C' FW' E EN.
  - inversion FW; subst. cbn [concat] in E. symmetry in E. apply app_eq_nil in E as [E ->]. inversion C'; subst.
    + repeat split; auto; inversion EN; subst; try reflexivity; exfalso.
      all: try match goal with H : Offence _ _ _ [] _ |- _ => inversion H; subst; try discriminate; match goal with H : [] = ?w ++ _, W : Wire _ ?w |- _ => destruct W; discriminate end end.
      all: try match goal with H : ClosesWith _ [] _ |- _ => destruct H as (? & w & ? & H & W & _); destruct W; discriminate end.
      all: match goal with H : [] = ?w ++ _, W : Wire _ ?w |- _ => destruct W; discriminate end.
    + inversion FW' as [|? w ? ? W]; subst. cbn [concat] in E. apply app_eq_nil in E as [E _]. subst w. inversion W.
  - inversion FW as [|? w ? ws1 W FW1]; subst. cbn [concat] in E. rewrite Forall_app in TH. destruct TH as [TA TB].
    inversion C' as [|? f' sa' ea' fs1 sb' eb' V' S' C1]; subst.
    + inversion FW'; subst. cbn [concat app] in E. subst rest. exfalso. inversion EN; subst.
      * destruct H as [H _]. eapply H; eauto.
      * eapply offence_no_step; eauto.
      * destruct H0 as (f' & w' & t' & E & W' & V' & O8 & _). destruct (wire_inj _ _ _ _ _ _ _ W W' V V' E) as (<- & _). apply (proj1 (step_ops _ _ _ _ _ S)). exact O8.
      * destruct H0 as (f' & w' & t' & E & W' & V' & O8 & _). destruct (wire_inj _ _ _ _ _ _ _ W W' V V' E) as (<- & _). apply (proj1 (step_ops _ _ _ _ _ S)). exact O8.
      * destruct (wire_inj _ _ _ _ _ _ _ W H0 V H1 H) as (<- & _). destruct (step_det _ _ _ _ _ _ _ S H2) as [_ ->]. inversion TA. congruence.
    + inversion FW' as [|? w' ? ws1' W' FW1']; subst. cbn [concat] in E. rewrite <- app_assoc in E. destruct (wire_inj _ _ _ _ _ _ _ W W' V V' E) as (<- & <- & E').
      destruct (step_det _ _ _ _ _ _ _ S S') as [<- <-]. destruct (IH ws1 FW1 TB st2 fs1 ws1' eb' rest b l' C1 FW1' E' EN) as (-> & -> & -> & ->). auto.
Qed.

(** ** C47: every octet sequence is accounted for.  Whatever octets arrive and however they are cut, they are a legal
    conversation (frame by frame, RFC 6455) followed by a rest; the application has been told exactly the events of that
    conversation and the peer has been sent exactly the pongs they require, in order; and the endpoint then is either waiting
    for more octets, or has stopped for one of the stated reasons, with the close frame that reason requires. *)
Theorem ws_session_exact server has_close max masks thr chunks :
  (forall i, length (masks i) = 4%nat) -> Forall bytes_ok chunks ->
  exists fs wires st rest evs l l',
    concat chunks = concat wires ++ rest /\ Forall2 Wire fs wires /\ Conversation server max None fs st evs /\ Forall (fun e => thr e = false) evs /\ Chronicle server evs l /\
    Ends server has_close max thr st rest (w_ok (fst (ws_feed server has_close max masks thr ws_init [] chunks))) l' /\
    rev (w_log (fst (ws_feed server has_close max masks thr ws_init [] chunks))) = l ++ l'.
Proof.
  intros M B. destruct (feed_spec server has_close max masks thr M chunks B) as (st & rest & l & l' & (fs & wires & evs & T1 & T2 & T3 & T4 & T5) & E & L).
  exists fs, wires, st, rest, evs, l, l'. auto 10.
Qed.
(** ** C48: a legal conversation is accepted in full. *)
Theorem ws_legal_accepted server has_close max masks thr chunks fs wires st evs :
  (forall i, length (masks i) = 4%nat) -> Forall bytes_ok chunks ->
  concat chunks = concat wires -> Forall2 Wire fs wires -> Conversation server max None fs st evs -> Forall (fun e => thr e = false) evs ->
  w_ok (fst (ws_feed server has_close max masks thr ws_init [] chunks)) = true /\
  Chronicle server evs (rev (w_log (fst (ws_feed server has_close max masks thr ws_init [] chunks)))).
Proof.
  intros M B E F C T. destruct (ws_session_exact server has_close max masks thr chunks M B) as (fs' & wires' & st' & rest & evs' & l & l' & E' & F' & C' & T' & L & EN & LG).
  rewrite E in E'. destruct (conversation_unique server has_close max thr _ _ _ _ C wires F T _ _ _ _ _ _ _ C' F' E' EN) as (<- & <- & OK & ->).
  rewrite LG, app_nil_r. auto.
Qed.
(** ** C49: how the octets are cut into reads makes no difference at all. *)
Theorem ws_chunking server has_close max masks thr chunks chunks' :
  (forall i, length (masks i) = 4%nat) -> Forall bytes_ok chunks -> Forall bytes_ok chunks' -> concat chunks = concat chunks' ->
  fst (ws_feed server has_close max masks thr ws_init [] chunks) = fst (ws_feed server has_close max masks thr ws_init [] chunks').
Proof.
  intros M B B' E. pose proof (resting_init server max masks) as R.
  rewrite (feed_drive server has_close max masks thr M chunks None [] ws_init ws_init R (Forall_nil _) B), (feed_drive server has_close max masks thr M chunks' None [] ws_init ws_init R (Forall_nil _) B'), E. reflexivity.
Qed.
(** ** C50: once stopped, an endpoint reports and writes nothing more. *)
Theorem ws_stopped server has_close max masks thr chunks more :
  w_ok (fst (ws_feed server has_close max masks thr ws_init [] chunks)) = false ->
  w_log (fst (ws_feed server has_close max masks thr ws_init [] (chunks ++ more))) = w_log (fst (ws_feed server has_close max masks thr ws_init [] chunks)).
Proof.
  generalize ws_init, (@nil N). induction chunks as [|c cs IH]; intros s pend D.
  - cbn [app ws_feed fst] in *. rewrite feed_dead by exact D. reflexivity.
  - cbn [app ws_feed] in *. destruct (ws_drive server has_close max masks thr s (pend ++ c)) as [s' r]. apply IH, D.
Qed.
(** ** C51: the message being reassembled never exceeds the configured limit. *)
Definition Bounded (max : N) (s : ws) : Prop := max = 0 \/ N.of_nat (length (w_data s)) <= max.
Lemma fail_bounded server masks max c r s : Bounded max s -> Bounded max (fail server masks c r s).
Proof. intros H. unfold fail. destruct (w_ok s); [|exact H]. destruct (message_close c r); [|exact H]. unfold Bounded. cbn. right. lia. Qed.
Lemma send_data server masks fro p s : w_data (fst (send server masks fro p s)) = w_data s.
Proof. unfold send. destruct (serialize _ _ _); reflexivity. Qed.
Lemma bounded_nil max s : w_data s = [] -> Bounded max s.
Proof. intros E. right. rewrite E. cbn. lia. Qed.
Lemma bounded_same max s s' : w_data s' = w_data s -> Bounded max s -> Bounded max s'.
Proof. unfold Bounded. intros ->. auto. Qed.
Lemma message_size_bounded server max masks buf s : Bounded max s -> Bounded max (fst (message_size server max masks buf s)).
Proof.
  intros H. unfold message_size, fail_at. repeat (match goal with |- context [if ?b then _ else _] => destruct b | |- context [let _ := _ in _] => cbv zeta end; cbn [fst]).
  all: first [exact H | apply fail_bounded; exact H | idtac].
Qed.
Lemma process_control_bounded server has_close max masks thr op p s : Bounded max s -> Bounded max (fst (process_control server has_close masks thr op p s)).
Proof.
  intros H. assert (EC : Bounded max (fst (let '(s0, okb) := if has_close then report thr (EClose p) s else send server masks (w_fro s) p s in if okb then (set_ok false s0, true) else (s0, false)))).
  { destruct has_close; unfold report; [destruct (negb (thr (EClose p))); exact H|]. pose proof (send_data server masks (w_fro s) p s) as D. destruct (send server masks (w_fro s) p s) as [s' okb]. cbn [fst] in D.
    destruct okb; cbn [fst]; apply (bounded_same max s); auto. }
  unfold process_control. destruct (op =? 8).
  - destruct p as [|a [|b r]]; [exact EC|apply fail_bounded, H|]. cbv zeta. destruct (negb (is_sendable_close_code _)); [apply fail_bounded, H|]. destruct (_ && _); [apply fail_bounded, H|exact EC].
  - destruct (op =? 9).
    + unfold report. destruct (negb (thr (EPing p))); [|exact H]. apply (bounded_same max s); [|exact H]. rewrite send_data. reflexivity.
    + destruct (op =? 10); [|exact H]. unfold report. exact H.
Qed.
Lemma process_data_bounded server max masks thr op fin p s : Bounded max s -> Bounded max (fst (process_data server max masks thr op fin p s)).
Proof.
  intros H. unfold process_data. cbv zeta. set (s1 := if negb (op =? 0) then _ else _).
  assert (B1 : Bounded max s1) by (subst s1; repeat match goal with |- context [if ?b then _ else _] => destruct b end; try (apply fail_bounded, H); try exact H; apply bounded_nil; reflexivity).
  clearbody s1. destruct (w_ok s1); [|exact B1]. destruct ((0 <? max) && _) eqn:LM; [apply fail_bounded, B1|].
  assert (B2 : Bounded max (set_data (w_data s1 ++ p) s1)) by (apply (limit_spec max) in LM; exact LM).
  destruct fin; [|exact B2]. destruct (w_dop _ =? 0); [apply fail_bounded, B2|]. unfold report.
  destruct ((w_dop _ =? 1) && _); [apply bounded_nil; reflexivity|]. destruct (negb _); [apply bounded_nil; reflexivity|exact B2].
Qed.
Theorem ws_buffer_bounded server has_close max masks thr chunks : max <> 0 ->
  N.of_nat (length (w_data (fst (ws_feed server has_close max masks thr ws_init [] chunks)))) <= max.
Proof.
  intros NZ. assert (ON : forall buf s, Bounded max s -> Bounded max (on_message server has_close max masks thr buf s)).
  { intros buf s H. destruct (w_ok s) eqn:OK; [|unfold on_message; rewrite OK; exact H]. rewrite on_message_eq by exact OK. cbv zeta.
    destruct (8 <=? N.land (w_fro s) 15).
    - pose proof (process_control_bounded server has_close max masks thr (N.land (w_fro s) 15) (payload_at buf s) s H) as X. destruct (process_control _ _ _ _ _ _ s) as [s' []]; exact X.
    - pose proof (process_data_bounded server max masks thr (N.land (w_fro s) 15) (negb (N.land (w_fro s) 128 =? 0)) (payload_at buf s) s H) as X. destruct (process_data _ _ _ _ _ _ _ s) as [s' []]; exact X. }
  assert (DR : forall k s buf, Bounded max s -> Bounded max (fst (ws_drive_n server has_close max masks thr k s buf))).
  { induction k as [|k IH]; intros s buf H; cbn [ws_drive_n]; [exact H|]. pose proof (message_size_bounded server max masks buf s H) as X. destruct (message_size server max masks buf s) as [s1 n]. cbn [fst] in X.
    destruct (n =? 0); [exact X|]. apply IH, ON, X. }
  assert (FD : forall cs s pend, Bounded max s -> Bounded max (fst (ws_feed server has_close max masks thr s pend cs))).
  { induction cs as [|c cs IH]; intros s pend H; cbn [ws_feed]; [exact H|]. pose proof (DR (S (length (pend ++ c))) s (pend ++ c) H) as X. unfold ws_drive. destruct (ws_drive_n _ _ _ _ _ _ _ _) as [s' r]. apply IH, X. }
  destruct (FD chunks ws_init [] (bounded_nil max ws_init eq_refl)) as [X|X]; [contradiction|exact X].
Qed.
(** ** C52: close messages.  A close message is built exactly for codes that may be sent, its reason is valid UTF-8 and fits the 125 octets of a control frame; a longer reason is cut to
    its longest valid prefix. *)
Lemma shrink_spec n : forall r, (length r <= n)%nat -> exists k, shrink n r = firstn k r /\ (k <= length r)%nat /\ is_utf8 (firstn k r) = true /\ forall j, (j <= length r)%nat -> is_utf8 (firstn j r) = true -> (j <= k)%nat.
Proof.
  induction n as [|n IH]; intros r L; [destruct r; [exists 0%nat; cbn; auto|cbn in L; lia]|]. cbn [shrink].
  assert (RS : r = [] \/ (0 < length r)%nat) by (destruct r; cbn; auto with arith). destruct RS as [->|LP]; [exists 0%nat; cbn; repeat split; auto; lia|].
  replace (match r with [] => [] | _ :: _ => if is_utf8 r then r else shrink n (removelast r) end) with (if is_utf8 r then r else shrink n (removelast r)) by (destruct r; [cbn in LP; lia|reflexivity]).
  destruct (is_utf8 r) eqn:U; [exists (length r); rewrite firstn_all; auto|].
  pose proof (removelast_firstn_len r) as RL.
  destruct (IH (removelast r)) as (k & K1 & K2 & K3 & K4); [rewrite RL, firstn_length; lia|]. rewrite RL, firstn_length in K2. rewrite RL, firstn_firstn in K3. rewrite RL in K1 at 2. rewrite firstn_firstn in K1. replace (Nat.min k (pred (length r))) with k in K1, K3 by lia.
  exists k. split; [exact K1|]. split; [lia|]. split; [exact K3|]. intros j J1 J2. destruct (Nat.eq_dec j (length r)) as [->|NE]; [rewrite firstn_all in J2; congruence|].
  apply K4; rewrite RL, ?firstn_length; [lia|]. rewrite firstn_firstn. replace (Nat.min j (pred (length r))) with j by lia. exact J2.
Qed.
Definition CutReason (reason r : list N) : Prop :=
  if (length reason <=? 123)%nat then r = reason
  else exists k, r = firstn k reason /\ (k <= 123)%nat /\ forall j, (j <= 123)%nat -> Utf8 (firstn j reason) -> (j <= k)%nat.
Lemma bytes_ok_firstn k l : bytes_ok l -> bytes_ok (firstn k l).
Proof. intros H. rewrite <- (firstn_skipn k l) in H. apply bytes_ok_app in H. tauto. Qed.
Theorem ws_close_message status reason : bytes_ok reason ->
  match message_close status reason with
  | Some p => exists r, p = status / 256 :: status mod 256 :: r /\ close_code_ok status /\ Utf8 r /\ (length p <= 125)%nat /\ CutReason reason r
  | None => ~ close_code_ok status \/ (length reason <= 123)%nat /\ ~ Utf8 reason
  end.
Proof.
  intros B. unfold message_close, CutReason. destruct (is_sendable_close_code status) eqn:SC; cbn [negb].
  2:{ left. intros X. apply sendable_spec in X. congruence. }
  assert (CC : close_code_ok status) by (apply sendable_spec, SC). destruct (octets_of status) as [-> ->]; [unfold close_code_ok in CC; lia|].
  destruct (N.ltb_spec 123 (N.of_nat (length reason))) as [L|L].
  - replace (length reason <=? 123)%nat with false by (symmetry; apply Nat.leb_gt; lia).
    destruct (shrink_spec 123 (firstn 123 reason)) as (k & K1 & K2 & K3 & K4); [rewrite firstn_length; lia|]. rewrite firstn_length in K2, K4. rewrite firstn_firstn in K1, K3. replace (Nat.min k 123) with k in K1, K3 by lia.
    rewrite K1, K3. rewrite andb_false_r. exists (firstn k reason). split; [reflexivity|]. split; [exact CC|]. split; [apply is_utf8_spec; [apply bytes_ok_firstn, B|exact K3]|]. split; [cbn [length]; rewrite firstn_length; lia|].
    exists k. split; [reflexivity|]. split; [lia|]. intros j J1 J2. apply K4; [lia|]. rewrite firstn_firstn. replace (Nat.min j 123) with j by lia. apply is_utf8_spec; [apply bytes_ok_firstn, B|exact J2].
  - replace (length reason <=? 123)%nat with true by (symmetry; apply Nat.leb_le; lia).
    destruct (is_utf8 reason) eqn:U; cbn [negb]; rewrite ?andb_false_r, ?andb_true_r.
    + exists reason. split; [reflexivity|]. split; [exact CC|]. split; [apply is_utf8_spec; assumption|]. split; [cbn [length]; lia|reflexivity].
    + destruct reason as [|x r]; [discriminate U|]. right. split; [lia|]. intros X. apply is_utf8_spec in X; [congruence|exact B].
Qed.
(** ** C53: what one endpoint sends the other receives.  Any sequence of complete messages, serialised by one side and read by the other, arrives as exactly those messages. *)
Definition sendable (max : N) (m : N * list N) : Prop := (fst m = 1 \/ fst m = 2) /\ complete (fst m) (snd m) /\ bytes_ok (snd m) /\ fits max (snd m) /\ N.of_nat (length (snd m)) < 2 ^ 63.
Theorem ws_round_trip (server : bool) has_close max masks thr (send_masks : nat -> list N) (msgs : list (N * list N)) (outs : list (list N)) chunks :
  (forall i, length (masks i) = 4%nat) -> (forall i, length (send_masks i) = 4%nat /\ bytes_ok (send_masks i)) ->
  Forall (sendable max) msgs -> (forall m, In m msgs -> thr (EMsg (fst m) (snd m)) = false) ->
  length outs = length msgs ->
  (forall i m, nth_error msgs i = Some m -> exists b, nth_error outs i = Some b /\ serialize (if server then Some (send_masks i) else None) (128 + fst m) (snd m) = Some b) ->
  Forall bytes_ok chunks -> concat chunks = concat outs ->
  w_ok (fst (ws_feed server has_close max masks thr ws_init [] chunks)) = true /\
  rev (w_log (fst (ws_feed server has_close max masks thr ws_init [] chunks))) = map (fun m => WEv (EMsg (fst m) (snd m))) msgs.
Proof.
  intros M SM F TH LO SER B E.
  assert (K : exists fs, Forall2 Wire fs outs /\ Conversation server max None fs None (map (fun m => EMsg (fst m) (snd m)) msgs)).
  { clear B E TH. revert outs send_masks SM LO SER. induction F as [|m msgs FM F IH]; intros outs sm SM LO SER.
    - destruct outs; [|discriminate]. exists []. split; constructor.
    - destruct outs as [|b outs]; [discriminate|]. destruct (SER 0%nat m eq_refl) as (b' & EB & SE). injection EB as <-.
      destruct (IH outs (fun i => sm (S i))) as (fs & F2 & C).
      + intros i. apply SM. + injection LO as LO. exact LO. + intros i m' H. apply (SER (S i) m' H).
      + destruct FM as (OP & CM & BM & FT & LT).
        destruct (serialize_wire (if server then Some (sm 0%nat) else None) true (fst m) (snd m)) as (b' & SB & W).
        * lia. * exact LT. * left. unfold data_op. lia. * intros k. destruct server; [|discriminate]. intros X. injection X as <-. apply SM.
        * unfold frame_octet in SB. rewrite SB in SE. injection SE as ->. eexists. split; [constructor; [exact W|exact F2]|].
          cbn [map]. change (?x :: ?l) with ([x] ++ l). econstructor; [| |exact C].
          -- split; [left; unfold data_op; cbn; lia|]. split; [|exact BM]. cbn. destruct server; split; intros; congruence.
          -- apply fs_single; assumption. }
  destruct K as (fs & F2 & C).
  destruct (ws_legal_accepted server has_close max masks thr chunks fs outs None _ M B E F2 C) as [OK CH].
  - rewrite Forall_map, Forall_forall. exact TH.
  - split; [exact OK|]. revert CH. generalize (rev (w_log (fst (ws_feed server has_close max masks thr ws_init [] chunks)))). clear. induction msgs as [|m msgs IH]; intros l CH; inversion CH; subst; cbn [map]; [reflexivity|]. f_equal. apply IH. assumption.
Qed.

(** ** Concrete cases *)
Definition ex_mask : list N := [1; 2; 3; 4].
Definition ex_frames : list wframe := [mk_wf false 1 (Some ex_mask) [104; 195]; mk_wf true 9 (Some ex_mask) [7; 7]; mk_wf true 0 (Some ex_mask) [169]].
Definition ex_wires : list (list N) := [[1; 130; 1; 2; 3; 4; 105; 193]; [137; 130; 1; 2; 3; 4; 6; 5]; [128; 129; 1; 2; 3; 4; 168]].
Lemma ex_wires_ok : Forall2 Wire ex_frames ex_wires.
Proof.
  repeat constructor.
  - apply (wire_masked false 1 ex_mask [104; 195] 2 [] [105; 193]); [left; repeat split|split; [reflexivity|split; [reflexivity|]]]. intros [|[|i]] H; try reflexivity; cbn in H; lia.
  - apply (wire_masked true 9 ex_mask [7; 7] 2 [] [6; 5]); [left; repeat split|split; [reflexivity|split; [reflexivity|]]]. intros [|[|i]] H; try reflexivity; cbn in H; lia.
  - apply (wire_masked true 0 ex_mask [169] 1 [] [168]); [left; repeat split|split; [reflexivity|split; [reflexivity|]]]. intros [|i] H; try reflexivity; cbn in H; lia.
Qed.
Lemma ex_conversation : Conversation true 16 None ex_frames None [EPing [7; 7]; EMsg 1 [104; 195; 169]].
Proof.
  assert (V : forall fin op p, data_op op \/ control_op op /\ fin = true /\ N.of_nat (length p) <= 125 -> bytes_ok p -> ValidFrame true (mk_wf fin op (Some ex_mask) p)).
  { intros fin op p A B. split; [exact A|]. split; [split; discriminate|exact B]. }
  change [EPing [7; 7]; EMsg 1 [104; 195; 169]] with ([] ++ ([EPing [7; 7]] ++ ([EMsg 1 ([104; 195] ++ [169])] ++ []))).
  eapply conv_cons; [apply V; [left; right; left; reflexivity|repeat constructor]|apply fs_first; [left; reflexivity|right; cbn; lia]|].
  eapply conv_cons; [apply V; [right; split; [right; left; reflexivity|split; [reflexivity|cbn; lia]]|repeat constructor]|apply fs_ping|].
  eapply conv_cons; [apply V; [left; left; reflexivity|repeat constructor]|apply fs_last; [right; cbn; lia|]|constructor].
  intros _. exists [104; 233]. split; [repeat constructor; unfold Scalar; lia|reflexivity].
Qed.
Definition ex_run chunks := fst (ws_feed true false 16 (fun _ => ex_mask) (fun _ => false) ws_init [] chunks).
Example ex_accepted : w_ok (ex_run [[1; 130; 1; 2; 3]; [4; 105; 193; 137; 130; 1; 2; 3; 4; 6]; [5; 128; 129; 1; 2; 3; 4; 168]]) = true /\
  rev (w_log (ex_run [[1; 130; 1; 2; 3]; [4; 105; 193; 137; 130; 1; 2; 3; 4; 6]; [5; 128; 129; 1; 2; 3; 4; 168]])) = [WEv (EPing [7; 7]); WOut [138; 2; 7; 7]; WEv (EMsg 1 [104; 195; 169])].
Proof. vm_compute. split; reflexivity. Qed.
Example ex_offences : w_ok (ex_run [[129; 1; 65]]) = false /\ w_ok (ex_run [[129; 145; 1; 2; 3; 4]]) = false /\ w_ok (ex_run [[129; 129; 0; 0; 0; 0; 255]]) = false /\ w_ok (ex_run [[128; 129; 0; 0; 0; 0; 65]]) = false.
Proof. vm_compute. repeat split. Qed.
Example ex_close : rev (w_log (ex_run [[136; 130; 0; 0; 0; 0; 3; 232]])) = [WOut [136; 2; 3; 232]].
Proof. vm_compute. reflexivity. Qed.
Example ex_close_message : message_close 1000 (repeat 65 122 ++ [195; 169]) = Some (3 :: 232 :: repeat 65 122).
Proof. vm_compute. reflexivity. Qed.
Example ex_round_trip_hyps : sendable 16 (1, str "hi") /\ serialize (Some ex_mask) (128 + 1) (str "hi") = Some [129; 130; 1; 2; 3; 4; 105; 107].
Proof.
  split; [|vm_compute; reflexivity]. split; [left; reflexivity|]. split; [|split; [repeat constructor|split; [right; cbn; lia|reflexivity]]].
  intros _. exists [104; 105]. split; [repeat constructor; unfold Scalar; lia|reflexivity].
Qed.
