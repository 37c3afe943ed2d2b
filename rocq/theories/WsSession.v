(** A WebSocket session: what every sequence of received octets leads to. *)
From Verif Require Import Base H2Spec H2Proofs WsSpec WsModel WsProofs WsParser WsParser2.
Local Open Scope N_scope.

Section SESSION.
Variable server : bool.
Variable has_close : bool.
Variable max : N.
Variable masks : nat -> list N.
Variable thr : wevent -> bool.
Hypothesis masks4 : forall i, length (masks i) = 4%nat.

(** The message in progress, as the parser keeps it. *)
Definition Rep (st : progress) (s : ws) : Prop :=
  match st with
  | None => w_dop s = 0 /\ w_data s = []
  | Some (op, d) => w_dop s = op /\ w_data s = d /\ (op = 1 \/ op = 2) /\ bytes_ok d
  end.

Lemma send_spec op p s : op < 16 -> data_op op \/ control_op op -> N.of_nat (length p) <= 125 ->
  exists b n, send server masks (frame_octet true op) p s = (wnote (WOut b) (set_sent n s), true) /\ Sends server op p b.
Proof.
  intros O V L. unfold send.
  destruct (serialize_wire (if server then None else Some (masks (w_sent s))) true op p O) as (b & E & W).
  - assert (125 < 2 ^ 63) by reflexivity. lia.
  - destruct V as [V|V]; [left; exact V|right; auto].
  - intros m E. destruct server; [discriminate|injection E as <-; apply masks4].
  - rewrite E. eexists b, _. split; [reflexivity|]. eexists. split; [exact W|]. destruct server; split; intros; try reflexivity; discriminate.
Qed.
Lemma sendable_spec c : is_sendable_close_code c = true <-> close_code_ok c.
Proof. unfold is_sendable_close_code, close_code_ok. cbn [In]. destruct ((c <? 1000) || (4999 <? c)) eqn:A; [split; [discriminate|lia]|]. destruct ((c =? 1004) || (c =? 1005) || (c =? 1006) || (c =? 1015)) eqn:B; split; try discriminate; intros; lia. Qed.
Lemma octets_of c : c <= 4999 -> N.land (N.shiftr c 8) 255 = c / 256 /\ N.land c 255 = c mod 256.
Proof.
  intros H. change 255 with (N.ones 8). rewrite !N.land_ones, N.shiftr_div_pow2. change (2 ^ 8) with 256. split; [apply N.mod_small; lia|reflexivity].
Qed.
Lemma message_close_short c reason : is_sendable_close_code c = true -> is_utf8 reason = true -> (length reason <= 123)%nat ->
  message_close c reason = Some (c / 256 :: c mod 256 :: reason).
Proof.
  intros C U L. unfold message_close. rewrite C. cbn [negb]. replace (123 <? N.of_nat (length reason)) with false by (symmetry; apply N.ltb_ge; lia).
  rewrite U. rewrite andb_false_r. apply sendable_spec in C. unfold close_code_ok in C. destruct (octets_of c) as [-> ->]; [lia|]. reflexivity.
Qed.
Lemma fail_spec c reason s : w_ok s = true -> is_sendable_close_code c = true -> is_utf8 reason = true -> bytes_ok reason -> (length reason <= 123)%nat ->
  exists b, w_ok (fail server masks c reason s) = false /\ w_log (fail server masks c reason s) = WErr :: WOut b :: w_log s /\
    Utf8 reason /\ Sends server 8 (c / 256 :: c mod 256 :: reason) b.
Proof.
  intros OK C U B L. unfold fail. rewrite OK, message_close_short by assumption.
  destruct (send_spec 8 (c / 256 :: c mod 256 :: reason) s) as (b & n & E & S); [reflexivity|right; left; reflexivity|cbn [length]; lia|].
  change 136 with (frame_octet true 8). rewrite E. exists b. cbn. split; [reflexivity|]. split; [reflexivity|]. split; [apply is_utf8_spec; assumption|exact S].
Qed.

Notation End_ := (Ends server has_close max thr).
Inductive OnResult (st : progress) (f : wframe) (w t : list N) (s : ws) : ws -> Prop :=
| on_step st' evs l s' : FrameStep max st f st' evs -> Forall (fun e => thr e = false) evs -> Chronicle server evs l -> w_log s' = rev l ++ w_log s ->
    Fresh s' -> Rep st' s' -> OnResult st f w t s s'
| on_end l s' : End_ st (w ++ t) false l -> w_log s' = rev l ++ w_log s -> w_ok s' = false -> OnResult st f w t s s'.

Lemma on_message_eq buf s : w_ok s = true -> on_message server has_close max masks thr buf s =
  let op := N.land (w_fro s) 15 in
  let '(s', okb) := if 8 <=? op then process_control server has_close masks thr op (payload_at buf s) s
     else process_data server max masks thr op (negb (N.land (w_fro s) 128 =? 0)) (payload_at buf s) s in
  let s' := if okb then s' else set_ok false s' in set_fro 0 (set_parsed 0 (set_exp 0 s')).
Proof. intros E. unfold on_message. rewrite E. reflexivity. Qed.

Lemma fin_end st f w t s s' okb l : End_ st (w ++ t) false l -> w_log s' = rev l ++ w_log s -> okb = false \/ w_ok s' = false ->
  OnResult st f w t s (set_fro 0 (set_parsed 0 (set_exp 0 (if okb then s' else set_ok false s')))).
Proof. intros E L K. apply (on_end _ _ _ _ _ l); [exact E|destruct okb; exact L|]. destruct okb; [destruct K; [discriminate|assumption]|reflexivity]. Qed.
Lemma fin_step st f w t s s' st' evs l : FrameStep max st f st' evs -> Forall (fun e => thr e = false) evs -> Chronicle server evs l -> w_log s' = rev l ++ w_log s ->
  w_ok s' = true -> Rep st' s' -> OnResult st f w t s (set_fro 0 (set_parsed 0 (set_exp 0 s'))).
Proof. intros F T C L OK R. apply (on_step _ _ _ _ _ st' evs l); try assumption; repeat split; exact OK. Qed.
Lemma fin_fail st f w t s s0 c reason : Offence server max st (w ++ t) c -> w_ok s0 = true -> w_log s0 = w_log s ->
  is_sendable_close_code c = true -> is_utf8 reason = true -> bytes_ok reason -> (length reason <= 123)%nat ->
  forall s', w_ok s' = w_ok (fail server masks c reason s0) -> w_log s' = w_log (fail server masks c reason s0) ->
  OnResult st f w t s (set_fro 0 (set_parsed 0 (set_exp 0 s'))).
Proof.
  intros O OK LG C U B L s' E1 E2. destruct (fail_spec c reason s0 OK C U B L) as (b & F1 & F2 & F3 & F4).
  apply (on_end _ _ _ _ _ [WOut b; WErr]); [eapply en_failed; eauto|cbn; rewrite E2, F2, LG; reflexivity|cbn; congruence].
Qed.
Lemma str_ok x : bytes_ok (str x).
Proof. unfold str. induction (list_ascii_of_string x); constructor; [apply N_ascii_bounded|assumption]. Qed.
Ltac lit := first [reflexivity | apply Nat.leb_le; reflexivity | apply str_ok].

Lemma control_spec st f w t s : w_ok s = true -> Rep st s -> Wire f w -> ValidFrame server f -> control_op (wf_op f) -> w_fro s = frame_octet (wf_fin f) (wf_op f) ->
  OnResult st f w t s (let '(s', okb) := process_control server has_close masks thr (wf_op f) (wf_payload f) s in
     let s' := if okb then s' else set_ok false s' in set_fro 0 (set_parsed 0 (set_exp 0 s'))).
Proof.
  intros OK RP W V C FR. pose proof V as ([D|(C' & FIN & L125)] & VM & BP); [unfold data_op, control_op in *; lia|]. rewrite FIN in FR.
  destruct f as [fin op m p]. cbn [wf_op wf_fin wf_mask wf_payload] in *. subst fin. unfold process_control.
  destruct (N.eqb_spec op 8) as [->|N8].
  - assert (GOOD : ClosePayload p -> ClosesWith server (w ++ t) p) by (intros X; exists (mk_wf true 8 m p), w, t; split; [reflexivity|split; [exact W|split; [exact V|split; [reflexivity|split; [reflexivity|exact X]]]]]).
    assert (ECHO : ClosePayload p -> OnResult st (mk_wf true 8 m p) w t s
      (let '(s', okb) := (let '(s0, okb) := if has_close then report thr (EClose p) s else send server masks (w_fro s) p s in if okb then (set_ok false s0, true) else (s0, false)) in
       let s' := if okb then s' else set_ok false s' in set_fro 0 (set_parsed 0 (set_exp 0 s')))).
    { intros CP. destruct has_close eqn:HC.
      - unfold report. destruct (negb (thr (EClose p))); cbv zeta; (apply (on_end _ _ _ _ _ [WEv (EClose p)]); [apply en_close_handled; auto|reflexivity|reflexivity]).
      - destruct (send_spec 8 p s) as (b & n & E & S); [reflexivity|right; left; reflexivity|exact L125|]. rewrite FR, E. cbv zeta.
        apply (on_end _ _ _ _ _ [WOut b]); [eapply en_close_echoed; eauto|reflexivity|reflexivity]. }
    destruct p as [|a [|b reason]].
    + apply ECHO. left. reflexivity.
    + cbv zeta. eapply fin_fail; [| | | | | | |reflexivity|reflexivity]; [|exact OK|reflexivity|lit|lit|lit|lit]. eapply (of_close_code _ _ _ _ (mk_wf true 8 m [a])); [reflexivity|eassumption|assumption|reflexivity|left; reflexivity].
    + assert (BA : a < 256 /\ b < 256 /\ bytes_ok reason) by (inversion BP as [|? ? ? B']; inversion B'; auto). destruct BA as (BA & BB & BR).
      cbv zeta. rewrite (val16 a b BA BB). destruct (is_sendable_close_code (be_val [a; b])) eqn:SC; cbn [negb].
      2:{ eapply fin_fail; [| | | | | | |reflexivity|reflexivity]; [|exact OK|reflexivity|lit|lit|lit|lit]. eapply (of_close_code _ _ _ _ (mk_wf true 8 m (a :: b :: reason))); [reflexivity|eassumption|assumption|reflexivity|].
          right. exists a, b, reason. split; [reflexivity|]. intros X. apply sendable_spec in X. congruence. }
      destruct (is_utf8 reason) eqn:U; cbn [negb]; rewrite ?andb_false_r, ?andb_true_r.
      2:{ destruct reason as [|r0 reason]; [discriminate U|]. eapply fin_fail; [| | | | | | |reflexivity|reflexivity]; [|exact OK|reflexivity|lit|lit|lit|lit].
          eapply (of_close_reason _ _ _ _ (mk_wf true 8 m (a :: b :: r0 :: reason))); [reflexivity|eassumption|assumption|reflexivity|reflexivity|]. intros X. apply is_utf8_spec in X; [congruence|assumption]. }
      apply ECHO. right. exists a, b, reason. split; [reflexivity|]. split; [apply sendable_spec, SC|apply is_utf8_spec; assumption].
  - destruct (N.eqb_spec op 9) as [->|N9].
    + unfold report. destruct (thr (EPing p)) eqn:T; cbn [negb]; cbv zeta.
      * apply (fin_end _ _ _ _ _ _ false [WEv (EPing p)]); [eapply en_thrown; [reflexivity|exact W|exact V|apply fs_ping|exact T]|reflexivity|left; reflexivity].
      * destruct (send_spec 10 p (wnote (WEv (EPing p)) s)) as (b & n & E & S); [reflexivity|right; right; right; reflexivity|exact L125|].
        change 138 with (frame_octet true 10). rewrite E. cbv zeta.
        eapply fin_step; [apply fs_ping|constructor; [exact T|constructor]|apply ch_ping; [exact S|constructor]|reflexivity|exact OK|].
        destruct st as [[op' d]|]; exact RP.
    + assert (op = 10) by (destruct C as [?|[?|?]]; congruence). subst op. change (10 =? 10) with true. cbv iota. unfold report. destruct (thr (EPong p)) eqn:T; cbn [negb]; cbv zeta.
      * apply (fin_end _ _ _ _ _ _ false [WEv (EPong p)]); [eapply en_thrown; [reflexivity|exact W|exact V|apply fs_pong|exact T]|reflexivity|left; reflexivity].
      * eapply fin_step; [apply fs_pong|constructor; [exact T|constructor]|apply ch_other; [discriminate|constructor]|reflexivity|exact OK|]. destruct st as [[op' d]|]; exact RP.
Qed.

(** The second half of processDataFrame. *)
Definition data_tail (fin : bool) (p : list N) (s : ws) : ws * bool :=
  if (0 <? max) && ((max <? N.of_nat (length (w_data s))) || (max - N.of_nat (length (w_data s)) <? N.of_nat (length p))) then
      (fail server masks 1009 (str "Payload size exceeds configured limit") s, true)
    else
      let s := set_data (w_data s ++ p) s in
      if fin then
        if w_dop s =? 0 then (fail server masks 1002 (str "Received final continuation frame with no initial data frame") s, true)
        else
          let '(s, okb) :=
            if (w_dop s =? 1) && negb (is_utf8 (w_data s)) then (fail server masks 1007 (str "Invalid UTF-8 in text message") s, true)
            else report thr (EMsg (w_dop s) (w_data s)) (set_masked (negb server) s) in
          if okb then (set_dop 0 (set_data [] s), true) else (s, false)
      else (s, true).
Lemma process_data_eq op fin p s : process_data server max masks thr op fin p s =
  let s1 := if negb (op =? 0) then
      if negb (w_dop s =? 0) then fail server masks 1002 (str "Received new data message before previous was complete") s
      else set_data [] (set_dop op s)
    else if w_dop s =? 0 then fail server masks 1002 (str "Received continuation frame without initial data frame") s
    else s in if w_ok s1 then data_tail fin p s1 else (s1, true).
Proof. reflexivity. Qed.
Lemma limit_spec d p : (0 <? max) && ((max <? N.of_nat (length d)) || (max - N.of_nat (length d) <? N.of_nat (length p))) = false <-> fits max (d ++ p).
Proof. unfold fits. rewrite app_length. lia. Qed.
(** [st1] is where the frame's payload is appended. *)
Lemma data_tail_spec st f w t s s1 op d fin m p : f = mk_wf fin (wf_op f) m p -> w_ok s1 = true -> w_log s1 = w_log s -> w_dop s1 = op -> w_data s1 = d -> op = 1 \/ op = 2 -> bytes_ok d -> bytes_ok p ->
  Wire f w -> ValidFrame server f ->
  (fits max (d ++ p) -> fin = false -> FrameStep max st f (Some (op, d ++ p)) []) ->
  (fits max (d ++ p) -> fin = true -> complete op (d ++ p) -> FrameStep max st f None [EMsg op (d ++ p)]) ->
  (~ fits max (d ++ p) -> Offence server max st (w ++ t) 1009) ->
  (fin = true -> op = 1 -> ~ Utf8 (d ++ p) -> Offence server max st (w ++ t) 1007) ->
  OnResult st f w t s (let '(s', okb) := data_tail fin p s1 in let s' := if okb then s' else set_ok false s' in set_fro 0 (set_parsed 0 (set_exp 0 s'))).
Proof.
  intros EF OK LG DO DA OP BD BP W V S1 S2 O1 O2. unfold data_tail. rewrite DA.
  destruct ((0 <? max) && ((max <? N.of_nat (length d)) || (max - N.of_nat (length d) <? N.of_nat (length p)))) eqn:LM.
  { cbv zeta. eapply fin_fail; [| | | | | | |reflexivity|reflexivity]; [|exact OK|exact LG|lit|lit|lit|lit]. apply O1. intros X. apply limit_spec in X. congruence. }
  apply limit_spec in LM. cbv zeta. destruct fin.
  - change (w_dop (set_data (d ++ p) s1)) with (w_dop s1). rewrite DO. replace (op =? 0) with false by lia. change (w_data (set_data (d ++ p) s1)) with (d ++ p).
    assert (BDP : bytes_ok (d ++ p)) by (apply bytes_ok_app; auto). pose proof (is_utf8_spec (d ++ p) BDP) as U.
    destruct ((op =? 1) && negb (is_utf8 (d ++ p))) eqn:B.
    + apply andb_true_iff in B as [B1 B2]. apply N.eqb_eq in B1. apply negb_true_iff in B2. set (sf := fail _ _ _ _ _). cbv zeta.
      eapply (fin_fail _ _ _ _ _ (set_data (d ++ p) s1) 1007 (str "Invalid UTF-8 in text message")); [|exact OK|exact LG|lit|lit|lit|lit|reflexivity|reflexivity].
      apply O2; [reflexivity|exact B1|]. intros X. apply U in X. congruence.
    + assert (CM : complete op (d ++ p)) by (intros X; rewrite X in B; change (1 =? 1) with true in B; cbn [andb] in B; apply negb_false_iff in B; apply U, B).
      specialize (S2 LM eq_refl CM). unfold report. destruct (thr (EMsg op (d ++ p))) eqn:T; cbn [negb]; cbv zeta.
      * apply (fin_end _ _ _ _ _ _ false [WEv (EMsg op (d ++ p))]); [eapply en_thrown; [reflexivity|exact W|exact V|exact S2|exact T]|cbn; rewrite LG; reflexivity|left; reflexivity].
      * eapply fin_step; [exact S2|constructor; [exact T|constructor]|apply ch_other; [discriminate|constructor]|cbn; rewrite LG; reflexivity|exact OK|split; reflexivity].
  - cbv zeta. eapply fin_step; [apply S1; auto|constructor|constructor|exact LG|exact OK|]. cbn. repeat split; try assumption. apply bytes_ok_app; auto.
Qed.
Lemma data_spec st f w t s : w_ok s = true -> Rep st s -> Wire f w -> ValidFrame server f -> data_op (wf_op f) -> fits max (wf_payload f) ->
  OnResult st f w t s (let '(s', okb) := process_data server max masks thr (wf_op f) (wf_fin f) (wf_payload f) s in
     let s' := if okb then s' else set_ok false s' in set_fro 0 (set_parsed 0 (set_exp 0 s'))).
Proof.
  intros OK RP W V D FT. assert (BP : bytes_ok (wf_payload f)) by apply V. rewrite process_data_eq. cbv zeta.
  destruct (N.eqb_spec (wf_op f) 0) as [Z|NZ]; cbn [negb].
  - destruct st as [[op d]|]; cbn [Rep] in RP.
    + destruct RP as (R1 & R2 & R3 & R4). replace (w_dop s =? 0) with false by lia. rewrite OK.
      apply (data_tail_spec _ _ _ _ _ _ op d _ (wf_mask f)); try assumption; try reflexivity.
      * destruct f; reflexivity.
      * intros F E. destruct f as [fin o m p]; cbn in *; subst. apply fs_middle, F.
      * intros F E C. destruct f as [fin o m p]; cbn in *; subst. apply fs_last; assumption.
      * intros F. eapply of_total; eauto.
      * intros E -> NU. eapply of_text_fragments; eauto.
    + destruct RP as [R1 R2]. rewrite R1. change (0 =? 0) with true. cbv iota.
      assert (F1 : w_ok (fail server masks 1002 (str "Received continuation frame without initial data frame") s) = false) by (destruct (fail_spec 1002 (str "Received continuation frame without initial data frame") s) as (b & X & _); lit || assumption).
      rewrite F1. cbv zeta. eapply fin_fail; [| | | | | | |reflexivity|reflexivity]; [|exact OK|reflexivity|lit|lit|lit|lit]. eapply of_orphan; eauto.
  - assert (OP : wf_op f = 1 \/ wf_op f = 2) by (unfold data_op in D; lia). destruct st as [[op d]|]; cbn [Rep] in RP.
    + destruct RP as (R1 & R2 & R3 & R4). replace (w_dop s =? 0) with false by lia. cbn [negb].
      assert (F1 : w_ok (fail server masks 1002 (str "Received new data message before previous was complete") s) = false) by (destruct (fail_spec 1002 (str "Received new data message before previous was complete") s) as (b & X & _); lit || assumption).
      rewrite F1. cbv zeta. eapply fin_fail; [| | | | | | |reflexivity|reflexivity]; [|exact OK|reflexivity|lit|lit|lit|lit]. eapply of_interleaved; eauto.
    + destruct RP as [R1 R2]. rewrite R1. change (0 =? 0) with true. cbn [negb]. change (w_ok (set_data [] (set_dop (wf_op f) s))) with (w_ok s). rewrite OK.
      apply (data_tail_spec _ _ _ _ _ _ (wf_op f) [] _ (wf_mask f)); try assumption; try reflexivity.
      * destruct f; reflexivity.
      * constructor.
      * intros F E. destruct f as [fin o m p]; cbn in *; subst. apply fs_first; assumption.
      * intros F E C. destruct f as [fin o m p]; cbn in *; subst. apply fs_single; assumption.
      * intros F. destruct (F FT).
      * intros E1 E2 NU. eapply of_text; eauto.
Qed.
Lemma on_message_spec st f w t s : Rep st s -> w_ok s = true -> Wire f w -> ValidFrame server f -> (data_op (wf_op f) -> fits max (wf_payload f)) ->
  w_fro s = frame_octet (wf_fin f) (wf_op f) -> payload_at (w ++ t) s = wf_payload f ->
  OnResult st f w t s (on_message server has_close max masks thr (w ++ t) s).
Proof.
  intros RP OK W V FT FR PA. rewrite on_message_eq by exact OK. cbv zeta. rewrite FR, PA.
  assert (O16 : wf_op f < 16) by (destruct V as ([D|[C _]] & _); unfold data_op, control_op in *; lia).
  destruct (frame_octet_bits (wf_fin f) (wf_op f) O16) as (_ & -> & ->). rewrite negb_involutive.
  destruct (N.leb_spec 8 (wf_op f)).
  - assert (C : control_op (wf_op f)) by (destruct V as ([D|[C _]] & _); [unfold data_op in D; lia|exact C]). apply control_spec; assumption.
  - assert (D : data_op (wf_op f)) by (destruct V as ([D|[C _]] & _); [exact D|unfold control_op in C; lia]). apply data_spec; auto.
Qed.
End SESSION.
