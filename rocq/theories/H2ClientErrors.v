(** Theorems on the HTTP/2 client, continued (C175-C177): what it does with frames that break the protocol, and that it
    answers PING and SETTINGS.  The vocabulary is that of H2ClientSpec and H2ClientProps. *)
From Verif Require Import Base UtilModel UtilSpec HpackTables HpackModel H2Model H2FieldModel H2FieldSpec
  H2ClientModel H2ClientSpec H2ClientSteps H2ClientAgree H2ClientHandlers H2ClientFrames H2ClientRun H2ClientInv H2ClientLedger H2ClientSend H2ClientLimits H2ClientActive H2ClientProps.
From Verif Require H2Proofs.
Local Open Scope N_scope.

(** ** The context of an open stream *)
Lemma open_context es k : Forall event_ok es -> ids_left es -> connection_open es -> ~ goaway_received (chronicle es) -> stream_open k (chronicle es) ->
  exists x, cget (crun es) k = Some x /\ cs_rsts x = false /\ cs_rstr x = false /\ says (chronicle es) false k x /\ in_state (cs_state x) CLOSED = false /\
    calive (crun es) = true.
Proof.
  intros F L OK NG O. destruct (crun_steps es F) as (_ & G & [_ CA]). pose proof (inv_run es F) as I. unfold connection_open, chronicle in *.
  assert (A : calive (crun es) = true) by (unfold calive; rewrite OK, (CA OK); reflexivity).
  destruct (i_act _ I L) as [_ H]. destruct (H A) as [H1 H2]. destruct (i_new _ I) as (RG & _).
  assert (R : cl_rga (crun es) = false) by (destruct (cl_rga (crun es)); [exfalso; apply NG, goaway_received_iff, RG; reflexivity|reflexivity]).
  destruct (cget (crun es) k) as [x|] eqn:GX; [|destruct (H2 R k O GX)]. exists x. specialize (H1 k x GX). rewrite R in H1.
  assert (OX : over x = false) by (destruct (over x) eqn:OX; [destruct (over_closed _ _ _ H1 OX O)|reflexivity]).
  unfold over in OX. apply orb_false_iff in OX as [OX X3]. apply orb_false_iff in OX as [X1 X2]. split; [reflexivity|]. repeat (split; [assumption|]). exact A.
Qed.

(** ** C175: the windows the client advertises *)
(** On an open stream the server is never left with less than half of the window. *)
Theorem client_open_stream_credited es k : Forall event_ok es -> ids_left es -> connection_open es -> ~ goaway_received (chronicle es) -> stream_open k (chronicle es) ->
  credit_sent_on k (chronicle es) <= data_received_on k (chronicle es) < credit_sent_on k (chronicle es) + 32767.
Proof.
  intros F L OK NG O. destruct (open_context es k F L OK NG O) as (x & GX & _). apply client_stream_window; auto. congruence.
Qed.
Lemma step_frame es f script ord : connection_open es -> exists s, cl_log s = LIn f :: chronicle es /\ cl_ok s = true /\ cl_streams s = cl_streams (crun es) /\ cl_csend s = cl_csend (crun es) /\ cl_crecv s = cl_crecv (crun es) /\
  cl_active s = cl_active (crun es) /\ cl_last s = cl_last (crun es) /\ cl_ctl s = cl_ctl (crun es) /\ cl_script s = script /\
  crun (es ++ [CFrame f script ord]) = set_cl_script [] (con_frame (callback (length script)) f ord s).
Proof.
  intros OK. exists (cnote (LIn f) (set_cl_script script (crun es))). do 9 (split; [first [reflexivity|exact OK]|]).
  unfold crun. rewrite fold_left_app. cbn [fold_left cstep]. unfold connection_open, crun in OK. rewrite OK. reflexivity.
Qed.
(** DATA beyond the window of an open stream closes the connection. *)
Theorem client_enforces_stream_window es k f d pad script ord : Forall event_ok es -> ids_left es -> connection_open es -> ~ goaway_received (chronicle es) ->
  stream_open k (chronicle es) -> ~ ended k (chronicle es) -> fr_pl f = PData d pad -> stream_of f = k ->
  65535 + credit_sent_on k (chronicle es) < data_received_on k (chronicle es) + flow_size f ->
  ~ connection_open (es ++ [CFrame f script ord]).
Proof.
  intros F L OK NG O NE EF SF W. destruct (open_context es k F L OK NG O) as (x & GX & X1 & X2 & [Y1 Y2 Y3 Y4 Y5] & X3 & A).
  destruct (crun_steps es F) as (_ & G & _). destruct (w_win _ (proj1 G) A k x GX X1) as [WL WP].
  destruct (i_recv _ (inv_run es F) L) as [_ RC]. pose proof (rc_str _ (RC A) k x GX X1) as Q. fold (chronicle es) in Q.
  destruct (step_frame es f script ord OK) as (s & EL & EO & ES & _ & _ & _ & _ & _ & _ & ER). unfold connection_open. rewrite ER. cl. unfold con_frame. rewrite EF. unfold con_data.
  change (get_stream_id (fr_hdr f)) with (stream_of f). rewrite EO, SF. cbn [negb]. cbv zeta.
  assert (GS : cget s k = Some x) by (unfold cget; rewrite ES; exact GX). rewrite GS, X1, X2, X3. cbn [orb].
  assert (E : negb (in_state (cs_state x) OPEN) && negb (in_state (cs_state x) HALF_CLOSED_LOCAL) = false).
  { unfold st_ok in Y1. destruct (cs_state x); try reflexivity; try destruct Y1; try discriminate X3. destruct NE. apply Y3. reflexivity. }
  assert (ENE : cs_state x = HALF_CLOSED_REMOTE -> False) by (intros E1; unfold st_ok in Y1; rewrite E1 in Y1; apply NE, Y3, Y1).
  rewrite E. unfold flow_size in W. rewrite EF in W.
  assert (LT : (cs_local x <? Z.of_N (clen d + pad))%Z = true) by (apply Z.ltb_lt; unfold clen; lia). rewrite LT. rewrite goaway_over. discriminate.
Qed.

(** ** C176: connection errors *)
(** The frames that are connection errors whatever happened before, and the error each of them is (RFC 9113). *)
Definition stream0 (f : frame) : Prop := stream_of f = 0.
Definition end_stream_or_ack (f : frame) : Prop := N.testbit (h_flags (fr_hdr f)) 0 = true.
Definition bad_setting (id v code : N) : Prop :=
  (id = 2 /\ 1 < v /\ code = 1) \/                             (* ENABLE_PUSH is 0 or 1: PROTOCOL_ERROR *)
  (id = 4 /\ 2 ^ 31 - 1 < v /\ code = 3) \/                     (* INITIAL_WINDOW_SIZE up to 2^31-1: FLOW_CONTROL_ERROR *)
  (id = 5 /\ (v < 2 ^ 14 \/ 2 ^ 24 - 1 < v) /\ code = 1) \/      (* MAX_FRAME_SIZE from 2^14 to 2^24-1: PROTOCOL_ERROR *)
  (id = 8 /\ 1 < v /\ code = 1).                              (* ENABLE_CONNECT_PROTOCOL is 0 or 1 (RFC 8441) *)
Inductive connection_error (l : list citem) (f : frame) : N -> Prop :=
| ce_settings_stream es : fr_pl f = PSettings es -> ~ stream0 f -> connection_error l f 1
| ce_settings_ack e es : fr_pl f = PSettings (e :: es) -> stream0 f -> end_stream_or_ack f -> connection_error l f 6
| ce_setting id v code es : fr_pl f = PSettings ((id, v) :: es) -> stream0 f -> ~ end_stream_or_ack f -> bad_setting id v code -> connection_error l f code
| ce_rst c : fr_pl f = PRst c -> stream0 f -> connection_error l f 1
| ce_priority p : fr_pl f = PPriority p -> stream0 f -> connection_error l f 1
| ce_continuation b : fr_pl f = PCont b -> stream0 f -> connection_error l f 1
| ce_push p b : fr_pl f = PPush p b -> connection_error l f 1
| ce_window inc : fr_pl f = PWindow inc -> stream0 f -> 2 ^ 31 - 1 + data_sent l < 65535 + credit_received_on 0 l + inc -> connection_error l f 3.

Lemma bad_setting_invalid id v code : bad_setting id v code -> validate_setting id v = Some code.
Proof.
  intros B. unfold validate_setting, MAX_WINDOW, MIN_MAX_FRAME_SIZE, MAX_FRAME_SIZE_LIMIT. destruct B as [(-> & Q & ->)|[(-> & Q & ->)|[(-> & Q & ->)|(-> & Q & ->)]]].
  - change (2 =? 2) with true. cbv iota. rewrite (proj2 (N.ltb_lt 1 v) Q). reflexivity.
  - change (4 =? 2) with false. change (4 =? 4) with true. cbv iota. match goal with |- (if ?a <? v then _ else _) = _ => rewrite (proj2 (N.ltb_lt a v)) by lia end. reflexivity.
  - change (5 =? 2) with false. change (5 =? 4) with false. change (5 =? 5) with true. cbv iota.
    match goal with |- (if (v <? ?a) || (?b <? v) then _ else _) = _ => assert (T : (v <? a) || (b <? v) = true) by (apply orb_true_iff; destruct Q; [left|right]; apply N.ltb_lt; lia) end. rewrite T. reflexivity.
  - change (8 =? 2) with false. change (8 =? 4) with false. change (8 =? 5) with false. change (8 =? 8) with true. cbv iota. rewrite (proj2 (N.ltb_lt 1 v) Q). reflexivity.
Qed.
Theorem client_connection_errors es f script ord code : Forall event_ok (es ++ [CFrame f script ord]) -> ids_left es -> connection_open es -> connection_error (chronicle es) f code ->
  exists later last, chronicle (es ++ [CFrame f script ord]) = later ++ LOut (mk_frame (mk_h T_GOAWAY 0 0) (PGoaway last code [])) :: LIn f :: chronicle es /\
    ~ connection_open (es ++ [CFrame f script ord]).
Proof.
  intros F L OK CE. pose proof (proj1 (proj1 (Forall_app _ _ _) F)) as F0. assert (FO : frame_octets_ok f) by (apply Forall_app in F as [_ F]; inversion F as [|? ? Q _]; exact (proj1 Q)).
  apply Forall_app in F as F1. destruct F1 as [F1 F2]. assert (FS : Forall (Forall is_send) script) by (inversion F2 as [|? ? Q _]; exact (proj2 Q)).
  destruct (crun_steps es F1) as (_ & G & [_ CA]). pose proof OK as OK2. unfold connection_open in OK2.
  assert (A : calive (crun es) = true) by (unfold calive; rewrite OK2, (CA OK2); reflexivity).
  destruct (step_frame es f script ord OK) as (s & EL & EO & ES & EC & _ & EA & _ & _ & EP & ER). unfold connection_open, chronicle at 1. rewrite ER.
  assert (AS : calive s = true) by (unfold calive in *; rewrite EO, EA, (CA OK2); reflexivity).
  assert (STEP : con_frame (callback (length script)) f ord s = cgoaway (callback (length script)) code s).
  { unfold con_frame. destruct CE as [ents E1 E2|e ents E1 E2 E3|id v code ents E1 E2 E3 E4|c E1 E2|p E1 E2|b E1 E2|p b E1|inc E1 E2 E3]; rewrite E1.
    - unfold con_settings. rewrite AS. cbn [negb]. change (get_stream_id (fr_hdr f)) with (stream_of f). unfold stream0 in E2. destruct (N.eqb_spec (stream_of f) 0); [contradiction|]. reflexivity.
    - unfold con_settings. rewrite AS. cbn [negb]. change (get_stream_id (fr_hdr f)) with (stream_of f). rewrite E2. cbn [N.eqb negb].
      assert (FL : has_flag (h_flags (fr_hdr f)) FLAG_ACK = true) by (rewrite <- E3; apply (H2Proofs.testbit_flag _ 0)). rewrite FL. reflexivity.
    - unfold con_settings. rewrite AS. cbn [negb]. change (get_stream_id (fr_hdr f)) with (stream_of f). rewrite E2. cbn [N.eqb negb].
      assert (FL : has_flag (h_flags (fr_hdr f)) FLAG_ACK = false). { destruct (has_flag _ _) eqn:X; [|reflexivity]. exfalso. apply E3. unfold end_stream_or_ack. rewrite <- X. symmetry. apply (H2Proofs.testbit_flag _ 0). } rewrite FL.
      cbn [capply_settings]. assert (V : validate_setting id v = Some code); [|rewrite V; reflexivity].
      exact (bad_setting_invalid _ _ _ E4).
    - unfold con_rst. rewrite AS. change (get_stream_id (fr_hdr f)) with (stream_of f). rewrite E2. reflexivity.
    - unfold con_priority. rewrite EO. change (get_stream_id (fr_hdr f)) with (stream_of f). rewrite E2. reflexivity.
    - unfold con_continuation. change (get_stream_id (fr_hdr f)) with (stream_of f). rewrite E2. destruct (N.eqb_spec (cl_hsid s) 0) as [Z|NZ]; [reflexivity|reflexivity].
    - unfold con_push. rewrite AS. reflexivity.
    - unfold con_window_update. change (get_stream_id (fr_hdr f)) with (stream_of f). cbv zeta. rewrite E2. destruct FO as [_ FO]. rewrite E1 in FO. destruct (N.eqb_spec inc 0); [contradiction|]. change (0 =? 0) with true. cbv iota. change (2 ^ 31 - 1) with 2147483647 in E3.
      destruct (i_send _ (inv_run es F1) L) as [_ SC]. pose proof (sd_conn _ (SC A)) as Q. fold (chronicle es) in Q. rewrite EC.
      match goal with |- (if ?c then _ else _) = _ => assert (T : c = true) by (apply Z.ltb_lt; lia) end. rewrite T. reflexivity. }
  rewrite STEP. unfold cgoaway. cl. rewrite EO. cbn [negb]. cl.
  match goal with |- context [call _ ?i ?x] => unfold call; destruct (inactive_callback (length script) (cnote i x) eq_refl) as (apps & E); [cl; rewrite EP; exact FS|] end.
  match goal with |- context [LBye code ?l] => exists (map LRefuse apps ++ [LBye code l]), l end. split; [cl; rewrite E; cl; rewrite EL, <- app_assoc; reflexivity|discriminate].
Qed.
(** The same for the window of an open stream. *)
Theorem client_stream_credit_overflow es k f inc script ord : Forall event_ok es -> ids_left es -> connection_open es -> ~ goaway_received (chronicle es) ->
  stream_open k (chronicle es) -> fr_pl f = PWindow inc -> inc <> 0 -> stream_of f = k -> k <> 0 ->
  2 ^ 31 - 1 + data_sent_on k (chronicle es) < setting 4 65535 (chronicle es) + credit_received_on k (chronicle es) + inc ->
  ~ connection_open (es ++ [CFrame f script ord]).
Proof.
  intros F L OK NG O EF NZ SF KZ W. destruct (open_context es k F L OK NG O) as (x & GX & X1 & X2 & [Y1 _ _ _ _] & X3 & A).
  destruct (i_send _ (inv_run es F) L) as [_ SC]. pose proof (sd_str _ (SC A) k x GX X1) as Q. rewrite (sd_4 _ (SC A)) in Q. fold (chronicle es) in Q.
  destruct (step_frame es f script ord OK) as (s & EL & EO & ES & _ & _ & _ & _ & _ & _ & ER). unfold connection_open. rewrite ER. cl. unfold con_frame. rewrite EF. unfold con_window_update.
  change (get_stream_id (fr_hdr f)) with (stream_of f). rewrite SF. cbv zeta. destruct (N.eqb_spec inc 0); [contradiction|]. destruct (N.eqb_spec k 0); [contradiction|].
  assert (GS : cget s k = Some x) by (unfold cget; rewrite ES; exact GX). rewrite GS. change (2 ^ 31 - 1) with 2147483647 in W.
  assert (ID : in_state (cs_state x) IDLE = false) by (unfold st_ok in Y1; destruct (cs_state x); try reflexivity; destruct Y1). rewrite ID.
  match goal with |- cl_ok (if ?c then _ else _) <> _ => assert (T : c = true) by (apply Z.ltb_lt; lia) end. rewrite T. rewrite goaway_over. discriminate.
Qed.
(** An invalid value anywhere in a SETTINGS frame closes the connection. *)
Lemma settings_invalid K es ord : forall s, (exists id v code, In (id, v) es /\ bad_setting id v code) ->
  exists s', capply_settings K es ord s = inl s' /\ cl_ok s' = false.
Proof.
  induction es as [|[i w] es IH]; intros s (id & v & code & H & B); [destruct H|]. cbn [capply_settings].
  destruct (validate_setting i w) as [c|] eqn:VI; [eexists; split; [reflexivity|apply goaway_over]|].
  cbv zeta. apply IH. exists id, v, code. split; [|exact B]. destruct H as [H|H]; [|exact H]. injection H as -> ->. rewrite (bad_setting_invalid _ _ _ B) in VI. discriminate.
Qed.
Theorem client_rejects_invalid_settings es f ents script ord : Forall event_ok es -> connection_open es -> fr_pl f = PSettings ents -> ~ end_stream_or_ack f ->
  (exists id v code, In (id, v) ents /\ bad_setting id v code) -> ~ connection_open (es ++ [CFrame f script ord]).
Proof.
  intros F OK EF NA B. destruct (crun_steps es F) as (_ & _ & [_ CA]). pose proof OK as OK2. unfold connection_open in OK2.
  destruct (step_frame es f script ord OK) as (s & EL & EO & ES & _ & _ & EA & _ & _ & _ & ER). unfold connection_open. rewrite ER. cl. unfold con_frame. rewrite EF. unfold con_settings, calive.
  rewrite EO, EA, (CA OK2). cbn [andb negb]. destruct (negb (get_stream_id (fr_hdr f) =? 0)); [rewrite goaway_over; discriminate|].
  assert (FL : has_flag (h_flags (fr_hdr f)) FLAG_ACK = false). { destruct (has_flag _ _) eqn:X; [|reflexivity]. exfalso. apply NA. unfold end_stream_or_ack. rewrite <- X. symmetry. apply (H2Proofs.testbit_flag _ 0). } rewrite FL.
  destruct (settings_invalid (callback (length script)) ents ord s B) as (s' & -> & O'). rewrite O'. discriminate.
Qed.

(** ** C177: PING and SETTINGS are answered *)
(** Replies written since the last response was delivered. *)
Fixpoint replies_since_response (l : list citem) : N :=
  match l with
  | [] => 0
  | LResp _ _ _ _ :: r => 0
  | LOut f :: r => (if is_ack_reply f then 1 else 0) + replies_since_response r
  | _ :: r => replies_since_response r
  end.
Definition quota_inv (s : client) : Prop := calive s = true -> cl_ctl s <= replies_since_response (cl_log s).
Definition noresp (i : citem) : Prop := match i with LResp _ _ _ _ => False | _ => True end.
Lemma replies_more l0 l : (forall i, In i l0 -> noresp i) -> replies_since_response l <= replies_since_response (l0 ++ l).
Proof.
  induction l0 as [|i l0 IH]; intros H; [apply N.le_refl|]. cbn [app replies_since_response]. assert (Q : replies_since_response l <= replies_since_response (l0 ++ l)) by (apply IH; intros j Hj; apply H; right; exact Hj).
  pose proof (H i (or_introl eq_refl)) as W. destruct i; try exact Q; [|destruct W]. destruct (is_ack_reply f); lia.
Qed.
Lemma mv_quota s s' : quota_inv s -> mv s s' -> quota_inv s'.
Proof.
  intros QI H.
  assert (GEN : forall l0, cl_log s' = l0 ++ cl_log s -> (forall i, In i l0 -> noresp i) -> (calive s' = true -> calive s = true /\ (cl_ctl s' = cl_ctl s \/ cl_ctl s' = 0)) -> quota_inv s').
  { intros l0 EL HN HA A'. destruct (HA A') as [A E]. rewrite EL. specialize (QI A). pose proof (replies_more l0 (cl_log s) HN). lia. }
  Ltac nv := let i := fresh "i" in let Hi := fresh "Hi" in intros i Hi; cbn [In Datatypes.app] in Hi; repeat (destruct Hi as [Hi|Hi]; [subst i|]); try destruct Hi; exact I.
  destruct H.
  all: try solve [first [apply (GEN []); [reflexivity|nv|intros A; split; [exact A|first [left; reflexivity|right; reflexivity]]]
                        |eapply (GEN [_]); [reflexivity|nv|intros A; split; [exact A|first [left; reflexivity|right; reflexivity]]]]].
  - intros A'. exfalso. unfold calive in A'. rewrite H2, H3 in A'. discriminate.
  - intros A'. exfalso. unfold calive in *. rewrite H1, H2 in A'. congruence.
  - intros A'. exfalso. unfold calive in A'. fields. clh A'. rewrite H in A'. discriminate.
  - apply (GEN ((if cs_disp x then [] else [LErr sid code]) ++ LOut (crst_frame sid code) :: pre)); [reflexivity| |intros A; split; [exact A|left; reflexivity]].
    destruct H2 as [->|(f & -> & _)]; destruct (cs_disp x); nv.
  - apply (GEN (out ++ [LIn f])); [reflexivity| |intros A; split; [exact A|left; reflexivity]]. destruct H3 as [->| ->]; nv.
  - destruct (csend_wu_cases 0 (cl_cproc s) s) as [EW|(EW & ? & ?)]; rewrite EW in *; [apply (GEN [])|eapply (GEN [_])]; (reflexivity || nv || (intros A; split; [exact A|left; reflexivity])).
  - intros _. fields. apply N.le_0_l.
  - apply (GEN (rev (map LOut (send_headers (cl_next s) (open_flags r) (cl_pmax s) block)) ++ [LReq (cl_next s) app r])); [reflexivity| |intros A; split; [exact A|left; reflexivity]].
    intros i Hi. apply in_app_iff in Hi as [Hi|[<-|[]]]; [destruct (open_item _ _ _ _ _ Hi) as (f & -> & _); exact I|exact I].
  - setc. apply (GEN [LSet id v]); [fields; rewrite EL; reflexivity|nv|intros A; split; [exact H|left; fields; exact ECT]].
  - intros A. specialize (QI H). fields. cbn [replies_since_response]. rewrite H0. lia.
  - intros A. discriminate.
Qed.
Lemma quota_run es : Forall event_ok es -> quota_inv (crun es).
Proof. intros F. apply (crun_inv quota_inv es F); [intros _; apply N.le_0_l|]. intros s s' _. apply mv_quota. Qed.

(** Every PING is answered at once with its own octets (fewer than 1000 replies having been written since the last response). *)
Theorem client_answers_ping es f o script ord : Forall event_ok es -> connection_open es -> fr_pl f = PPing o -> ~ end_stream_or_ack f ->
  replies_since_response (chronicle es) < 1000 ->
  chronicle (es ++ [CFrame f script ord]) = LOut (mk_frame (mk_h T_PING FLAG_ACK 0) (PPing o)) :: LIn f :: chronicle es /\ connection_open (es ++ [CFrame f script ord]).
Proof.
  intros F OK EF NA Q. destruct (crun_steps es F) as (_ & _ & [_ CA]). pose proof OK as OK2. unfold connection_open in OK2.
  assert (A : calive (crun es) = true) by (unfold calive; rewrite OK2, (CA OK2); reflexivity). pose proof (quota_run es F A) as QI. fold (chronicle es) in QI.
  destruct (step_frame es f script ord OK) as (s & EL & EO & ES & _ & _ & EA & _ & EC & _ & ER). unfold connection_open, chronicle at 1. rewrite ER. cl. unfold con_frame. rewrite EF. unfold con_ping.
  assert (FL : has_flag (h_flags (fr_hdr f)) FLAG_ACK = false). { destruct (has_flag _ _) eqn:X; [|reflexivity]. exfalso. apply NA. unfold end_stream_or_ack. rewrite <- X. symmetry. apply (H2Proofs.testbit_flag _ 0). } rewrite FL.
  cbv zeta. change (cl_ctl (set_cl_ctl (cl_ctl s + 1) s)) with (cl_ctl s + 1). rewrite EC.
  match goal with |- context [?a <? cl_ctl (crun es) + 1] => assert (T : (a <? cl_ctl (crun es) + 1) = false) by (apply N.ltb_ge; unfold C_MAX_REPLIES; lia) end. rewrite T.
  cl. rewrite EL. split; [reflexivity|exact EO].
Qed.
(** A SETTINGS frame with valid values that does not change the initial window is applied and acknowledged at once. *)
Theorem client_acknowledges_settings es f ents script ord : Forall event_ok es -> connection_open es -> fr_pl f = PSettings ents -> ~ end_stream_or_ack f -> stream0 f ->
  (forall id v, In (id, v) ents -> id <> 4 /\ forall code, ~ bad_setting id v code) -> replies_since_response (chronicle es) < 1000 ->
  chronicle (es ++ [CFrame f script ord]) =
    LOut (mk_frame (mk_h T_SETTINGS FLAG_ACK 0) (PSettings [])) :: rev (map (fun e => LSet (fst e) (snd e)) ents) ++ LIn f :: chronicle es /\
  connection_open (es ++ [CFrame f script ord]).
Proof.
  intros F OK EF NA S0 V Q. destruct (crun_steps es F) as (_ & _ & [_ CA]). pose proof OK as OK2. unfold connection_open in OK2.
  assert (A : calive (crun es) = true) by (unfold calive; rewrite OK2, (CA OK2); reflexivity). pose proof (quota_run es F A) as QI. fold (chronicle es) in QI.
  destruct (step_frame es f script ord OK) as (s & EL & EO & ES & _ & _ & EA & _ & EC & _ & ER). unfold connection_open, chronicle at 1. rewrite ER. cl. unfold con_frame. rewrite EF. unfold con_settings.
  assert (FL : has_flag (h_flags (fr_hdr f)) FLAG_ACK = false). { destruct (has_flag _ _) eqn:X; [|reflexivity]. exfalso. apply NA. unfold end_stream_or_ack. rewrite <- X. symmetry. apply (H2Proofs.testbit_flag _ 0). }
  unfold calive. rewrite EO, EA, (CA OK2), FL. cbn [andb negb]. change (get_stream_id (fr_hdr f)) with (stream_of f). rewrite S0. cbn [N.eqb negb].
  rewrite <- EL, <- EC in *. clear EL ES EA EC ER EF.
  assert (AP : exists s', capply_settings (callback (length script)) ents ord s = inr s' /\ cl_log s' = rev (map (fun e => LSet (fst e) (snd e)) ents) ++ cl_log s /\ cl_ok s' = cl_ok s /\ cl_ctl s' = cl_ctl s).
  { clear QI EO. revert s. induction ents as [|[id v] ents IH]; intros s; [exists s; repeat split|]. cbn [capply_settings].
    destruct (V id v (or_introl eq_refl)) as (N4 & NB).
    assert (VS : validate_setting id v = None).
    { unfold validate_setting, MAX_WINDOW, MIN_MAX_FRAME_SIZE, MAX_FRAME_SIZE_LIMIT. destruct (N.eqb_spec id 2) as [->|].
      - destruct (N.ltb_spec 1 v); [|reflexivity]. destruct (NB 1). left. auto.
      - destruct (N.eqb_spec id 4) as [->|]; [congruence|]. destruct (N.eqb_spec id 5) as [->|]; [|destruct (N.eqb_spec id 8) as [->|]; [destruct (N.ltb_spec 1 v); [destruct (NB 1); right; right; right; auto|reflexivity]|reflexivity]].
        match goal with |- (if (v <? ?a) || (?b <? v) then _ else _) = _ => destruct (N.ltb_spec v a); [destruct (NB 1); right; right; left; split; [reflexivity|split; [left; exact H|reflexivity]]|]; destruct (N.ltb_spec b v); [destruct (NB 1); right; right; left; split; [reflexivity|split; [right; exact H0|reflexivity]]|reflexivity] end. }
    rewrite VS. cbv zeta. rewrite (proj2 (N.eqb_neq id 4) N4).
    match goal with |- context [capply_settings _ ents ord ?x] => destruct (IH (fun i w Hi => V i w (or_intror Hi)) x) as (s' & E1 & E2 & E3 & E4); exists s'; rewrite E1, E2, E3, E4 end.
    split; [reflexivity|]. cbn [map rev fst snd]. rewrite <- app_assoc. cbn [Datatypes.app].
    repeat split; (destruct (id =? 1); [destruct (enc_set_peer_max _ _); reflexivity|]; destruct (id =? 3); [reflexivity|]; destruct (id =? 5); reflexivity). }
  destruct AP as (s' & -> & E1 & E2 & E3). cbv zeta. change (cl_ctl (set_cl_ctl (cl_ctl s' + 1) s')) with (cl_ctl s' + 1). rewrite E3.
  match goal with |- context [?a <? cl_ctl s + 1] => assert (T : (a <? cl_ctl s + 1) = false) by (apply N.ltb_ge; unfold C_MAX_REPLIES; lia) end. rewrite T.
  change (negb (0 =? 0)) with false. cbv iota. cl. rewrite E1, E2. split; [reflexivity|exact EO].
Qed.

(** ** Examples *)
Definition ping : frame := fr T_PING 0 0 (PPing [1; 2; 3; 4; 5; 6; 7; 8]).
Example ping_ok : Forall event_ok visit /\ connection_open visit /\ ~ end_stream_or_ack ping /\ replies_since_response (chronicle mixed) = 1.
Proof. split; [ev_ok|]. split; [vm_compute; reflexivity|]. split; [discriminate|vm_compute; reflexivity]. Qed.
Definition tuning : frame := fr T_SETTINGS 0 0 (PSettings [(3, 100); (5, 20000); (8, 1)]).
Example tuning_ok : ~ end_stream_or_ack tuning /\ stream0 tuning /\ forall id v, In (id, v) [(3, 100); (5, 20000); (8, 1)] -> id <> 4 /\ forall code, ~ bad_setting id v code.
Proof.
  split; [discriminate|]. split; [reflexivity|]. intros id v H. assert (C : (id, v) = (3, 100) \/ (id, v) = (5, 20000) \/ (id, v) = (8, 1)) by (destruct H as [H|[H|[H|[]]]]; auto).
  destruct C as [C|[C|C]]; injection C as -> ->; (split; [discriminate|]); intros code [(E & _)|[(E & _)|[(E & Q & _)|(E & Q & _)]]]; try discriminate; try lia; destruct Q as [Q|Q]; vm_compute in Q; discriminate.
Qed.
Example errors_met :
  connection_error [] (fr T_SETTINGS 0 1 (PSettings [])) 1 /\ connection_error [] (fr T_SETTINGS 0 0 (PSettings [(4, 2147483648)])) 3 /\
  connection_error [] (fr T_SETTINGS 1 0 (PSettings [(3, 1)])) 6 /\ connection_error [] (fr T_RST_STREAM 0 0 (PRst 8)) 1 /\
  connection_error (chronicle visit) (fr T_WINDOW_UPDATE 0 0 (PWindow 2147483647)) 3.
Proof.
  split; [eapply ce_settings_stream; [reflexivity|discriminate]|]. split; [eapply ce_setting; [reflexivity|reflexivity|discriminate|right; left; repeat split]|].
  split; [eapply ce_settings_ack; reflexivity|]. split; [eapply ce_rst; reflexivity|]. eapply ce_window; [reflexivity|reflexivity|]. vm_compute. reflexivity.
Qed.
(** Stream 1 has its response head and 2 octets; 65534 more would exceed the window by one. *)
Definition started : list cevent := [send get 7; headers 4 1 [136]; data 0 1 (str "hi")].
Definition started_chronicle : list citem := Eval vm_compute in chronicle started.
Lemma started_eq : chronicle started = started_chronicle. Proof. vm_compute. reflexivity. Qed.
Example started_ok : Forall event_ok started /\ ids_left started /\ connection_open started.
Proof. split; [ev_ok|]. split; [vm_compute; discriminate|vm_compute; reflexivity]. Qed.
Example started_open : ~ goaway_received (chronicle started) /\ stream_open 1 (chronicle started) /\ ~ ended 1 (chronicle started).
Proof.
  assert (B : forall Q : citem -> bool, existsb Q started_chronicle = false -> forall i, In i started_chronicle -> Q i = false).
  { intros Q E i Hi. destruct (Q i) eqn:W; [|reflexivity]. exfalso. rewrite (proj2 (existsb_exists Q started_chronicle) (ex_intro _ i (conj Hi W))) in E. discriminate. }
  assert (NE : ~ ended 1 started_chronicle).
  { intros (f & H & M & E). apply (B (fun i => match i with LIn g => message_frame 1 g && has_end_stream g | _ => false end) eq_refl) in H. cbn beta iota in H. rewrite M, E in H. discriminate. }
  rewrite started_eq. split; [|split; [split; [|split; [|split]]|exact NE]].
  - rewrite goaway_received_iff. discriminate.
  - exists 7, get. unfold started_chronicle. cbn [In]. repeat first [left; reflexivity|right].
  - intros (f & H & _ & c & C). apply (B (fun i => match i with LOut g => match fr_pl g with PRst _ => true | _ => false end | _ => false end) eq_refl) in H. cbn beta iota in H. rewrite C in H. discriminate.
  - intros (f & H & _ & c & C). apply (B (fun i => match i with LIn g => match fr_pl g with PRst _ => true | _ => false end | _ => false end) eq_refl) in H. cbn beta iota in H. rewrite C in H. discriminate.
  - intros [H _]. exact (NE H).
Qed.
Example started_window : 65535 + credit_sent_on 1 (chronicle started) < data_received_on 1 (chronicle started) + flow_size (fr T_DATA 0 1 (PData (str "x") 65533)).
Proof. rewrite started_eq. vm_compute. reflexivity. Qed.

Print Assumptions client_open_stream_credited.
Print Assumptions client_enforces_stream_window.
Print Assumptions client_connection_errors.
Print Assumptions client_stream_credit_overflow.
Print Assumptions client_rejects_invalid_settings.
Print Assumptions client_answers_ping.
Print Assumptions client_acknowledges_settings.
