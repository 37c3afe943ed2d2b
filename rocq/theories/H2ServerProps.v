(** Theorems on the HTTP/2 server: properties C32 to C46.  They quantify over every sequence [es] of events of a
    connection (frames in any order and of any kind, framing errors, loss of the transport, calls of the
    application inside and outside request handlers, time) and over the environment [E]. *)
From Coq Require Import Permutation.
From Verif Require Import Base UtilModel UtilSpec HpackTables HpackModel HpackSpec DynTableProofs HpackCodecProofs HpackConnProofs
  H2Model H2Spec H2Proofs H2FramerProofs H2Props H2FieldModel H2FieldSpec H2FieldProps H2ServerModel H2ServerSpec H2ServerSteps H2ServerRefine
  H2ServerHandlers H2ServerInv H2ServerInv2 H2ServerInv3.
Local Open Scope N_scope.

(** ** All the invariants together *)
Record all_inv (E : env) (s : server) : Prop := mk_inv {
  i_send : send_ledger s; i_recv : recv_ledger s; i_idle : idle_inv s; i_set : settings_inv s; i_rep : replies_inv s; i_block : block_inv s;
  i_rsts : resets_inv s; i_go : goaway_inv s; i_trail : trail_inv s; i_lim : limits_inv s; i_open : opened s; i_conc : conc_inv s;
  i_virgin : virgin_inv s; i_swin : swin_inv s; i_undel : undelivered_inv s; i_body : body_inv s; i_req : requests_inv E s; i_resp : resp_inv s }.
Lemma all_inv_init E : all_inv E server_init.
Proof.
  constructor; try solve [intros ? ? ? H; discriminate H]; try solve [intros ? ? H; discriminate H]; try solve [intros ? ? ? ? H; discriminate H].
  - split; [cbn; lia|split; [cbn; lia|apply always_nil; unfold within_send; cbn; lia]].
  - intros _. reflexivity.
  - intros _ H. discriminate H.
  - repeat split; cbn; lia.
  - split; [cbn; lia|apply always_nil; cbn; unfold replies_ok; cbn; lia].
  - intros _. split; [cbn; lia|split; [apply N.leb_le; reflexivity|intros C; destruct (C eq_refl)]].
  - split; [cbn; lia|]. intros _. split; [cbn; lia|left; cbn; lia].
  - split; [cbn; lia|]. split; [reflexivity|apply always_nil; exact I].
  - apply always_nil. exact I.
  - unfold conc_inv. cbn. lia.
  - intros _ k O L. repeat split.
  - apply always_nil. exact I.
  - intros k O. split; [reflexivity|]. intros _ x H. discriminate H.
Qed.
Lemma all_inv_run E es : Forall event_ok es -> all_inv E (run E es).
Proof.
  intros H. apply (run_invariant E true true (all_inv E)); [apply all_inv_init|..|exact H|apply all_allowed].
  - intros f s s' OK W M FO SO I ST. destruct I. constructor.
    + eapply send_ledger_in; eauto. + eapply recv_ledger_in; eauto. + eapply idle_inv_in; eauto. + eapply settings_in; eauto. + eapply replies_in; eauto.
    + eapply block_in; eauto. + eapply resets_in; eauto. + eapply goaway_in; eauto. + eapply trail_in; eauto. + eapply limits_in; eauto. + eapply opened_in; eauto.
    + eapply conc_in; eauto. + eapply virgin_step_in; eauto. + eapply (swin_in f s); eauto. + eapply (undelivered_in f s); eauto. + eapply (body_in f s); eauto.
    + eapply requests_in; eauto. + eapply resp_in; eauto.
  - intros s s' W M I ST. destruct I. constructor.
    + eapply send_ledger_q; eauto. + eapply recv_ledger_q; eauto. + eapply idle_inv_q; eauto. + eapply settings_q; eauto. + eapply replies_q; eauto.
    + eapply block_q; eauto. + eapply resets_q; eauto. + eapply goaway_q; eauto. + eapply trail_q; eauto. + eapply limits_q; eauto. + eapply opened_q; eauto.
    + eapply conc_q; eauto. + eapply virgin_q; eauto. + eapply swin_q; eauto. + eapply undelivered_q; eauto. + eapply body_q; eauto.
    + eapply requests_q; eauto. + eapply resp_q; eauto.
Qed.
Lemma open_alive s : open_connection s -> alive s = true.
Proof. intros [A B]. unfold alive. rewrite A, B. reflexivity. Qed.

(** A connection used below to show that the hypotheses can be met: one GET answered with a three octet body. *)
Definition demo_env : env := mk_env (fun m => beq m (str "GET") || beq m (str "POST")) (fun _ => true).
Definition get_block : list N := [130; 134; 132; 65; 1; 97].                    (* :method GET, :scheme http, :path /, :authority a *)
Definition headers_in (sid flags : N) (b : list N) : frame := mk_frame (mk_h T_HEADERS flags sid) (PHeaders b None).
Definition data_in (sid flags : N) (d : list N) : frame := mk_frame (mk_h T_DATA flags sid) (PData d 0).
Definition keep (l : list N) : list N := l.
Definition demo_get : list sevent := [SPreface; SFrame (headers_in 1 5 get_block) ([CRespond 1 (mk_resp 200 [] [7; 8; 9])], false) keep].
Lemma demo_get_ok : Forall event_ok demo_get.
Proof.
  repeat constructor; cbn; try lia. intros l. apply Permutation_refl.
Qed.
(** POST / with content-length 3, body in two DATA frames. *)
Definition post_block : list N := [131; 134; 132; 65; 1; 97; 15; 13; 1; 51].
Definition demo_post : list sevent :=
  [SPreface; SFrame (headers_in 1 4 post_block) ([], false) keep; SFrame (data_in 1 0 [1; 2]) ([], false) keep; SFrame (data_in 1 1 [3]) ([], false) keep].
Lemma demo_post_ok : Forall event_ok demo_post.
Proof. repeat constructor; cbn; try lia; intros l; apply Permutation_refl. Qed.

(** ** C32: nothing the peer or the application does makes the server read or write out of range *)
Theorem server_no_undefined_behaviour E es : Forall event_ok es -> sv_ub (run E es) = false.
Proof. intros H. exact (w_ub _ (proj1 (run_wf E es H))). Qed.
Example server_no_undefined_behaviour_ex : Forall event_ok demo_post /\ length (sv_log (run demo_env demo_post)) = 5%nat.
Proof. split; [exact demo_post_ok|reflexivity]. Qed.

(** ** C33: connection receive window *)
Theorem server_connection_receive_window E es : Forall event_ok es -> open_connection (run E es) ->
  let l := sv_log (run E es) in data_received l <= 65535 + credit_sent_on 0 l /\ credit_sent_on 0 l <= data_received l.
Proof.
  intros H O. cbv zeta. pose proof (i_recv _ _ (all_inv_run E es H) (open_alive _ O)) as L. pose proof (w_crecv _ (proj1 (run_wf E es H)) (proj1 O)) as C. lia.
Qed.
Example server_connection_receive_window_ex : open_connection (run demo_env demo_post) /\ data_received (sv_log (run demo_env demo_post)) = 3.
Proof. repeat split. Qed.

(** ** C34: stream receive window *)
Theorem server_stream_receive_window E es k x : Forall event_ok es -> open_connection (run E es) -> N.odd k = true ->
  find_st (sv_streams (run E es)) k = Some x -> st_endr x = false -> in_progress x = true ->
  let l := sv_log (run E es) in
  data_received_on k l + 32769 <= 65535 + credit_sent_on k l /\ credit_sent_on k l <= data_received_on k l.
Proof.
  intros H O OD F ER IP. cbv zeta. destruct (i_swin _ _ (all_inv_run E es H) (open_alive _ O) k x F OD) as (A & B & C).
  - unfold in_progress in IP. repeat split; auto; destruct (st_state x); try discriminate; apply andb_true_iff in IP as [P Q];
      try (apply negb_true_iff in P; exact P); try (apply negb_true_iff in Q; exact Q); discriminate.
  - lia.
Qed.
Definition demo_upload : list sevent := firstn 3 demo_post.
Example server_stream_receive_window_ex :
  match find_st (sv_streams (run demo_env demo_upload)) 1 with
  | Some x => st_endr x = false /\ in_progress x = true /\ data_received_on 1 (sv_log (run demo_env demo_upload)) = 2
  | None => False
  end.
Proof. vm_compute. repeat split. Qed.

(** ** C35: connection send window *)
Theorem server_connection_send_window E es : Forall event_ok es ->
  always (fun l => data_sent l <= 65535 + credit_received_on 0 l) (sv_log (run E es)).
Proof. intros H. exact (proj2 (proj2 (i_send _ _ (all_inv_run E es H)))). Qed.
Example server_connection_send_window_ex : data_sent (sv_log (run demo_env demo_get)) = 3.
Proof. reflexivity. Qed.

(** ** C36: frames written respect the peer's settings *)
Theorem server_respects_peer_settings E es : Forall event_ok es -> always respects_peer_settings (sv_log (run E es)).
Proof. intros H. exact (i_lim _ _ (all_inv_run E es H)). Qed.

Example server_respects_peer_settings_ex : count (fun i => match i with LOut f => is_progress f | _ => false end) (sv_log (run demo_env demo_get)) = 2%nat.
Proof. vm_compute. reflexivity. Qed.

(** ** C37: stream send window.  [es0] is the part of the connection before the last change of the settings; [es] the part after it, in which the
    peer sends no SETTINGS.  Missing from the full property: streams that were open when the settings changed (refuted below). *)
Definition no_settings (e : sevent) : Prop := match e with SFrame f _ _ => match fr_pl f with PSettings _ => False | _ => True end | _ => True end.
Theorem server_stream_send_window_partial E es0 es k : Forall event_ok es0 -> Forall event_ok es ->
  sv_streams (run E es0) = [] -> data_sent (sv_log (run E es0)) = 0 -> Forall no_settings es -> N.odd k = true ->
  let l := sv_log (run E (es0 ++ es)) in data_sent_on k l <= setting 4 65535 (sv_log (run E es0)) + credit_received_on k l.
Proof.
  intros F0 F1 S0 D0 NS O. cbv zeta. pose proof (all_inv_run E es0 F0) as AI.
  set (w := setting 4 65535 (sv_log (run E es0))).
  assert (I : virgin_inv (run E (es0 ++ es)) /\ swindow w (run E (es0 ++ es))).
  { apply (run_invariant_from E true false (fun s => virgin_inv s /\ swindow w s) es0 F0).
    - split; [exact (i_virgin _ _ AI)|]. split; [exact (proj2 (proj2 (proj2 (proj2 (i_set _ _ AI)))))|]. intros j Oj. rewrite S0. split; [|intros x H; discriminate H].
      assert (data_sent_on j (sv_log (run E es0)) <= data_sent (sv_log (run E es0))).
      { unfold data_sent_on, data_sent. generalize (sv_log (run E es0)). intros l. induction l as [|i l IH]; cbn [total]; [lia|].
        destruct i; cbn [weigh_out]; try lia. unfold on_stream at 1. destruct (_ =? _); lia. }
      lia.
    - intros f s s' OK W M FO SO [V I] ST. split; [eapply virgin_step_in; eauto|eapply swindow_in; eauto].
    - intros s s' W M [V I] ST. split; [eapply virgin_q; eauto|eapply swindow_q; eauto].
    - exact F1.
    - eapply Forall_impl; [|exact NS]. intros e He. split; [reflexivity|]. destruct e; try discriminate. cbn in *. unfold is_settings. destruct (fr_pl f); try discriminate. contradiction. }
  destruct I as [_ [_ I]]. exact (proj1 (I k O)).
Qed.
Definition settings_in (es : list (N * N)) : frame := mk_frame (mk_h T_SETTINGS 0 0) (PSettings es).
Definition quiet_settings (es : list (N * N)) : sevent := SFrame (settings_in es) ([], false) keep.
Example server_stream_send_window_partial_ex : let es0 := [SPreface; quiet_settings [(4, 2)]] in let l := sv_log (run demo_env (es0 ++ tl demo_get)) in
  sv_streams (run demo_env es0) = [] /\ setting 4 65535 (sv_log (run demo_env es0)) = 2 /\ data_sent_on 1 l = 2 /\ Forall no_settings (tl demo_get).
Proof. vm_compute. repeat split. repeat constructor. Qed.
(** The full property is false of the code: a peer that lowers its window to 0 while a request waits for its answer still receives DATA on it
    (server.h:2112 skips streams in HALF_CLOSED_REMOTE). *)
Definition demo_shrink0 : list sevent := [SPreface; SFrame (headers_in 1 5 get_block) ([], false) keep; quiet_settings [(4, 0)]].
Definition demo_shrink1 : list sevent := [SApp (CRespond 1 (mk_resp 200 [] [7; 8; 9]))].
Theorem server_stream_send_window_refuted : exists E es0 es, Forall event_ok (es0 ++ es) /\ Forall no_settings es /\
  data_sent (sv_log (run E es0)) = 0 /\ setting 4 65535 (sv_log (run E es0)) = 0 /\
  let l := sv_log (run E (es0 ++ es)) in credit_received_on 1 l = 0 /\ data_sent_on 1 l = 3.
Proof.
  exists demo_env, demo_shrink0, demo_shrink1. split; [|split; [repeat constructor|vm_compute; repeat split]].
  repeat constructor; cbn; try lia; intros l; apply Permutation_refl.
Qed.

(** ** C38: a response is sent as asked *)
Theorem server_response_transmission E es k : Forall event_ok es -> N.odd k = true ->
  let l := sv_log (run E es) in
  (responses k l = [] -> response_frames k l = []) /\ (forall r, responses k l = [r] -> transmits r (response_frames k l)).
Proof.
  intros H O. cbv zeta. destruct (i_resp _ _ (all_inv_run E es H) k O) as [P _]. unfold log_phase in P.
  split; [intros R|intros r R]; rewrite R in P; exact P.
Qed.
Example server_response_transmission_ex : let l := sv_log (run demo_env demo_get) in
  length (responses 1 l) = 1%nat /\ length (response_frames 1 l) = 2%nat /\ body_octets (response_frames 1 l) = [7; 8; 9].
Proof. vm_compute. repeat split. Qed.
(** Answering twice while the first answer waits for the window mixes the two: octets of the second body follow octets of the first. *)
Definition demo_twice : list sevent := [SPreface; quiet_settings [(4, 2)]; SFrame (headers_in 1 5 get_block) ([CRespond 1 (mk_resp 200 [] [7; 8; 9])], false) keep;
  SApp (CRespond 1 (mk_resp 200 [] [4; 5; 6; 6])); SFrame (mk_frame (mk_h T_WINDOW_UPDATE 0 1) (PWindow 9)) ([], false) keep].
Theorem server_two_responses_refuted : exists E es, Forall event_ok es /\
  let l := sv_log (run E es) in length (responses 1 l) = 2%nat /\ ~ (exists r, In r (responses 1 l) /\ transmits r (response_frames 1 l)).
Proof.
  exists demo_env, demo_twice. split; [repeat constructor; cbn; try lia; intros l; apply Permutation_refl|]. cbv zeta.
  assert (R : responses 1 (sv_log (run demo_env demo_twice)) = [mk_resp 200 [] [7; 8; 9]; mk_resp 200 [] [4; 5; 6; 6]]) by (vm_compute; reflexivity).
  assert (B : body_octets (response_frames 1 (sv_log (run demo_env demo_twice))) = [7; 8; 4; 5; 6; 6]) by (vm_compute; reflexivity).
  rewrite R. split; [reflexivity|]. intros (r & [<-|[<-|[]]] & _ & (later & L) & _); rewrite B in L; discriminate L.
Qed.

(** ** C39: what the application is handed is a complete, well-formed request *)
Theorem server_delivers_complete_requests E es k r before later : Forall event_ok es -> sv_log (run E es) = later ++ LReq k r :: before ->
  N.odd k = true /\
  (forall r', ~ In (LReq k r') before) /\
  existsb has_end_stream (frames_received k before) = true /\
  rq_body r = body_octets (upto_end (frames_received k before)) /\
  (forall v, In (str "content-length", v) (rq_headers r) -> exists t, Trimmed v t /\ t <> [] /\ Forall Digit t /\ dec_val t = N.of_nat (length (rq_body r))) /\
  Forall (fun h => fst h <> [] /\ Forall LowerTchar (fst h) /\ Forall FieldVchar (snd h) /\
    ~ In (fst h) [str "connection"; str "upgrade"; str "http2-settings"; str "transfer-encoding"; str "proxy-connection"; str "keep-alive"; str "host"]) (rq_headers r) /\
  e_method_known E (rq_method r) = true /\ e_uri_has_path E (rq_uri r) = true.
Proof.
  intros H L. pose proof (i_req _ _ (all_inv_run E es H) _ _ L) as G. cbn [good_request] in G. destruct G as (M & U & O & C & B & EN & CL & HD).
  split; [exact O|]. split.
  { intros r' IN. unfold count in C. apply length_zero_iff_nil in C. assert (X : In (LReq k r') (filter (is_request k) before)) by (apply filter_In; split; [exact IN|cbn; apply N.eqb_refl]).
    rewrite C in X. exact X. }
  split; [exact EN|]. split; [exact B|]. split.
  { intros v IV. destruct (CL v IV) as (n & P & E1). injection E1 as E1. apply content_length_exact in P as (t & T1 & T2 & T3 & T4 & _). exists t. repeat split; try assumption. unfold len in E1. congruence. }
  split; [|split; assumption].
  eapply Forall_impl; [|exact HD]. intros h [V F]. apply header_field_valid_exact in V as (V1 & V2 & V3). repeat split; try assumption.
  intros IN. apply connection_headers_forbidden in IN. congruence.
Qed.
Example server_delivers_complete_requests_ex : exists later r before, sv_log (run demo_env demo_post) = later ++ LReq 1 r :: before /\ rq_body r = [1; 2; 3] /\
  In (str "content-length", str "3") (rq_headers r).
Proof.
  pose (l := sv_log (run demo_env demo_post)). exists [], (match l with LReq _ r :: _ => r | _ => req_empty end), (tl l). vm_compute. repeat split. left. reflexivity.
Qed.

(** ** C40: concurrent streams *)
Theorem server_concurrency_bound E es : Forall event_ok es -> (concurrent_client_streams (run E es) <= 50)%nat.
Proof. intros H. exact (i_conc _ _ (all_inv_run E es H)). Qed.
Example server_concurrency_bound_ex : concurrent_client_streams (run demo_env demo_upload) = 1%nat.
Proof. vm_compute. reflexivity. Qed.

(** ** C41: replies to floods of PING and SETTINGS *)
Theorem server_control_reply_bound E es : Forall event_ok es -> always (fun l => replies_since_progress l <= 1000) (sv_log (run E es)).
Proof. intros H. exact (proj2 (i_rep _ _ (all_inv_run E es H))). Qed.
Example server_control_reply_bound_ex : replies_since_progress (sv_log (run demo_env [SPreface; quiet_settings []; quiet_settings [(4, 2)]])) = 2.
Proof. vm_compute. reflexivity. Qed.

(** ** C42: header blocks in fragments *)
Theorem server_header_block_bound E es : Forall event_ok es -> open_connection (run E es) ->
  continuations (sv_log (run E es)) <= 512 /\ N.of_nat (length (sv_frag (run E es))) <= 1048576.
Proof. intros H O. destruct (i_block _ _ (all_inv_run E es H) (open_alive _ O)) as (A & B & _). split; assumption. Qed.
Example server_header_block_bound_ex : let s := run demo_env [SPreface; SFrame (headers_in 1 1 [130]) ([], false) keep; SFrame (mk_frame (mk_h T_CONTINUATION 0 1) (PCont [134; 132])) ([], false) keep] in
  open_connection s /\ continuations (sv_log s) = 1 /\ length (sv_frag s) = 3%nat.
Proof. vm_compute. repeat split. Qed.

(** ** C43: rapid reset *)
Theorem server_rapid_reset_bound E es : Forall event_ok es -> open_connection (run E es) ->
  let l := sv_log (run E es) in let n := N.of_nat (count is_client_reset l) in n <= 100 \/ 2 * n <= (highest_stream l + 1) / 2.
Proof.
  intros H O. cbv zeta. destruct (i_rsts _ _ (all_inv_run E es H)) as [A B]. destruct (B (open_alive _ O)) as [C [D|D]]; [left; lia|].
  right. assert ((sv_last (run E es) + 1) / 2 <= (highest_stream (sv_log (run E es)) + 1) / 2) by (apply N.div_le_mono; lia). lia.
Qed.
Definition rst_in (sid code : N) : frame := mk_frame (mk_h T_RST_STREAM 0 sid) (PRst code).
Definition demo_reset : list sevent := demo_upload ++ [SFrame (rst_in 1 8) ([], false) keep].
Example server_rapid_reset_bound_ex : open_connection (run demo_env demo_reset) /\ count is_client_reset (sv_log (run demo_env demo_reset)) = 1%nat.
Proof. vm_compute. repeat split. Qed.

(** ** C44: GOAWAY *)
Theorem server_single_goaway E es : Forall event_ok es ->
  let l := sv_log (run E es) in
  (count is_goaway_out l <= 1)%nat /\
  (forall later k r before, l = later ++ LReq k r :: before -> count is_goaway_out before = 0%nat).
Proof.
  intros H. cbv zeta. destruct (i_go _ _ (all_inv_run E es H)) as (A & _ & B). split; [exact A|]. intros later k r before L. exact (B _ _ L).
Qed.
Example server_single_goaway_ex : count is_goaway_out (sv_log (run demo_env [SPreface; SFrame (data_in 1 0 [1]) ([], false) keep; SFrame (data_in 1 0 [1]) ([], false) keep])) = 1%nat.
Proof. vm_compute. reflexivity. Qed.

(** ** C45: nothing is sent on a stream that has been reset *)
Theorem server_silent_after_own_reset E es : Forall event_ok es -> Forall event_nothrow es -> always silent_after_reset (sv_log (run E es)).
Proof.
  intros H NT. assert (I : reset_inv (run E es)); [|exact (proj2 I)].
  apply (run_invariant E false true reset_inv).
  - split; [intros k x _ G; discriminate G|]. apply always_nil. exact I.
  - intros f s s' OK W M FO SO I ST. eapply reset_in; eauto.
  - intros s s' W M I ST. eapply reset_q; eauto.
  - exact H.
  - eapply Forall_impl; [|exact NT]. intros e He. split; [|reflexivity]. destruct e; try discriminate. cbn in *. congruence.
Qed.
Example server_silent_after_own_reset_ex : let l := sv_log (run demo_env (demo_upload ++ [SApp (CReset 1 8); SApp (CRespond 1 (mk_resp 200 [] [7]))])) in
  reset_since 1 l = true /\ response_frames 1 l = [].
Proof. vm_compute. repeat split. Qed.

Lemma try_close_gone sid s : (forall x, get s sid = Some x -> st_rstr x = true) -> find_st (sv_streams (try_close sid s)) sid = None.
Proof.
  intros H. unfold try_close. destruct (get s sid) as [x|] eqn:G; [|exact G]. rewrite (H x eq_refl), !orb_true_r.
  repeat match goal with |- context [if ?b then _ else _] => destruct b end; unfold erase; cbn; sv; apply find_del_same.
Qed.
Lemma try_close_log sid s : sv_log (try_close sid s) = sv_log s /\ sv_last (try_close sid s) = sv_last s.
Proof. unfold try_close. destruct (get s sid) as [x|]; [|split; reflexivity]. repeat match goal with |- context [if ?b then _ else _] => destruct b end; split; reflexivity. Qed.
Lemma goaway_not_open code s : sv_active (goaway code s) = false.
Proof. unfold goaway. destruct (sv_active s) eqn:A; [reflexivity|exact A]. Qed.
Lemma on_rst_gone h code s : (forall x, get s (get_stream_id h) = Some x -> get_stream_id h <= sv_last s) -> alive s = true -> sv_active (on_rst h code s) = true ->
  find_st (sv_streams (on_rst h code s)) (get_stream_id h) = None /\ get_stream_id h <= sv_last (on_rst h code s) /\
  forall k, response_frames k (sv_log (on_rst h code s)) = response_frames k (sv_log s).
Proof.
  unfold on_rst. set (k := get_stream_id h). clearbody k. intros KL AL. rewrite AL. cbn [negb].
  destruct (k =? 0) eqn:K0; [intros A; rewrite goaway_not_open in A; discriminate A|].
  set (s1 := set_sv_rstc (sv_rstc s + 1) s).
  assert (S1 : forall s2, s2 = s \/ s2 = s1 -> match get s2 k with
    | Some x => sv_active (try_close k ((fun s => if (negb (st_disp x) || negb (st_ends x)) && negb (code =? NO_ERROR) then note (LErr k code) s else s) (upd k (fun x => set_st_state CLOSED (set_st_err code (set_st_rstr true x))) s2))) = true ->
        let s' := try_close k ((fun s => if (negb (st_disp x) || negb (st_ends x)) && negb (code =? NO_ERROR) then note (LErr k code) s else s) (upd k (fun x => set_st_state CLOSED (set_st_err code (set_st_rstr true x))) s2)) in
        find_st (sv_streams s') k = None /\ k <= sv_last s' /\ (forall j, response_frames j (sv_log s') = response_frames j (sv_log s))
    | None => let s' := if sv_last s2 <? k then goaway PROTOCOL_ERROR s2 else s2 in sv_active s' = true ->
        find_st (sv_streams s') k = None /\ k <= sv_last s' /\ (forall j, response_frames j (sv_log s') = response_frames j (sv_log s))
    end).
  { intros s2 E2. assert (GE : get s2 k = get s k) by (destruct E2 as [->| ->]; reflexivity). assert (LE : sv_last s2 = sv_last s) by (destruct E2 as [->| ->]; reflexivity).
    assert (LG : sv_log s2 = sv_log s) by (destruct E2 as [->| ->]; reflexivity).
    destruct (get s2 k) as [x|] eqn:G2.
    - intros _. cbv zeta.
      match goal with |- context [try_close k ?t] => set (s3 := t) end. destruct (try_close_log k s3) as [L1 L2]. rewrite L1, L2.
      split; [|split].
      + apply try_close_gone. subst s3. intros y GY.
        assert (GU : get (upd k (fun x => set_st_state CLOSED (set_st_err code (set_st_rstr true x))) s2) k = Some y).
        { cbv beta in GY. destruct ((negb (st_disp x) || negb (st_ends x)) && negb (code =? NO_ERROR)); exact GY. }
        unfold get in GU. rewrite upd_streams, find_updl, N.eqb_refl in GU. unfold get in G2. rewrite G2 in GU. injection GU as <-. reflexivity.
      + subst s3. cbv beta. destruct ((negb (st_disp x) || negb (st_ends x)) && negb (code =? NO_ERROR)); unfold upd; rewrite G2; cbn; sv; rewrite LE; apply (KL x); congruence.
      + intros j. subst s3. cbv beta. destruct ((negb (st_disp x) || negb (st_ends x)) && negb (code =? NO_ERROR)); unfold upd; rewrite G2; cbn; sv; rewrite LG; reflexivity.
    - cbv zeta. destruct (N.ltb_spec (sv_last s2) k) as [LT|GE2]; [intros A; rewrite goaway_not_open in A; discriminate A|].
      intros _. split; [exact G2|]. split; [exact GE2|]. intros j. rewrite LG. reflexivity. }
  destruct (k <=? sv_last s) eqn:KS.
  - fold s1. destruct ((MAX_RAPID_RESETS <? sv_rstc s1) && ((sv_last s1 + 1) / 2 <? sv_rstc s1 * 2)); [intros A; rewrite goaway_not_open in A; discriminate A|].
    specialize (S1 s1 (or_intror eq_refl)). destruct (get s1 k) as [x|]; exact S1.
  - specialize (S1 s (or_introl eq_refl)). destruct (get s k) as [x|]; exact S1.
Qed.
Theorem server_silent_after_peer_reset E es more f code a ord : let k := stream_of f in
  Forall event_ok (es ++ SFrame f a ord :: more) -> fr_pl f = PRst code -> N.odd k = true ->
  open_connection (run E (es ++ [SFrame f a ord])) ->
  response_frames k (sv_log (run E (es ++ SFrame f a ord :: more))) = response_frames k (sv_log (run E es)).
Proof.
  intros k H P O OC. subst k. change (SFrame f a ord :: more) with ([SFrame f a ord] ++ more) in *. rewrite app_assoc in H |- *. apply Forall_app in H as [H0 H1].
  assert (G : gone (stream_of f) (response_frames (stream_of f) (sv_log (run E es))) (run E ((es ++ [SFrame f a ord]) ++ more))); [|exact (proj2 (proj2 G))].
  apply (run_invariant_from E true true (gone (stream_of f) (response_frames (stream_of f) (sv_log (run E es)))) _ H0).
  - clear H1. apply Forall_app in H0 as [H0 _]. destruct (run_wf E es H0) as [W _]. rewrite run_snoc in *. generalize dependent (run E es). intros s [OC1 OC2] W.
    cbn [step] in *. destruct (sv_ok s) eqn:OK; [|congruence]. unfold on_frame in *. rewrite P in *.
    destruct (sv_active s) eqn:AC.
    2:{ unfold on_rst in OC2. change (alive (note (LIn f) s)) with (alive s) in OC2. unfold alive in OC2. rewrite OK, AC in OC2. cbn [andb negb] in OC2. cbn in OC2. congruence. }
    destruct (on_rst_gone (fr_hdr f) code (note (LIn f) s)) as (A & B & C).
    + intros x G. exact (w_odd _ W _ _ G O).
    + unfold alive. cbn. sv. rewrite OK, AC. reflexivity.
    + exact OC2.
    + split; [exact A|]. split; [left; exact B|]. rewrite C. reflexivity.
  - intros g s s' OK W M FO SO I ST. eapply gone_in; eauto.
  - intros s s' W M I ST. eapply gone_q; eauto.
  - exact H1.
  - apply all_allowed.
Qed.
Example server_silent_after_peer_reset_ex : stream_of (rst_in 1 8) = 1 /\ open_connection (run demo_env (demo_upload ++ [SFrame (rst_in 1 8) ([], false) keep])).
Proof. vm_compute. repeat split. Qed.

(** ** C46: a stream is not discarded as idle within ten seconds of its creation *)
Definition young (t0 k : N) (s : server) : Prop := t0 <= sv_now s /\ forall x, find_st (sv_streams s) k = Some x -> t0 <= st_act x.
Lemma young_in t0 k f s s' : young t0 k s -> instep f s s' -> young t0 k s'.
Proof.
  unfold young. intros [I1 I2] H. norm_in H; fields; (split; [exact I1|]); intros y G; streams G; try exact (I2 _ G).
  all: try solve [unfold hdr_stream, acc_stream, grant; st; cbn [new_stream st_act]; first [exact I1|
    match goal with F : find_st _ _ = Some ?x, Ek : _ = _ |- _ => rewrite <- Ek in F; exact (I2 _ F) end]].
Qed.
Lemma young_q E th sh t0 k s s' : young t0 k s -> qstep E th sh s s' -> young t0 k s'.
Proof.
  unfold young. intros [I1 I2] H. norm_q H; fields; (split; [try exact I1; lia|]); intros y G; streams G; try exact (I2 _ G).
  all: try solve [unfold data_stream, response_ends; st; cbn [new_stream st_act]; first [exact I1|
    match goal with F : find_st _ _ = Some ?x, Ek : _ = _ |- _ => rewrite <- Ek in F; first [exact (I2 _ F)|destruct fin; exact (I2 _ F)] end]|congruence].
Qed.
Lemma try_close_other sid k s : sid <> k -> find_st (sv_streams (try_close sid s)) k = find_st (sv_streams s) k /\ sv_now (try_close sid s) = sv_now s.
Proof.
  intros NE. unfold try_close. destruct (get s sid) as [x|]; [|split; reflexivity].
  repeat match goal with |- context [if ?b then _ else _] => destruct b end; unfold erase; sv; (split; [|reflexivity]); try reflexivity; apply find_del_other; congruence.
Qed.
Lemma rst_stream_other sid code b k s : sid <> k -> find_st (sv_streams (rst_stream sid code b s)) k = find_st (sv_streams s) k /\ sv_now (rst_stream sid code b s) = sv_now s.
Proof.
  intros NE. unfold rst_stream. destruct (negb (sv_active s) && negb (code =? CANCEL)); [split; reflexivity|]. cbv zeta.
  set (s1 := emit _ s). assert (A : sv_streams s1 = sv_streams s /\ sv_now s1 = sv_now s) by (split; reflexivity). destruct A as [A1 A2].
  destruct (get s1 sid) as [x|] eqn:G; [|rewrite A1, A2; split; reflexivity].
  set (s2 := upd sid _ s1). assert (B : find_st (sv_streams s2) k = find_st (sv_streams s) k /\ sv_now s2 = sv_now s).
  { subst s2. rewrite upd_streams, find_updl, A1. destruct (N.eqb_spec k sid); [congruence|]. split; [reflexivity|]. unfold upd. rewrite G. exact A2. }
  destruct B as [B1 B2]. set (s3 := if _ && _ then note _ _ else s2). assert (C : find_st (sv_streams s3) k = find_st (sv_streams s) k /\ sv_now s3 = sv_now s).
  { subst s3. destruct (_ && _); exact (conj B1 B2). }
  destruct b; [|exact C]. destruct (try_close_other sid k s3 NE) as [D1 D2]. rewrite D1, D2. exact C.
Qed.
Lemma cleanup_spares k x order s : find_st (sv_streams s) k = Some x -> sv_now s - st_act x <= 10000 -> find_st (sv_streams (cleanup order s)) k = Some x.
Proof.
  induction order as [|sid r IH] in s |- *; intros F A; [exact F|]. cbn [cleanup]. set (s1 := match get s sid with Some _ => _ | None => _ end).
  assert (G : find_st (sv_streams s1) k = Some x /\ sv_now s1 = sv_now s); [|destruct G as [G1 G2]; apply IH; [exact G1|rewrite G2; exact A]].
  subst s1. destruct (get s sid) as [y|] eqn:G; [|split; auto]. destruct (is_state (st_state y) CLOSED); [split; auto|]. cbv zeta.
  destruct (N.eqb_spec sid k) as [->|NE].
  - unfold get in G. rewrite F in G. injection G as <-. replace (10000 <? sv_now s - st_act x) with false by (symmetry; apply N.ltb_ge; lia).
    replace (30000 <? sv_now s - st_act x) with false by (symmetry; apply N.ltb_ge; lia). rewrite andb_false_r. split; auto.
  - destruct (_ || _); [|split; auto]. destruct (rst_stream_other sid CANCEL true k s NE) as [B1 B2]. split; [|exact B2].
    unfold erase. sv. rewrite find_del_other by congruence. rewrite B1. exact F.
Qed.
Theorem server_cleanup_spares_young_streams E es0 es order k x : Forall event_ok (es0 ++ es) ->
  find_st (sv_streams (run E es0)) k = None ->                                      (* the stream does not exist yet, *)
  find_st (sv_streams (run E (es0 ++ es))) k = Some x ->                             (* exists later, *)
  sv_now (run E (es0 ++ es)) - sv_now (run E es0) <= 10000 ->                         (* no more than ten seconds later, *)
  find_st (sv_streams (run E ((es0 ++ es) ++ [SApp (CCleanup order)]))) k = Some x.   (* and survives a cleanup unchanged *)
Proof.
  intros H N0 F A. rewrite run_snoc. cbn [step run_cmd]. apply Forall_app in H as [H0 H1].
  assert (Y : young (sv_now (run E es0)) k (run E (es0 ++ es))).
  { apply (run_invariant_from E true true (young (sv_now (run E es0)) k) es0 H0); [split; [lia|intros y G; congruence]|..|exact H1|apply all_allowed].
    - intros. eapply young_in; eauto. - intros. eapply young_q; eauto. }
  apply cleanup_spares; [exact F|]. destruct Y as [_ Y]. specialize (Y _ F). unfold note. sv. lia.
Qed.
Example server_cleanup_spares_young_streams_ex : let s := run demo_env ([SPreface] ++ tl demo_upload ++ [STick 9999]) in
  sv_now s = 9999 /\ find_st (sv_streams (run demo_env [SPreface])) 1 = None /\ (if find_st (sv_streams s) 1 then true else false) = true.
Proof. vm_compute. repeat split. Qed.
(** But activity does not count: a client that has just sent a DATA frame has its upload reset as idle (last_activity is set only when the
    context is created, and neither on(DataFrame) nor any other handler updates it). *)
Definition demo_slow : list sevent := demo_upload ++ [STick 6000; SFrame (data_in 1 0 [1]) ([], false) keep; STick 6000; SFrame (data_in 1 0 []) ([], false) keep; SApp (CCleanup [1])].
Theorem server_cleanup_resets_active_stream_refuted : exists E es, Forall event_ok es /\
  match sv_log (run E es) with LErr 1 8 :: LOut rst :: LCmd (CCleanup _) :: LIn f :: _ => fr_pl rst = PRst 8 /\ fr_pl f = PData [] 0 /\ stream_of f = 1 | _ => False end.
Proof. exists demo_env, demo_slow. split; [repeat constructor; cbn; try lia; intros l; apply Permutation_refl|]. vm_compute. repeat split. Qed.

(** ** Findings: behaviours of the code the properties above exclude by hypothesis or do not promise *)
(** A handler that throws on a request completed by a DATA frame: RST_STREAM is sent, yet the stream stays open and a later call still sends the response on it
    (server.h:374-388 puts the stream back to HALF_CLOSED_REMOTE). *)
Definition demo_throw : list sevent := demo_upload ++ [SFrame (data_in 1 1 [3]) ([], true) keep; SApp (CRespond 1 (mk_resp 200 [] [7]))].
Theorem server_silent_after_throw_refuted : exists E es, Forall event_ok es /\ ~ always silent_after_reset (sv_log (run E es)).
Proof.
  exists demo_env, demo_throw. split; [repeat constructor; cbn; try lia; intros l; apply Permutation_refl|].
  assert (X : match sv_log (run demo_env demo_throw) with LOut f :: before => N.odd 1 = true /\ response_frame 1 f = true /\ reset_since 1 before = true | _ => False end) by (vm_compute; repeat split).
  revert X. generalize (sv_log (run demo_env demo_throw)). intros l X A. specialize (A [] l eq_refl).
  unfold silent_after_reset in A. destruct l as [|[|f| | | | |] before]; try contradiction. destruct X as (X1 & X2 & X3). rewrite (A 1 X1 X2) in X3. discriminate X3.
Qed.

(** The connection receive window can be exhausted and never replenished: four uploads that exceed their declared length of 0 take the whole window,
    and the path that rejects them (server.h:338-345) returns before the connection WINDOW_UPDATE; every later DATA frame is then a connection error. *)
Definition empty_post : list N := [131; 134; 132; 65; 1; 97; 15; 13; 1; 48].
Definition overlong (sid n : N) : list sevent := [SFrame (headers_in sid 4 empty_post) ([], false) keep; SFrame (data_in sid 0 (repeat 0 (N.to_nat n))) ([], false) keep].
Definition demo_stall : list sevent := [SPreface] ++ overlong 1 16384 ++ overlong 3 16384 ++ overlong 5 16384 ++ overlong 7 16383.
Theorem server_window_replenished_refuted : exists E es, Forall event_ok es /\ open_connection (run E es) /\ sv_streams (run E es) = [] /\
  data_received (sv_log (run E es)) = 65535 /\ credit_sent_on 0 (sv_log (run E es)) = 0.
Proof.
  exists demo_env, demo_stall. split; [|vm_compute; repeat split].
  repeat constructor; cbn -[repeat N.to_nat]; try lia; intros l; apply Permutation_refl.
Qed.
