(** Theorems on the HTTP/2 client (C160-C177).  [chronicle es] is everything that happened on the connection after the
    events [es]; the vocabulary is that of H2ClientSpec.  [event_ok] says what the environment guarantees (octets are
    octets, the framer lets no WINDOW_UPDATE of 0 through, and the application sends requests but does not call
    send_request_trailers: the last Examples show why that call is left out).  [ids_left]: the 31-bit stream
    identifiers have not run out; the code has no check for it (finding). *)
From Verif Require Import Base UtilModel UtilSpec HpackTables HpackModel H2Model H2FieldModel H2FieldSpec
  H2ClientModel H2ClientSpec H2ClientSteps H2ClientAgree H2ClientHandlers H2ClientRun H2ClientInv H2ClientLedger H2ClientSend H2ClientLimits H2ClientActive.
Local Open Scope N_scope.

Definition chronicle (es : list cevent) : list citem := cl_log (crun es).
Definition ids_left (es : list cevent) : Prop := cl_next (crun es) <= 2 ^ 31.
Definition connection_open (es : list cevent) : Prop := cl_ok (crun es) = true.

(** ** All invariants together *)
Record inv (s : client) : Prop := mk_inv {
  i_rep : replies_inv s; i_blk : block_inv s; i_bye : bye_inv s; i_new : new_inv s; i_told : told_inv s;
  i_resp : always faithful_response (cl_log s); i_send : send_inv s; i_recv : recv_inv s; i_tx : tx_inv s;
  i_lim : limit_inv s; i_fit : fit_inv s; i_hush : hush_inv s; i_act : act_inv s }.
Lemma always_one (P : list citem -> Prop) i : P [] -> P [i] -> always P [i].
Proof. intros H0 H1. apply always_cons; [apply always_nil, H0|exact H1]. Qed.
Lemma inv_start : inv client_start.
Proof.
  assert (K : forall k, cget client_start k = None) by reflexivity.
  constructor.
  - split; [discriminate|]. apply always_one; cbv beta; discriminate.
  - intros _. split; [split; discriminate|]. intros H. destruct H. reflexivity.
  - split; [reflexivity|]. apply always_one; [exact I|]. intros H. discriminate H.
  - repeat split; try discriminate; [apply Forall_nil|]. apply always_one; exact I.
  - split; [intros k; apply Nat.le_0_l|]. split; [intros k x H; rewrite K in H; discriminate|]. intros k H. destruct H. reflexivity.
  - apply always_one; exact I.
  - intros _. split; [apply always_one; exact I|]. intros _. constructor; try reflexivity; [intros k x H; rewrite K in H; discriminate|intros k _ _].
    split; unfold data_sent_on, credit_received_on; cbn [cl_log client_start cemit cnote set_cl_log client_zero total weigh_out weigh_in]; [|reflexivity]. unfold on_stream. destruct (_ =? k); reflexivity.
  - intros _. assert (Z : forall k, credit_sent_on k (cl_log client_start) = 0).
    { intros k. unfold credit_sent_on; cbn [cl_log client_start cemit cnote set_cl_log client_zero total weigh_out weigh_in]. unfold on_stream. destruct (_ =? k); reflexivity. }
    split; [split; [rewrite Z; apply N.le_0_l|intros k _; rewrite Z; apply N.le_0_l]|]. intros _. constructor; [rewrite Z; discriminate|intros k x H; rewrite K in H; discriminate|].
    intros k _ _. split; [reflexivity|apply Z].
  - intros _. assert (F : forall k, frames_sent k (cl_log client_start) = []).
    { intros k. cbn [cl_log client_start cemit cnote set_cl_log client_zero frames_sent]. unfold message_frame. cbn [fr_pl]. rewrite andb_false_r. reflexivity. }
    assert (R : forall k a r, ~ In (LReq k a r) (cl_log client_start)) by (intros k a r [H|[]]; discriminate).
    constructor; [intros k a r H; destruct (R _ _ _ H)|intros _ k x H; rewrite K in H; discriminate|intros k _ _; apply F|intros k a r H; destruct (R _ _ _ H)].
  - intros _. split; [reflexivity|discriminate].
  - intros _. apply always_one; exact I.
  - intros _. assert (R : forall k, ~ reset_sent k (cl_log client_start)) by (intros k (f & [H|[]] & _ & c & C); injection H as <-; discriminate C).
    split; [apply always_one; [exact I|]; intros k M (f & [] & _)|]. intros _. split; intros; apply R.
  - intros _. split; [apply always_one; exact I|]. intros _. split; [intros k x H; rewrite K in H; discriminate|]. intros _ k ((a & r & [H|[]]) & _). discriminate H.
Qed.
Lemma inv_run es : Forall event_ok es -> inv (crun es).
Proof.
  intros F. apply (crun_inv inv es F inv_start). intros s s' G [I1 I2 I3 I4 I5 I6 I7 I8 I9 I10 I11 I12 I13] H. constructor.
  - exact (mv_replies _ _ I1 H).
  - exact (mv_block _ _ (proj1 G) I2 H).
  - exact (mv_bye _ _ I3 H).
  - exact (mv_new _ _ (proj1 G) I4 H).
  - exact (mv_told _ _ I5 H).
  - exact (mv_faithful _ _ I4 I6 H).
  - exact (mv_send _ _ G I7 H).
  - exact (mv_recv _ _ G I8 H).
  - exact (mv_tx _ _ G I9 H).
  - exact (mv_limit _ _ I10 H).
  - exact (mv_fit _ _ G I7 I9 I5 I10 I11 H).
  - exact (mv_hush _ _ G I12 H).
  - exact (mv_act _ _ G I10 I13 H).
Qed.

(** ** C160: DATA never exceeds the server's windows *)
Theorem client_respects_send_windows es : Forall event_ok es -> ids_left es -> always respects_send_windows (chronicle es).
Proof. intros F L. exact (proj1 (i_send _ (inv_run es F) L)). Qed.

(** ** C161: header blocks are cut to the server's frame size *)
Theorem client_header_frames_fit es : Forall event_ok es -> ids_left es -> always head_frame_fits (chronicle es).
Proof. intros F L. exact (i_fit _ (inv_run es F) L). Qed.

(** ** C162: what is written on the stream of a request is that request *)
Theorem client_transmits_request es k app r : Forall event_ok es -> ids_left es -> In (LReq k app r) (chronicle es) ->
  transmits r (frames_sent k (chronicle es)).
Proof. intros F L. exact (tx_all _ (i_tx _ (inv_run es F) L) k app r). Qed.

(** ** C163: at most one outcome per request, and none without a request *)
Theorem client_tells_at_most_once es k : Forall event_ok es ->
  (notifications k (chronicle es) <= 1)%nat /\ (notifications k (chronicle es) <> 0%nat -> exists app r, In (LReq k app r) (chronicle es)).
Proof. intros F. destruct (i_told _ (inv_run es F)) as (T1 & _ & T3). split; [apply T1|]. intros H. destruct (T3 k H) as (a & q & Q). eauto. Qed.

(** ** C164: a response given to the application is the one received *)
Theorem client_response_faithful es : Forall event_ok es -> always faithful_response (chronicle es).
Proof. intros F. exact (i_resp _ (inv_run es F)). Qed.

(** ** C165: flow-control credit *)
Theorem client_credit_earned es : Forall event_ok es -> ids_left es -> credits_earned (chronicle es).
Proof. intros F L. exact (proj1 (i_recv _ (inv_run es F) L)). Qed.
(** On a stream the client still holds, the server is never left with less than half of the window, and has not
    exceeded it. *)
Theorem client_stream_window es k : Forall event_ok es -> ids_left es -> connection_open es -> cget (crun es) k <> None ->
  credit_sent_on k (chronicle es) <= data_received_on k (chronicle es) < credit_sent_on k (chronicle es) + 32767.
Proof.
  intros F L OK NN. destruct (crun_steps es F) as (_ & G & [C CA]). destruct (cget (crun es) k) as [x|] eqn:E; [|congruence].
  destruct (C k x (fun H => H) E) as (R & _ & _ & T). unfold connection_open in OK. destruct (T OK) as [P _].
  assert (A : calive (crun es) = true) by (unfold calive; rewrite OK, (CA OK); reflexivity).
  destruct (i_recv _ (inv_run es F) L) as [_ RC]. pose proof (rc_str _ (RC A) k x E R) as Q. unfold chronicle. rewrite Q. split; lia.
Qed.

(** ** C166: replies are rate limited *)
Theorem client_replies_bounded es : Forall event_ok es -> always (fun l => replies_since_progress l <= 1000) (chronicle es).
Proof. intros F. exact (proj2 (i_rep _ (inv_run es F))). Qed.

(** ** C167: header blocks are bounded *)
Theorem client_header_block_bounded es : Forall event_ok es -> connection_open es ->
  continuations (chronicle es) <= 512 /\ continuation_octets (chronicle es) <= 1048576.
Proof.
  intros F OK. destruct (crun_steps es F) as (_ & _ & [_ CA]). unfold connection_open in OK.
  assert (A : calive (crun es) = true) by (unfold calive; rewrite OK, (CA OK); reflexivity). exact (proj1 (i_blk _ (inv_run es F) A)).
Qed.
(** What is stored of an unfinished block is bounded too. *)
Theorem client_stored_block_bounded es : Forall event_ok es -> connection_open es -> N.of_nat (length (cl_frag (crun es))) <= 1048576.
Proof.
  intros F OK. destruct (crun_steps es F) as (_ & G & [_ CA]). unfold connection_open in OK.
  assert (A : calive (crun es) = true) by (unfold calive; rewrite OK, (CA OK); reflexivity). exact (w_frag_len _ (proj1 G) A).
Qed.

(** ** C168: GOAWAY is the last word *)
Theorem client_quiet_after_goaway es : Forall event_ok es -> always quiet_after_goaway (chronicle es).
Proof. intros F. exact (proj2 (i_bye _ (inv_run es F))). Qed.
Lemma one_goaway l : always quiet_after_goaway l -> (length (filter is_goaway_out l) <= 1)%nat /\ (sent_goaway l = false -> filter is_goaway_out l = []).
Proof.
  induction l as [|i l IH]; intros A; [split; [apply Nat.le_0_l|reflexivity]|].
  assert (A' : always quiet_after_goaway l) by (intros l1 l2 E; apply (A (i :: l1)); rewrite E; reflexivity). destruct (IH A') as [B1 B2].
  pose proof (always_now _ _ A) as Q. cbn [filter]. unfold sent_goaway in *. cbn [existsb]. destruct (is_goaway_out i) eqn:E; cbn [orb length]; [|split; assumption].
  split; [|discriminate]. destruct i; try discriminate E. cbn [is_goaway_out] in E. cbn [quiet_after_goaway] in Q. destruct (existsb is_goaway_out l) eqn:S.
  - exfalso. unfold sent_goaway in Q. destruct (Q S) as [P _]. rewrite P in E. discriminate.
  - rewrite (B2 eq_refl). apply Nat.le_refl.
Qed.
Theorem client_one_goaway es : Forall event_ok es -> (length (filter is_goaway_out (chronicle es)) <= 1)%nat.
Proof. intros F. apply one_goaway, client_quiet_after_goaway, F. Qed.

(** ** C169: a closed connection does nothing any more *)
Theorem client_closed_is_inert es es' : Forall event_ok (es ++ es') -> ~ connection_open es ->
  exists apps, chronicle (es ++ es') = map LRefuse apps ++ chronicle es /\ ~ connection_open (es ++ es').
Proof.
  unfold chronicle, connection_open, crun. rewrite fold_left_app. intros F. apply Forall_app in F as [_ F]. generalize (fold_left cstep es client_start) as s. induction F as [|e es' E F IH]; intros s O; [exists []; auto|].
  cbn [fold_left]. assert (O' : cl_ok s = false) by (destruct (cl_ok s); congruence).
  assert (Q : exists apps, cl_log (cstep s e) = map LRefuse apps ++ cl_log s /\ cl_ok (cstep s e) = false).
  { destruct e as [f sc ord|c sc|]; cbn [cstep event_ok] in *.
    - rewrite O'. exists []. auto.
    - destruct E as [E _]. destruct c as [r app|]; [|destruct E]. exists [app]. unfold with_script. cbn [run_ccmd]. unfold send_request. cl. rewrite O'. cbn [negb orb fst]. cl. split; [reflexivity|exact O'].
    - exists []. auto. }
  destruct Q as (a1 & Q1 & Q2). destruct (IH (cstep s e)) as (a2 & Q3 & Q4); [congruence|]. exists (a2 ++ a1). rewrite Q3, Q1, map_app, app_assoc. auto.
Qed.

(** ** C170: requests get fresh streams, and none after GOAWAY has been received *)
Theorem client_fresh_streams es : Forall event_ok es -> always fresh_request (chronicle es).
Proof. intros F. exact (proj2 (proj2 (proj2 (i_new _ (inv_run es F))))). Qed.

(** ** C171: nothing of the message is written on a stream the client has reset *)
Theorem client_silent_after_reset es : Forall event_ok es -> ids_left es -> always silent_after_reset (chronicle es).
Proof. intros F L. exact (proj1 (i_hush _ (inv_run es F) L)). Qed.

(** ** C172: no undefined behaviour *)
Theorem client_no_undefined_behaviour es : Forall event_ok es -> cl_ub (crun es) = false.
Proof. intros F. destruct (crun_steps es F) as (_ & G & _). exact (w_ub _ (proj1 G)). Qed.

(** ** C174: the server's limit on concurrent streams *)
Theorem client_within_stream_limit es : Forall event_ok es -> ids_left es -> always within_limit (chronicle es).
Proof. intros F L. exact (proj1 (i_act _ (inv_run es F) L)). Qed.
(** In particular there are never more streams open than the limit in force when the newest of them was opened. *)
Corollary client_open_streams_bounded es k app r before : Forall event_ok es -> ids_left es -> (exists later, chronicle es = later ++ LReq k app r :: before) ->
  forall ks, NoDup ks -> (forall j, In j ks -> stream_open j (LReq k app r :: before)) -> N.of_nat (length ks) <= setting 3 4294967295 before.
Proof.
  intros F L (later & E) ks ND HO. pose proof (client_within_stream_limit es F L later (LReq k app r :: before) E) as W. cbn [within_limit] in W.
  set (old := filter (fun j => negb (j =? k)) ks).
  assert (O : N.of_nat (length old) < setting 3 4294967295 before).
  { apply W; [apply NoDup_filter, ND|]. intros j Hj. apply filter_In in Hj as [Hj NE]. apply negb_true_iff, N.eqb_neq in NE. specialize (HO j Hj).
    apply (open_before j [LReq k app r] before); [|exact HO]. intros a q [H|[]]. congruence. }
  assert (LE : (length ks <= S (length old))%nat); [|lia].
  assert (IN : incl ks (k :: old)). { intros j Hj. destruct (N.eq_dec j k) as [->|NE]; [left; reflexivity|right]. apply filter_In. split; [exact Hj|]. apply negb_true_iff, N.eqb_neq, NE. }
  exact (NoDup_incl_length ND IN).
Qed.

(** ** C173: server push is refused *)
Lemma inactive_send K r app s : cl_active s = false -> fst (send_request K r app s) = cnote (LRefuse app) s.
Proof. intros A. unfold send_request. rewrite A. rewrite orb_true_r. reflexivity. Qed.
Lemma inactive_callback n s : cl_active s = false -> Forall (Forall is_send) (cl_script s) -> exists apps, cl_log (callback n s) = map LRefuse apps ++ cl_log s.
Proof.
  destruct n as [|n]; intros A F; [exists []; reflexivity|]. cbn [callback]. destruct (cl_script s) as [|cs r]; [exists []; reflexivity|]. inversion F as [|? ? F1 F2]; subst. clear F.
  unfold run_ccmds. change (cl_log s) with (cl_log (set_cl_script r s)). assert (A' : cl_active (set_cl_script r s) = false) by exact A. clear A. revert A'. generalize (set_cl_script r s) as s0. clear - F1.
  induction F1 as [|c cs C F IH]; intros s0 A; [exists []; reflexivity|]. cbn [fold_left]. destruct c as [q app|]; [|destruct C]. cbn [run_ccmd]. rewrite inactive_send by exact A.
  destruct (IH (cnote (LRefuse app) s0) A) as (apps & E). exists (apps ++ [app]). rewrite E, map_app, <- app_assoc. reflexivity.
Qed.
Lemma goaway_step es f script ord code : Forall event_ok (es ++ [CFrame f script ord]) -> connection_open es ->
  (forall K s, cl_log s = LIn f :: chronicle es -> calive s = true -> con_frame K f ord s = cgoaway K code s) ->
  exists later last, chronicle (es ++ [CFrame f script ord]) = later ++ LOut (mk_frame (mk_h T_GOAWAY 0 0) (PGoaway last code [])) :: LIn f :: chronicle es /\
    ~ connection_open (es ++ [CFrame f script ord]).
Proof.
  intros F OK H. apply Forall_app in F as [F FE]. assert (FS : Forall (Forall is_send) script) by (inversion FE as [|? ? Q _]; exact (proj2 Q)). destruct (crun_steps es F) as (_ & _ & [_ CA]). unfold connection_open, chronicle in *. unfold crun in *. rewrite fold_left_app.
  set (s := fold_left cstep es client_start) in *. cbn [fold_left cstep]. rewrite OK. unfold with_script. rewrite H; [|reflexivity|unfold calive; cl; rewrite OK, (CA OK); reflexivity].
  unfold cgoaway. cl. rewrite OK. cbn [negb]. cl.
  match goal with |- context [call _ ?i ?x] => unfold call; destruct (inactive_callback (length script) (cnote i x) eq_refl FS) as (apps & E) end.
  match goal with |- context [LBye code ?l] => exists (map LRefuse apps ++ [LBye code l]), l end. split; [cl; rewrite E; cl; rewrite <- app_assoc; reflexivity|discriminate].
Qed.
Theorem client_refuses_push es f promised frag script ord : Forall event_ok (es ++ [CFrame f script ord]) -> connection_open es -> fr_pl f = PPush promised frag ->
  exists later last, chronicle (es ++ [CFrame f script ord]) = later ++ LOut (mk_frame (mk_h T_GOAWAY 0 0) (PGoaway last PROTOCOL_ERROR [])) :: LIn f :: chronicle es /\
    ~ connection_open (es ++ [CFrame f script ord]).
Proof.
  intros F OK E. apply goaway_step; auto. intros K s _ A. unfold con_frame. rewrite E. unfold con_push. rewrite A. reflexivity.
Qed.

(** ** Concrete connections *)
Definition o : list N -> list N := fun l => l.
Definition fr (ty fl sid : N) (p : payload) : frame := mk_frame (mk_h ty fl sid) p.
Definition get : crequest := mk_crq (str "GET") [] (str "h") [] [] [] [] [].
Definition post : crequest := mk_crq (str "POST") [] (str "h") [] (str "/p") [] [] (str "hello").
(* octet 136 is the HPACK encoding of the field :status 200 *)
Definition headers (fl sid : N) (b : list N) : cevent := CFrame (fr T_HEADERS fl sid (PHeaders b None)) [] o.
Definition data (fl sid : N) (d : list N) : cevent := CFrame (fr T_DATA fl sid (PData d 0)) [] o.
Definition send (r : crequest) (app : N) : cevent := CApp (CSend r app) [].
Definition window (sid inc : N) : cevent := CFrame (fr T_WINDOW_UPDATE 0 sid (PWindow inc)) [] o.
Definition settings (es : list (N * N)) : cevent := CFrame (fr T_SETTINGS 0 0 (PSettings es)) [] o.
Ltac ev_ok := repeat first [apply Forall_nil|apply Forall_cons]; cbn [event_ok send headers data window settings]; repeat split; try exact I; try discriminate; repeat first [apply Forall_nil|apply Forall_cons]; try reflexivity.

(** A response in three frames. *)
Definition visit : list cevent := [send get 7; headers 4 1 [136]; data 0 1 (str "h"); data 1 1 (str "i")].
Example visit_ok : Forall event_ok visit /\ ids_left visit /\ connection_open visit. Proof. split; [ev_ok|split; [vm_compute; discriminate|reflexivity]]. Qed.
Example visit_delivers : hd_error (chronicle visit) = Some (LResp 1 7 (mk_crs 200 [] (str "hi")) 0). Proof. reflexivity. Qed.
Example visit_counts : notifications 1 (chronicle visit) = 1%nat /\ body_received 1 (chronicle visit) = str "hi" /\ request_streams (chronicle visit) = [1]. Proof. vm_compute. repeat split. Qed.

(** A body sent under a window of 3 octets, then 1 more, then the rest. *)
Definition upload : list cevent := [settings [(4, 3); (5, 16384)]; send post 7; window 1 1; window 1 9; headers 5 1 [136]].
Example upload_ok : Forall event_ok upload /\ ids_left upload. Proof. split; [ev_ok|vm_compute; discriminate]. Qed.
Example upload_frames : map payload_octets (frames_sent 1 (chronicle upload)) = [[]; str "hel"; str "l"; str "o"] /\
  map has_end_stream (frames_sent 1 (chronicle upload)) = [false; false; false; true] /\ data_sent_on 1 (chronicle upload) = 5 /\ setting 4 65535 (chronicle upload) = 3.
Proof. vm_compute. repeat split. Qed.

(** Credit: 40000 octets received on stream 1 (in one padded frame) are given back on the stream and on the connection. *)
Definition download : list cevent := [send get 7; headers 4 1 [136]; CFrame (fr T_DATA 0 1 (PData [1] 39999)) [] o; data 0 1 [2; 3]].
Example download_ok : Forall event_ok download /\ ids_left download /\ connection_open download /\ cget (crun download) 1 <> None.
Proof. split; [ev_ok|]. split; [vm_compute; discriminate|]. split; [reflexivity|vm_compute; discriminate]. Qed.
Example download_credit : data_received_on 1 (chronicle download) = 40002 /\ credit_sent_on 1 (chronicle download) = 40000 /\ credit_sent_on 0 (chronicle download) = 40000.
Proof. vm_compute. repeat split. Qed.

(** PING, a header block in two frames, PUSH_PROMISE, then a refused request. *)
Definition mixed : list cevent := [send get 7; CFrame (fr T_PING 0 0 (PPing [1; 2; 3; 4; 5; 6; 7; 8])) [] o; headers 0 1 []; CFrame (fr T_CONTINUATION 0 1 (PCont [136])) [] o].
Example mixed_ok : Forall event_ok mixed /\ connection_open mixed. Proof. split; [ev_ok|reflexivity]. Qed.
Example mixed_counts : replies_since_progress (chronicle mixed) = 1 /\ continuations (chronicle mixed) = 1 /\ continuation_octets (chronicle mixed) = 1 /\ cl_frag (crun mixed) = [136].
Proof. vm_compute. repeat split. Qed.
Definition push : cevent := CFrame (fr T_PUSH_PROMISE 4 1 (PPush 2 [])) [[CSend get 8]] o.
Example push_ok : Forall event_ok (mixed ++ [push; send get 9]) /\ ~ connection_open (mixed ++ [push]).
Proof. split; [apply Forall_app; split; [apply mixed_ok|ev_ok]|vm_compute; discriminate]. Qed.
Example push_closes : exists last, firstn 5 (chronicle (mixed ++ [push; send get 9])) =
  [LRefuse 9; LRefuse 8; LBye 1 last; LOut (mk_frame (mk_h T_GOAWAY 0 0) (PGoaway last 1 [])); LIn (fr T_PUSH_PROMISE 4 1 (PPush 2 []))].
Proof. exists 1. reflexivity. Qed.

(** A response without :status is reset; nothing more is written on stream 1, although a body was pending. *)
Definition reset : list cevent := [settings [(4, 3)]; send post 7; headers 4 1 []; window 1 9; window 0 9].
Example reset_ok : Forall event_ok reset /\ ids_left reset. Proof. split; [ev_ok|vm_compute; discriminate]. Qed.
Example reset_silent : reset_sent 1 (chronicle reset) /\ body_octets (frames_sent 1 (chronicle reset)) = str "hel" /\ In (LErr 1 PROTOCOL_ERROR) (chronicle reset).
Proof.
  split; [exists (mk_frame (mk_h T_RST_STREAM 0 1) (PRst 1)); split; [vm_compute; tauto|split; [reflexivity|eexists; reflexivity]]|]. split; [reflexivity|vm_compute; tauto].
Qed.

(** A server that allows one stream: the second request is refused, and the third accepted once the first is over. *)
Definition limited : list cevent := [settings [(3, 1)]; send get 7; send get 8; headers 5 1 [136]; send get 9].
Definition limited_chronicle : list citem := Eval vm_compute in chronicle limited.
Lemma limited_eq : chronicle limited = limited_chronicle. Proof. vm_compute. reflexivity. Qed.
Example limited_ok : Forall event_ok limited /\ ids_left limited /\ connection_open limited. Proof. split; [ev_ok|split; [vm_compute; discriminate|vm_compute; reflexivity]]. Qed.
Example limited_refuses : setting 3 4294967295 (chronicle limited) = 1 /\ request_streams (chronicle limited) = [3; 1] /\ In (LRefuse 8) (chronicle limited).
Proof. rewrite limited_eq. split; [reflexivity|]. split; [reflexivity|]. unfold limited_chronicle. cbn [In]. repeat first [left; reflexivity|right]. Qed.
Example limited_open : stream_open 3 (chronicle limited) /\ ~ stream_open 1 (chronicle limited).
Proof.
  assert (B : forall Q : citem -> bool, existsb Q limited_chronicle = false -> forall i, In i limited_chronicle -> Q i = false).
  { intros Q E i Hi. destruct (Q i) eqn:W; [|reflexivity]. exfalso. rewrite (proj2 (existsb_exists Q limited_chronicle) (ex_intro _ i (conj Hi W))) in E. discriminate. }
  rewrite limited_eq. split.
  - split; [exists 9, get; unfold limited_chronicle; cbn [In]; repeat first [left; reflexivity|right]|]. split; [|split].
    + intros (f & H & _ & c & C). apply (B (fun i => match i with LOut g => match fr_pl g with PRst _ => true | _ => false end | _ => false end) eq_refl) in H. cbn beta iota in H. rewrite C in H. discriminate.
    + intros (f & H & _ & c & C). apply (B (fun i => match i with LIn g => match fr_pl g with PRst _ => true | _ => false end | _ => false end) eq_refl) in H. cbn beta iota in H. rewrite C in H. discriminate.
    + intros [(f & H & M & _) _]. apply (B (fun i => match i with LIn g => message_frame 3 g | _ => false end) eq_refl) in H. cbn beta iota in H. congruence.
  - intros (_ & _ & _ & H). apply H. split.
    + exists (fr T_HEADERS 5 1 (PHeaders [136] None)). split; [unfold limited_chronicle; cbn [In]; repeat first [left; reflexivity|right]|split; reflexivity].
    + destruct (frames_sent 1 limited_chronicle) as [|f l] eqn:E; [discriminate E|]. exists f. assert (IF : In f (frames_sent 1 limited_chronicle)) by (rewrite E; left; reflexivity).
      apply frames_in in IF as [I1 I2]. split; [exact I1|]. split; [exact I2|]. vm_compute in E. injection E as <- _. reflexivity.
Qed.

(** ** What does not hold *)
Definition answered (k : N) (l : list citem) : Prop := exists app r c, In (LResp k app r c) l.
Definition answered_b (k : N) (l : list citem) : bool := existsb (fun i => match i with LResp j _ _ _ => j =? k | _ => false end) l.
Lemma not_answered k l : answered_b k l = false -> ~ answered k l.
Proof. intros H (a & r & c & I). unfold answered_b in H. assert (T : answered_b k l = true) by (apply existsb_exists; eexists; split; [exact I|cbv beta iota; apply N.eqb_refl]). unfold answered_b in T. congruence. Qed.

(** Interim responses (RFC 9113 8.1) are not understood: 103 followed by 200 is reset (client.h:2094-2100). *)
Definition interim : list cevent := [send get 7; headers 4 1 [8; 3; 49; 48; 51]; headers 5 1 [136]].
Example interim_response_refuted : Forall event_ok interim /\ In (LErr 1 PROTOCOL_ERROR) (chronicle interim) /\ ~ answered 1 (chronicle interim).
Proof. split; [ev_ok|]. split; [vm_compute; tauto|apply not_answered; reflexivity]. Qed.
(** Trailers not announced by a Trailer field are reset (RFC 9110 6.5 does not require the announcement). *)
Definition trailed : list cevent := [send get 7; headers 4 1 [136]; data 0 1 (str "hi"); headers 5 1 [0; 1; 120; 1; 49]].
Example unannounced_trailers_refuted : Forall event_ok trailed /\ In (LErr 1 PROTOCOL_ERROR) (chronicle trailed) /\ ~ answered 1 (chronicle trailed).
Proof. split; [ev_ok|]. split; [vm_compute; tauto|apply not_answered; reflexivity]. Qed.
(** A stream ended by DATA before any HEADERS is dropped without a word to the application. *)
Definition lost : list cevent := [send get 7; data 1 1 (str "x")].
Example every_request_is_told_refuted : Forall event_ok lost /\ connection_open lost /\ cget (crun lost) 1 = None /\ notifications 1 (chronicle lost) = 0%nat.
Proof. split; [ev_ok|]. repeat split. Qed.
(** A response that ends before the request body is sent: the body is never finished and the stream is held for ever. *)
Definition early : list cevent := [settings [(4, 3)]; send post 7; headers 5 1 [136]; window 1 9].
Example early_response_refuted : Forall event_ok early /\ answered 1 (chronicle early) /\ body_octets (frames_sent 1 (chronicle early)) = str "hel" /\
  existsb has_end_stream (frames_sent 1 (chronicle early)) = false /\ ~ (exists f c, In (LOut f) (chronicle early) /\ fr_pl f = PRst c) /\ cactive_count (crun early) = 1.
Proof.
  split; [ev_ok|]. split; [exists 7; do 2 eexists; vm_compute; tauto|]. split; [reflexivity|]. split; [reflexivity|]. split; [|reflexivity].
  intros (f & c & I & E). assert (T : existsb (fun i => match i with LOut g => match fr_pl g with PRst _ => true | _ => false end | _ => false end) (chronicle early) = true) by (apply existsb_exists; eexists; split; [exact I|cbv beta iota; rewrite E; reflexivity]).
  vm_compute in T. discriminate.
Qed.
(** Data in flight on a stream the client has reset closes the whole connection, and with it every other request. *)
Definition inflight : list cevent := [send get 7; send get 8; headers 4 1 []; data 0 1 (str "x")].
Example late_data_refuted : Forall event_ok inflight /\ ~ connection_open inflight /\ notifications 3 (chronicle inflight) = 0%nat.
Proof. split; [ev_ok|]. split; [vm_compute; discriminate|reflexivity]. Qed.
(** Announced trailers are never sent when the body goes out at once: the request never ends. *)
Definition with_trailers : crequest := mk_crq (str "POST") [] (str "h") [] (str "/p") [] [(str "trailer", [str "x"]); (str "x", [str "1"])] (str "hello").
Example announced_trailers_refuted : Forall event_ok [send with_trailers 7] /\ map payload_octets (frames_sent 1 (chronicle [send with_trailers 7])) = [[]; str "hello"] /\
  existsb has_end_stream (frames_sent 1 (chronicle [send with_trailers 7])) = false /\ option_map cs_pend (cget (crun [send with_trailers 7]) 1) = Some false.
Proof. split; [ev_ok|]. repeat split. Qed.
(** send_request_trailers ends the request in the middle of its body. *)
Definition cut : list cevent := [settings [(4, 3)]; send with_trailers 7; CApp (CTrailers 1 [(str "x", [str "1"])]) []].
Example trailers_call_refuted : In (LReq 1 7 with_trailers) (chronicle cut) /\ ~ transmits with_trailers (frames_sent 1 (chronicle cut)).
Proof.
  split; [vm_compute; tauto|]. intros (_ & _ & T).
  assert (B : forall f, In f (frames_sent 1 (chronicle cut)) -> has_end_stream f = true -> body_octets (frames_sent 1 (chronicle cut)) = q_body with_trailers) by (intros f I E; apply in_split in I as (a & b & Q); exact (proj2 (T _ _ _ Q E))).
  specialize (B (nth 2 (frames_sent 1 (chronicle cut)) (fr 0 0 0 (PCont [])))). assert (X : body_octets (frames_sent 1 (chronicle cut)) = str "hel") by reflexivity. rewrite X in B.
  discriminate B; vm_compute; tauto.
Qed.
(** A GOAWAY that abandons a request half answered delivers the truncated response with the error code NO_ERROR. *)
Definition abandoned : list cevent := [send get 7; headers 4 1 [136]; data 0 1 (str "par"); CFrame (fr T_GOAWAY 0 0 (PGoaway 0 0 [])) [] o].
Example complete_response_refuted : Forall event_ok abandoned /\ In (LResp 1 7 (mk_crs 200 [] (str "par")) NO_ERROR) (chronicle abandoned) /\ ~ ended 1 (chronicle abandoned).
Proof.
  split; [ev_ok|]. split; [vm_compute; tauto|]. intros (f & I & M & E).
  assert (T : existsb (fun i => match i with LIn g => message_frame 1 g && has_end_stream g | _ => false end) (chronicle abandoned) = true) by (apply existsb_exists; eexists; split; [exact I|cbv beta iota; rewrite M, E; reflexivity]).
  vm_compute in T. discriminate.
Qed.
(** The SETTINGS acknowledgement is written after GOAWAY when the new window overflows. *)
Definition overflow : list cevent := [send post 7; window 1 10; settings [(4, 2147483647)]].
Example silence_after_goaway_refuted : Forall event_ok overflow /\ exists last, firstn 3 (chronicle overflow) =
  [LOut (mk_frame (mk_h T_SETTINGS FLAG_ACK 0) (PSettings [])); LBye FLOW_CONTROL_ERROR last; LOut (mk_frame (mk_h T_GOAWAY 0 0) (PGoaway last FLOW_CONTROL_ERROR []))].
Proof. split; [ev_ok|]. exists 1. reflexivity. Qed.
Print Assumptions client_respects_send_windows.
Print Assumptions client_header_frames_fit.
Print Assumptions client_transmits_request.
Print Assumptions client_tells_at_most_once.
Print Assumptions client_response_faithful.
Print Assumptions client_credit_earned.
Print Assumptions client_stream_window.
Print Assumptions client_replies_bounded.
Print Assumptions client_header_block_bounded.
Print Assumptions client_stored_block_bounded.
Print Assumptions client_quiet_after_goaway.
Print Assumptions client_one_goaway.
Print Assumptions client_closed_is_inert.
Print Assumptions client_fresh_streams.
Print Assumptions client_silent_after_reset.
Print Assumptions client_no_undefined_behaviour.
Print Assumptions client_refuses_push.
Print Assumptions client_within_stream_limit.
Print Assumptions client_open_streams_bounded.
