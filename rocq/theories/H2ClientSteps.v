(** Decomposition of the client of H2ClientModel into elementary steps.  Every handler is shown to be a
    sequence of these (H2ClientHandlers); invariants are then proved step by step.  Nothing here is part of a
    theorem's statement. *)
From Verif Require Import Base UtilModel UtilSpec UtilProofs HpackTables HpackModel HpackSpec DynTableProofs HpackCodecProofs HpackConnProofs
  H2Model H2Proofs H2FieldModel H2FieldSpec H2FieldProps H2ClientModel H2ClientSpec.
From Verif Require H2ServerSteps.
Local Open Scope N_scope.

Ltac cl := cbn [cl_streams cl_next cl_last cl_frag cl_hsid cl_csend cl_crecv cl_cproc cl_ipeer cl_pmcs cl_active cl_rga cl_ctl cl_contn cl_dec cl_enc cl_pmax cl_ok cl_script cl_log cl_ub set_cl_streams set_cl_next set_cl_last set_cl_frag set_cl_hsid set_cl_csend set_cl_crecv set_cl_cproc set_cl_ipeer set_cl_pmcs set_cl_active set_cl_rga set_cl_ctl set_cl_contn set_cl_dec set_cl_enc set_cl_pmax set_cl_ok set_cl_script set_cl_log set_cl_ub cnote cemit cerase cget].
Ltac clh H := cbn [cl_streams cl_next cl_last cl_frag cl_hsid cl_csend cl_crecv cl_cproc cl_ipeer cl_pmcs cl_active cl_rga cl_ctl cl_contn cl_dec cl_enc cl_pmax cl_ok cl_script cl_log cl_ub set_cl_streams set_cl_next set_cl_last set_cl_frag set_cl_hsid set_cl_csend set_cl_crecv set_cl_cproc set_cl_ipeer set_cl_pmcs set_cl_active set_cl_rga set_cl_ctl set_cl_contn set_cl_dec set_cl_enc set_cl_pmax set_cl_ok set_cl_script set_cl_log set_cl_ub cnote cemit cerase cget] in H.
Ltac cs := cbn [cs_state cs_local cs_peer cs_proc cs_endr cs_ends cs_rstr cs_rsts cs_err cs_main cs_texp cs_trecv cs_cont cs_clen cs_status cs_hdrs cs_body cs_app cs_method cs_disp cs_wtrail cs_pend cs_req cs_off cs_tnames set_cs_state set_cs_local set_cs_peer set_cs_proc set_cs_endr set_cs_ends set_cs_rstr set_cs_rsts set_cs_err set_cs_main set_cs_texp set_cs_trecv set_cs_cont set_cs_clen set_cs_status set_cs_hdrs set_cs_body set_cs_app set_cs_method set_cs_disp set_cs_wtrail set_cs_pend set_cs_req set_cs_off set_cs_tnames].
Ltac csh H := cbn [cs_state cs_local cs_peer cs_proc cs_endr cs_ends cs_rstr cs_rsts cs_err cs_main cs_texp cs_trecv cs_cont cs_clen cs_status cs_hdrs cs_body cs_app cs_method cs_disp cs_wtrail cs_pend cs_req cs_off cs_tnames set_cs_state set_cs_local set_cs_peer set_cs_proc set_cs_endr set_cs_ends set_cs_rstr set_cs_rsts set_cs_err set_cs_main set_cs_texp set_cs_trecv set_cs_cont set_cs_clen set_cs_status set_cs_hdrs set_cs_body set_cs_app set_cs_method set_cs_disp set_cs_wtrail set_cs_pend set_cs_req set_cs_off set_cs_tnames] in H.

(** ** The stream map *)
Lemma find_put l sid y k : find_cs (put_cs l sid y) k =
  if k =? sid then match find_cs l sid with Some _ => Some y | None => None end else find_cs l k.
Proof.
  induction l as [|[j z] l IH]; cbn [find_cs put_cs]; [destruct (k =? sid); reflexivity|].
  destruct (N.eqb_spec j sid) as [EJ|NE]; [subst j|]; cbn [find_cs].
  - destruct (N.eqb_spec k sid) as [EK|NK]; [subst k|]; [rewrite N.eqb_refl; reflexivity|].
    rewrite (proj2 (N.eqb_neq sid k)) by congruence. reflexivity.
  - rewrite IH. destruct (N.eqb_spec k sid) as [EK|NK]; [subst k|]; [|reflexivity].
    rewrite (proj2 (N.eqb_neq j sid)) by congruence. reflexivity.
Qed.
Lemma find_del l sid k : find_cs (del_cs l sid) k = if k =? sid then None else find_cs l k.
Proof.
  unfold del_cs. induction l as [|[j x] l IH]; cbn [find_cs filter fst]; [destruct (k =? sid); reflexivity|].
  destruct (N.eqb_spec j sid) as [EJ|NE]; [subst j|]; cbn [negb find_cs].
  - rewrite IH. destruct (N.eqb_spec k sid) as [EK|NK]; [subst k|]; [reflexivity|]. rewrite (proj2 (N.eqb_neq sid k)) by congruence. reflexivity.
  - rewrite IH. destruct (N.eqb_spec k sid) as [EK|NK]; [subst k|]; [|reflexivity]. rewrite (proj2 (N.eqb_neq j sid)) by congruence. reflexivity.
Qed.
Lemma find_cons j x l k : find_cs ((j, x) :: l) k = if k =? j then Some x else find_cs l k.
Proof. cbn [find_cs]. rewrite N.eqb_sym. reflexivity. Qed.
Lemma put_put l sid x y : put_cs (put_cs l sid x) sid y = put_cs l sid y.
Proof. induction l as [|[k z] l IH]; [reflexivity|]. cbn [put_cs]. destruct (k =? sid) eqn:E; cbn [put_cs]; rewrite E; congruence. Qed.
Lemma del_put l sid x : del_cs (put_cs l sid x) sid = del_cs l sid.
Proof.
  unfold del_cs. induction l as [|[k z] l IH]; [reflexivity|]. cbn [put_cs]. destruct (k =? sid) eqn:E; cbn [filter fst]; rewrite E; cbn [negb]; [reflexivity|].
  rewrite IH. reflexivity.
Qed.
Lemma del_cons_same l sid x : find_cs l sid = None -> del_cs ((sid, x) :: l) sid = l.
Proof.
  intros H. unfold del_cs. cbn [filter fst]. rewrite N.eqb_refl. cbn [negb].
  induction l as [|[k z] l IH]; [reflexivity|]. cbn [find_cs] in H. cbn [filter fst]. destruct (k =? sid); [discriminate|]. cbn [negb]. rewrite IH; auto.
Qed.
Lemma put_cons_same l sid x y : put_cs ((sid, x) :: l) sid y = (sid, y) :: l.
Proof. cbn [put_cs]. rewrite N.eqb_refl. reflexivity. Qed.
Lemma put_self l sid x : find_cs l sid = Some x -> put_cs l sid x = l.
Proof.
  induction l as [|[k z] l IH]; intros H; [reflexivity|]. cbn [find_cs put_cs] in *. destruct (k =? sid).
  - injection H as ->. reflexivity.
  - rewrite IH; auto.
Qed.
Lemma find_in l k x : find_cs l k = Some x -> In (k, x) l.
Proof.
  induction l as [|[j z] l IH]; cbn [find_cs]; [discriminate|]. destruct (j =? k) eqn:E; intros H.
  - injection H as ->. apply N.eqb_eq in E. subst. left; auto.
  - right; auto.
Qed.
Lemma find_shift d l k : find_cs (map (cshift d) l) k = option_map (fun x => snd (cshift d (k, x))) (find_cs l k).
Proof.
  induction l as [|[j z] l IH]; [reflexivity|]. cbn [map]. assert (F : fst (cshift d (j, z)) = j) by (unfold cshift; cbn [fst]; destruct (N.odd j); reflexivity).
  destruct (cshift d (j, z)) as [j' z'] eqn:E. cbn [fst] in F. subst j'. cbn [find_cs]. destruct (N.eqb_spec j k) as [->|NE]; [|exact IH].
  cbn [option_map]. rewrite E. reflexivity.
Qed.
Global Hint Rewrite find_put find_del find_cons find_shift : clf.

Definition addlog (l : list citem) (s : client) : client := set_cl_log (l ++ cl_log s) s.
Definition setst (sid : N) (y : cstream) (s : client) : client := set_cl_streams (put_cs (cl_streams s) sid y) s.
Lemma cupd_some s sid x g : cget s sid = Some x -> cupd sid g s = setst sid (g x) s.
Proof. intros H. unfold cupd. rewrite H. reflexivity. Qed.
Lemma setst_setst sid x y s : setst sid y (setst sid x s) = setst sid y s.
Proof. unfold setst. cl. rewrite put_put. destruct s; reflexivity. Qed.
Lemma cerase_setst sid x s : cerase sid (setst sid x s) = cerase sid s.
Proof. unfold setst, cerase. cl. rewrite del_put. destruct s; reflexivity. Qed.
Lemma cget_setst s sid x y : cget s sid = Some x -> cget (setst sid y s) sid = Some y.
Proof. unfold cget, setst. cl. intros H. rewrite find_put, N.eqb_refl, H. reflexivity. Qed.

(** ** What a stream context says about the chronicle *)
Definition resp_ok (k : N) (x : cstream) (l : list citem) : Prop :=
  (exists q, In (LReq k (cs_app x) q) l /\ cs_method x = q_method q) /\
  cs_body x = body_received k l /\
  cs_hdrs x = flat_map regular_fields (blocks k l) /\
  (cs_main x = true -> (exists fs rest, blocks k l = fs :: rest /\ has_status fs (cs_status x)) /\ 100 <= cs_status x <= 999) /\
  (cs_main x = false -> blocks k l = []) /\
  (forall v, In (str "content-length", v) (cs_hdrs x) -> exists n, parse_content_length v = Some n /\ cs_clen x = Some n) /\
  (cs_endr x = true -> ended k l).

(** ** Elementary steps *)
Definition crst_frame (sid code : N) : frame := mk_frame (mk_h T_RST_STREAM 0 sid) (PRst code).
Definition cwu_frame (sid inc : N) : frame := mk_frame (mk_h T_WINDOW_UPDATE 0 sid) (PWindow inc).
Definition cgoaway_frame (last code : N) : frame := mk_frame (mk_h T_GOAWAY 0 0) (PGoaway last code []).
Definition csettings_ack : frame := mk_frame (mk_h T_SETTINGS FLAG_ACK 0) (PSettings []).
Definition ctrailer_frame (sid : N) (block : list N) : frame :=
  mk_frame (mk_h T_HEADERS (N.lor FLAG_END_HEADERS FLAG_END_STREAM) sid) (PHeaders block None).

Definition quiet_in (f : frame) (s : client) : Prop :=
  match fr_pl f with
  | PData _ _ | PCont _ | PGoaway _ _ _ => False
  | PWindow _ => stream_of f <> 0 /\ cget s (stream_of f) = None /\ (N.odd (stream_of f) = true -> stream_of f <= cl_last s)
  | _ => True
  end.
Definition same_flags (x y : cstream) : Prop := cs_rsts y = cs_rsts x /\ cs_rstr y = cs_rstr x /\ cs_disp y = cs_disp x.
(** [s'] differs from [s] in ways that do not matter once the connection is over. *)
Record dext (s s' : client) : Prop := mk_dext {
  dx_streams : forall k, match cget s k, cget s' k with None, None => True | Some x, Some y => same_flags x y | _, _ => False end;
  dx_next : cl_next s' = cl_next s; dx_last : cl_last s' = cl_last s; dx_rga : cl_rga s' = cl_rga s;
  dx_enc : exists t, dwf (enc_table (cl_enc s')) t; dx_dec : H2ServerSteps.dec_ok (cl_dec s'); dx_frag : bytes_ok (cl_frag s');
  dx_ub : cl_ub s' = cl_ub s; dx_script : cl_script s' = cl_script s; dx_ctl : cl_ctl s <= cl_ctl s' }.
Definition pre_ok (pre : list citem) : Prop :=
  pre = [] \/ (exists f, pre = [LIn f] /\ forall a b c, fr_pl f <> PGoaway a b c) \/ (exists v, pre = [LSet 4 v]).
Definition benign (sid : N) (l : list citem) (x y : cstream) : Prop :=
  cs_local y = cs_local x /\ cs_peer y = cs_peer x /\ cs_proc y = cs_proc x /\ cs_body y = cs_body x /\ cs_app y = cs_app x /\
  cs_req y = cs_req x /\ cs_off y = cs_off x /\ cs_ends y = cs_ends x /\ cs_disp y = cs_disp x /\ cs_rsts y = cs_rsts x /\
  cs_main y = cs_main x /\ cs_status y = cs_status x /\ cs_clen y = cs_clen x /\ cs_hdrs y = cs_hdrs x /\ cs_method y = cs_method x /\
  (cs_rstr x = true -> cs_rstr y = true) /\ (cs_endr y = true -> cs_endr x = true \/ ended sid l).

(** The state of a stream says which sides have ended. *)
Definition st_ok (x : cstream) : Prop :=
  match cs_state x with
  | OPEN => True
  | HALF_CLOSED_LOCAL => cs_ends x = true
  | HALF_CLOSED_REMOTE => cs_endr x = true
  | CLOSED => (cs_ends x = true /\ cs_endr x = true) \/ cs_rstr x = true
  | _ => False
  end.
Definition steady (s : client) (sid : N) (x y : cstream) : Prop :=
  (st_ok x -> st_ok y) /\ (cs_rstr y = true -> cs_rstr x = true \/ reset_received sid (cl_log s) \/ cl_rga s = true).
(** The context of a stream just opened for request [r]. *)
Definition opened (r : crequest) (app : N) (s : client) : cstream :=
  let has_body := negb (no_bytes (q_body r)) in
  let fin := negb has_body && negb (q_wtrail r) in
  let x := set_cs_state (if fin then HALF_CLOSED_LOCAL else OPEN) (set_cs_ends fin
             (set_cs_tnames (q_tnames r) (set_cs_wtrail (q_wtrail r) (set_cs_method (q_method r) (set_cs_app app
                 (new_cstream (Z.of_N (cl_ipeer s)) 65535)))))) in
  set_cs_pend has_body (if has_body || q_wtrail r then set_cs_off 0%nat (set_cs_req r x) else x).
Definition open_flags (r : crequest) : N := if negb (negb (no_bytes (q_body r))) && negb (q_wtrail r) then FLAG_END_STREAM else 0.

Definition sent_chunk (n : nat) (fin : bool) (x : cstream) : cstream :=
  let y := set_cs_peer (cs_peer x - Z.of_nat n)%Z (set_cs_off (cs_off x + n)%nat x) in
  if fin then set_cs_ends true y else y.
Definition got_data (d : list N) (size : N) (x : cstream) : cstream :=
  set_cs_body (cs_body x ++ d) (set_cs_proc (cs_proc x + size) (set_cs_local (cs_local x - Z.of_N size)%Z x)).

Inductive mv (s : client) : client -> Prop :=
| m_script v : (Forall (Forall is_send) (cl_script s) -> Forall (Forall is_send) v) -> mv s (set_cl_script v s)
| m_refuse app : mv s (cnote (LRefuse app) s)
| m_bye code last : mv s (cnote (LBye code last) s)
| m_in f : calive s = true -> quiet_in f s -> mv s (cnote (LIn f) s)
| m_goaway f a b c : fr_pl f = PGoaway a b c -> calive s = true -> mv s (set_cl_rga true (cnote (LIn f) s))
| m_die s' pre last code : calive s = true -> pre_ok pre -> cl_log s' = LBye code last :: LOut (cgoaway_frame last code) :: pre ++ cl_log s ->
    cl_ok s' = true -> cl_active s' = false -> dext s s' -> mv s s'
| m_dead s' : calive s = false -> cl_log s' = cl_log s -> cl_ok s' = cl_ok s -> cl_active s' = cl_active s -> dext s s' -> mv s s'
| m_set_dead id v : cl_ok s = false -> mv s (cnote (LSet id v) s)
| m_ack_dead c : cl_ok s = false -> c <= 1000 -> cl_ctl s + 1 = c -> mv s (cemit csettings_ack (set_cl_ctl c s))
| m_mark pre sid code x : calive s = true -> cget s sid = Some x -> cs_rsts x = false ->
    (pre = [] \/ exists f, pre = [LIn f] /\ stream_of f = sid /\ match fr_pl f with PData _ _ | PWindow _ => True | _ => False end) ->
    (cs_disp x = false -> notifications sid (cl_log s) = 0%nat) ->
    mv s (setst sid (set_cs_err code (set_cs_rsts true x))
           (addlog ((if cs_disp x then [] else [LErr sid code]) ++ LOut (crst_frame sid code) :: pre) s))
| m_rst_unknown sid code : calive s = true -> cget s sid = None -> (N.odd sid = true -> sid <= cl_last s) -> sid < 2 ^ 31 -> mv s (cemit (crst_frame sid code) s)
| m_rstin sid code x y : cget s sid = Some x -> cs_disp x = false -> notifications sid (cl_log s) = 0%nat -> benign sid (cl_log s) x y -> cs_rstr y = true -> steady s sid x y ->
    mv s (setst sid y (cnote (LErr sid code) s))
| m_data f d pad x : fr_pl f = PData d pad -> calive s = true -> cget s (stream_of f) = Some x -> cs_rsts x = false ->
    (Z.of_N (clen d + pad) <= cs_local x)%Z -> (Z.of_N (clen d + pad) <= cl_crecv s)%Z ->
    mv s (setst (stream_of f) (got_data d (clen d + pad) x)
           (set_cl_ctl 0 (set_cl_cproc (cl_cproc s + (clen d + pad)) (set_cl_crecv (cl_crecv s - Z.of_N (clen d + pad))%Z (cnote (LIn f) s)))))
| m_unknown f d pad out : fr_pl f = PData d pad -> calive s = true -> cget s (stream_of f) = None ->
    N.odd (stream_of f) = false -> (out = [] \/ out = [LOut (crst_frame (stream_of f) STREAM_CLOSED)]) ->
    mv s (set_cl_cproc (cl_cproc s + (clen d + pad)) (set_cl_crecv (cl_crecv s - Z.of_N (clen d + pad))%Z (addlog (out ++ [LIn f]) s)))
| m_credit0 : calive s = true ->
    mv s (set_cl_cproc 0 (set_cl_crecv (cl_crecv s + Z.of_N (cl_cproc s))%Z (csend_wu 0 (cl_cproc s) s)))
| m_credit sid x : calive s = true -> cget s sid = Some x -> cs_rsts x = false -> 0 < cs_proc x <= 2147483647 ->
    mv s (setst sid (set_cs_proc 0 (set_cs_local (cs_local x + Z.of_N (cs_proc x))%Z x)) (cemit (cwu_frame sid (cs_proc x)) s))
| m_wu0 f inc : fr_pl f = PWindow inc -> calive s = true -> stream_of f = 0 -> mv s (set_cl_csend (cl_csend s + Z.of_N inc)%Z (cnote (LIn f) s))
| m_wu f inc x : fr_pl f = PWindow inc -> calive s = true -> stream_of f <> 0 -> cget s (stream_of f) = Some x ->
    mv s (setst (stream_of f) (set_cs_peer (cs_peer x + Z.of_N inc)%Z x) (cnote (LIn f) s))
| m_upd sid x y : cget s sid = Some x -> benign sid (cl_log s) x y -> steady s sid x y -> mv s (setst sid y s)
| m_resp sid x : cget s sid = Some x -> cs_disp x = false -> cs_main x = true -> notifications sid (cl_log s) = 0%nat ->
    resp_ok sid x (cl_log s) -> clen (cs_body x) <= C_MAX_BODY -> length_mismatch x = false ->
    (cs_endr x = true \/ cl_rga s = true) ->
    mv s (set_cl_ctl 0 (setst sid (set_cs_disp true x)
      (cnote (LResp sid (cs_app x) (mk_crs (cs_status x) (cs_hdrs x) (cs_body x)) (if cs_rstr x then cs_err x else NO_ERROR)) s)))
| m_erase sid : (cl_rga s = false -> forall x, cget s sid = Some x -> in_state (cs_state x) CLOSED || cs_rsts x || cs_rstr x = true) -> mv s (cerase sid s)
| m_skip e : calive s = true -> (exists t, dwf (enc_table e) t) -> mv s (set_cl_enc e (set_cl_last (cl_next s) (set_cl_next (cl_next s + 2) s)))
| m_open r app e block : calive s = true -> cl_rga s = false -> cactive_count s < cl_pmcs s -> encode (cl_enc s) (q_head r) = Some (e, block, true) ->
    mv s (set_cl_streams ((cl_next s, opened r app s) :: cl_streams s)
          (addlog (rev (map LOut (send_headers (cl_next s) (open_flags r) (cl_pmax s) block)) ++ [LReq (cl_next s) app r])
            (set_cl_enc e (set_cl_last (cl_next s) (set_cl_next (cl_next s + 2) s)))))
| m_chunk sid x n fin : calive s = true -> cget s sid = Some x -> cs_rsts x = false -> (0 < n)%nat -> (cs_off x + n <= length (q_body (cs_req x)))%nat ->
    N.of_nat n <= cl_pmax s -> (Z.of_nat n <= cl_csend s)%Z -> (Z.of_nat n <= cs_peer x)%Z ->
    (fin = true -> (cs_off x + n = length (q_body (cs_req x)))%nat) ->
    mv s (setst sid (sent_chunk n fin x) (set_cl_csend (cl_csend s - Z.of_nat n)%Z
           (cemit (cdata_frame sid (q_body (cs_req x)) (cs_off x) n fin) s)))
| m_trailers sid x block e : calive s = true -> cget s sid = Some x -> cs_rsts x = false -> cs_ends x = false ->
    cs_off x = length (q_body (cs_req x)) -> (exists t, dwf (enc_table e) t) ->
    mv s (setst sid (set_cs_ends true x) (cemit (ctrailer_frame sid block) (set_cl_enc e s)))
| m_set id v s' : calive s = true -> validate_setting id v = None -> id <> 4 ->
    s' = (if id =? 1 then match enc_set_peer_max (cl_enc s) v with None => s | Some e => set_cl_enc e s end
          else if id =? 3 then set_cl_pmcs v s else if id =? 5 then set_cl_pmax (clamp_peer_max_frame_size v) s else s) ->
    mv s (cnote (LSet id v) s')
| m_set4 v : calive s = true -> v <= 2147483647 ->
    mv s (set_cl_streams (map (cshift (Z.of_N v - Z.of_N (cl_ipeer s))) (cl_streams s)) (set_cl_ipeer v (cnote (LSet 4 v) s)))
| m_reply f : calive s = true -> is_ack_reply f = true -> (fr_pl f = PSettings [] \/ exists o, fr_pl f = PPing o) -> cl_ctl s + 1 <= 1000 ->
    mv s (cemit f (set_cl_ctl (cl_ctl s + 1) s))
| m_hdr frag hsid contn dec : calive s = true -> clen frag <= C_MAX_HEADER_BLOCK -> bytes_ok frag -> H2ServerSteps.dec_ok dec ->
    (hsid = 0 \/ (continuations (cl_log s) = 0 /\ continuation_octets (cl_log s) <= clen frag) \/ (hsid = cl_hsid s /\ contn = cl_contn s /\ frag = cl_frag s)) -> hsid <= cl_last s ->
    mv s (set_cl_dec dec (set_cl_contn contn (set_cl_hsid hsid (set_cl_frag frag s))))
| m_cont f b : fr_pl f = PCont b -> calive s = true -> cl_hsid s <> 0 -> cl_contn s + 1 <= C_MAX_CONT -> clen (cl_frag s ++ b) <= C_MAX_HEADER_BLOCK -> bytes_ok b ->
    mv s (set_cl_frag (cl_frag s ++ b) (set_cl_contn (cl_contn s + 1) (cnote (LIn f) s)))
| m_block sid x fs y : calive s = true -> cget s sid = Some x -> cs_rsts x = false -> parse_response_head x fs (cs_main x) = inr y ->
    mv s (setst sid (set_cs_main true y) (cnote (LBlock sid fs) s))
| m_notok : mv s (set_cl_ok false s)
| m_enc e : calive s = true -> (exists t, dwf (enc_table e) t) -> mv s (set_cl_enc e s).

Inductive mvs : client -> client -> Prop :=
| ms_nil s : mvs s s
| ms_cons s s1 s2 : mv s s1 -> mvs s1 s2 -> mvs s s2.
Lemma ms_one s s' : mv s s' -> mvs s s'.
Proof. intros H. eapply ms_cons; [exact H|constructor]. Qed.
Lemma ms_app s s1 s2 : mvs s s1 -> mvs s1 s2 -> mvs s s2.
Proof. induction 1; auto. intros. eapply ms_cons; eauto. Qed.

(** ** Well-formed states *)
Record wf (s : client) : Prop := mk_wf {
  w_enc : exists t, dwf (enc_table (cl_enc s)) t;
  w_dec : H2ServerSteps.dec_ok (cl_dec s);
  w_frag : bytes_ok (cl_frag s);
  w_ub : cl_ub s = false;
  w_next : N.odd (cl_next s) = true /\ cl_last s < cl_next s /\ (cl_last s + 2 = cl_next s \/ cl_next s = 1);
  w_key : forall k x, cget s k = Some x -> N.odd k = true /\ k <= cl_last s;
  w_fresh : forall k, cl_next s <= k -> notifications k (cl_log s) = 0%nat;
  w_told : forall k x, cget s k = Some x -> cs_rsts x = false -> cs_rstr x = false -> cs_disp x = false -> notifications k (cl_log s) = 0%nat;
  w_win : calive s = true -> forall k x, cget s k = Some x -> cs_rsts x = false -> (cs_local x + Z.of_N (cs_proc x) = 65535 /\ 0 <= cs_local x)%Z;
  w_off : calive s = true -> forall k x, cget s k = Some x ->
    (cs_off x <= length (q_body (cs_req x)))%nat /\ (cs_ends x = true -> cs_off x = length (q_body (cs_req x)));
  w_frag_len : calive s = true -> clen (cl_frag s) <= C_MAX_HEADER_BLOCK;
  w_script : Forall (Forall is_send) (cl_script s);
  w_hsid : calive s = true -> cl_hsid s <= cl_last s
}.

Lemma notif_cons k i l : notifications k (i :: l) = ((if tells k i then 1 else 0) + notifications k l)%nat.
Proof. unfold notifications. cbn [filter]. destruct (tells k i); reflexivity. Qed.
Lemma notif_app k l1 l2 : notifications k (l1 ++ l2) = (notifications k l1 + notifications k l2)%nat.
Proof. unfold notifications. rewrite filter_app, app_length. reflexivity. Qed.
Lemma notif_outs k fs : notifications k (rev (map LOut fs)) = 0%nat.
Proof. induction fs as [|f fs IH]; [reflexivity|]. cbn [map rev]. rewrite notif_app, IH. reflexivity. Qed.
Lemma notif_pre k pre : pre_ok pre -> notifications k pre = 0%nat.
Proof. intros [->|[(f & -> & _)|(v & ->)]]; reflexivity. Qed.
Lemma calive_ok s : calive s = true -> cl_ok s = true /\ cl_active s = true.
Proof. unfold calive. intros H. apply andb_true_iff in H. exact H. Qed.

Lemma parse_same x fs t y : parse_response_head x fs t = inr y ->
  cs_local y = cs_local x /\ cs_peer y = cs_peer x /\ cs_proc y = cs_proc x /\ cs_body y = cs_body x /\ cs_app y = cs_app x /\
  cs_req y = cs_req x /\ cs_off y = cs_off x /\ cs_ends y = cs_ends x /\ cs_disp y = cs_disp x /\ cs_rsts y = cs_rsts x /\
  cs_method y = cs_method x /\ cs_rstr y = cs_rstr x /\ cs_endr y = cs_endr x /\ cs_main y = cs_main x /\ cs_state y = cs_state x /\
  cs_texp y = cs_texp x /\ cs_trecv y = cs_trecv x /\ cs_cont y = cs_cont x /\ cs_pend y = cs_pend x /\ cs_wtrail y = cs_wtrail x.
Proof.
  unfold parse_response_head. intros H. destruct (negb _); [discriminate|]. destruct (_ && _); [discriminate|].
  destruct (resp_head _ _ _ _ _) as [c|p]; [discriminate|]. cbv zeta in H. destruct t.
  - injection H as <-. cs. repeat split.
  - destruct (no_bytes _); [discriminate|]. destruct (parse_status_code _); [|discriminate]. injection H as <-. cs. repeat split.
Qed.
Lemma csend_wu_cases sid inc s : csend_wu sid inc s = s \/ csend_wu sid inc s = cemit (cwu_frame sid inc) s /\ cl_ok s = true /\ 0 < inc <= 2147483647.
Proof.
  unfold csend_wu. destruct (cl_ok s) eqn:OK; cbn [negb orb]; [|auto].
  destruct (N.eqb_spec inc 0); cbn [orb]; [auto|]. destruct (N.ltb_spec 2147483647 inc); [auto|]. right. split; [reflexivity|]. split; [reflexivity|]. lia.
Qed.

(** Splits a hypothesis on the context of stream [k] in the next state. *)
Ltac findst G := unfold cget in *; clh G; autorewrite with clf in G;
  repeat match type of G with
  | context [?k =? ?j] => let EK := fresh "EK" in let NE := fresh "NE" in destruct (N.eqb_spec k j) as [EK|NE];
      [first [discriminate G
             |match goal with F : find_cs _ j = Some _ |- _ => rewrite F in G; injection G as <- end
             |injection G as <-
             |idtac]|]
  end.
Ltac fields := unfold setst, addlog, cemit, cnote, cerase in *; cl.

Ltac wtell := repeat rewrite ?notif_cons, ?notif_app, ?notif_outs; cbn [tells]; try reflexivity.

Lemma wf_ext s s' : wf s -> cl_streams s' = cl_streams s -> cl_enc s' = cl_enc s -> cl_dec s' = cl_dec s -> cl_frag s' = cl_frag s -> cl_ub s' = cl_ub s ->
  cl_next s' = cl_next s -> cl_last s' = cl_last s -> cl_script s' = cl_script s -> cl_hsid s' = cl_hsid s -> (calive s' = true -> calive s = true) ->
  (forall k, notifications k (cl_log s') = notifications k (cl_log s)) -> wf s'.
Proof.
  intros [] E1 E2 E3 E4 E5 E6 E7 ES EHS EA EN.
  assert (G : forall k, cget s' k = cget s k) by (intros; unfold cget; rewrite E1; reflexivity).
  constructor; rewrite ?E2, ?E3, ?E4, ?E5, ?E6, ?E7, ?ES, ?EHS; auto.
  - intros k x. rewrite G. eauto.
  - intros k. rewrite EN. auto.
  - intros k x. rewrite G, EN. eauto.
  - intros A k x. rewrite G. eauto.
  - intros A k x. rewrite G. eauto.
Qed.
Lemma wf_put s s' sid x y : wf s -> cget s sid = Some x -> cl_streams s' = put_cs (cl_streams s) sid y ->
  cl_enc s' = cl_enc s -> cl_dec s' = cl_dec s -> cl_frag s' = cl_frag s -> cl_ub s' = cl_ub s ->
  cl_next s' = cl_next s -> cl_last s' = cl_last s -> cl_script s' = cl_script s -> cl_hsid s' = cl_hsid s -> (calive s' = true -> calive s = true) ->
  (forall k, k <> sid -> notifications k (cl_log s') = notifications k (cl_log s)) ->
  (cs_rsts y = false -> cs_rstr y = false -> cs_disp y = false -> notifications sid (cl_log s') = 0%nat) ->
  (calive s' = true -> cs_rsts y = false -> (cs_local y + Z.of_N (cs_proc y) = 65535 /\ 0 <= cs_local y)%Z) ->
  (calive s' = true -> (cs_off y <= length (q_body (cs_req y)))%nat /\ (cs_ends y = true -> cs_off y = length (q_body (cs_req y)))) -> wf s'.
Proof.
  intros [] G E1 E2 E3 E4 E5 E6 E7 ES EHS EA EN HT HW HO.
  assert (P : forall k z, cget s' k = Some z -> (k = sid /\ z = y) \/ (k <> sid /\ cget s k = Some z)).
  { intros k z. unfold cget in *. rewrite E1, find_put, G. destruct (N.eqb_spec k sid); [intros H; injection H as <-; auto|auto]. }
  constructor; rewrite ?E2, ?E3, ?E4, ?E5, ?E6, ?E7, ?ES, ?EHS; auto.
  - intros k z Hk. destruct (P k z Hk) as [[-> ->]|[NE H]]; eauto.
  - intros k Hk. rewrite EN; [auto|]. intros ->. apply w_key0 in G. lia.
  - intros k z Hk R1 R2 R3. destruct (P k z Hk) as [[-> ->]|[NE H]]; [auto|]. rewrite EN by exact NE. eauto.
  - intros A k z Hk. destruct (P k z Hk) as [[-> ->]|[NE H]]; [auto|]. eapply w_win0; eauto.
  - intros A k z Hk. destruct (P k z Hk) as [[-> ->]|[NE H]]; [auto|]. eapply w_off0; eauto.
Qed.
Lemma wf_dext s s' : wf s -> dext s s' -> calive s' = false -> (forall k, notifications k (cl_log s') = notifications k (cl_log s)) -> wf s'.
Proof.
  intros [] [] A EN. constructor; rewrite ?A, ?dx_next0, ?dx_last0, ?dx_ub0, ?dx_script0; auto; try discriminate.
  - intros k y G. specialize (dx_streams0 k). rewrite G in dx_streams0. destruct (cget s k) eqn:E; [eauto|tauto].
  - intros k. rewrite EN. auto.
  - intros k y G R1 R2 R3. specialize (dx_streams0 k). rewrite G in dx_streams0. destruct (cget s k) as [x|] eqn:E; [|tauto].
    destruct dx_streams0 as (D1 & D2 & D3). rewrite EN. eapply w_told0; eauto; congruence.
Qed.

Lemma enc_some_wf e fs e' b ok : (exists t, dwf (enc_table e) t) -> encode e fs = Some (e', b, ok) -> exists t, dwf (enc_table e') t.
Proof. intros W H. destruct (H2ServerSteps.encode_total e fs W) as (e1 & o & k & EE & HT). rewrite H in EE. injection EE as <- <- <-. exact HT. Qed.
Lemma enc_peer_wf e m e' : (exists t, dwf (enc_table e) t) -> enc_set_peer_max e m = Some e' -> exists t, dwf (enc_table e') t.
Proof. intros W H. destruct (H2ServerSteps.enc_peer_total e m W) as (e1 & EE & HT). rewrite H in EE. injection EE as <-. exact HT. Qed.

Ltac neqb := repeat match goal with N : ?k <> ?sid |- context [?sid =? ?k] => rewrite (proj2 (N.eqb_neq sid k)) by congruence end.
Lemma mv_wf s s' : wf s -> mv s s' -> wf s'.
Proof.
  intros W H. pose proof W as [we wd wfr wu wn wk wfs wt ww wo wl wsc whs].
  destruct H.
  - constructor; auto.
  - eapply wf_ext; [exact W|..]; reflexivity || auto.
  - eapply wf_ext; [exact W|..]; reflexivity || auto.
  - eapply wf_ext; [exact W|..]; reflexivity || auto.
  - eapply wf_ext; [exact W|..]; reflexivity || auto.
  - eapply wf_dext; [exact W|assumption|unfold calive; rewrite H3; apply andb_false_r|]. intros k. rewrite H1. wtell. rewrite notif_pre by assumption. reflexivity.
  - eapply wf_dext; [exact W|assumption|unfold calive in *; rewrite H1, H2; assumption|]. intros k. rewrite H0. reflexivity.
  - eapply wf_ext; [exact W|..]; reflexivity || auto.
  - eapply wf_ext; [exact W|..]; reflexivity || auto.
  - (* mark *)
    eapply wf_put; [exact W|exact H0|reflexivity..|auto| | | |].
    + intros k NE. fields. wtell. destruct (cs_disp x); wtell; neqb; destruct H2 as [->|(f & -> & _)]; wtell.
    + cs. discriminate.
    + cs. discriminate.
    + intros A. apply (wo H sid x H0).
  - eapply wf_ext; [exact W|..]; reflexivity || auto.
  - eapply wf_put; [exact W|exact H|reflexivity..|auto| | | |].
    + intros k NE. fields. wtell. neqb. reflexivity.
    + congruence.
    + intros A R. destruct H2 as (B1 & B2 & B3 & B4 & B5 & B6 & B7 & B8 & B9 & B10 & _). rewrite B1, B3. apply (ww A sid x H). congruence.
    + intros A. destruct H2 as (B1 & B2 & B3 & B4 & B5 & B6 & B7 & B8 & B9 & B10 & _). rewrite B6, B7, B8. apply (wo A sid x H).
  - eapply wf_put; [exact W|exact H1|reflexivity..|auto| | | |].
    + intros k NE. fields. wtell.
    + intros R1 R2 R3. fields. wtell. exact (wt _ _ H1 R1 R2 R3).
    + intros A R. unfold got_data. cs. pose proof (ww H0 _ x H1 H2) as [A1 A2]. lia.
    + intros A. exact (wo H0 _ x H1).
  - eapply wf_ext; [exact W|..]; try reflexivity; auto. intros k. fields. wtell. destruct H3 as [-> | ->]; wtell.
  - destruct (csend_wu_cases 0 (cl_cproc s) s) as [->|[-> _]]; (eapply wf_ext; [exact W|..]; reflexivity || auto).
  - eapply wf_put; [exact W|exact H0|reflexivity..|auto| | | |].
    + intros k NE. fields. wtell.
    + intros R1 R2 R3. fields. wtell. exact (wt _ _ H0 R1 R2 R3).
    + intros A R. cs. pose proof (ww H _ x H0 H1) as [A1 A2]. lia.
    + intros A. exact (wo H _ x H0).
  - eapply wf_ext; [exact W|..]; reflexivity || auto.
  - eapply wf_put; [exact W|exact H2|reflexivity..|auto| | | |].
    + intros k NE. fields. wtell.
    + intros R1 R2 R3. fields. wtell. exact (wt _ _ H2 R1 R2 R3).
    + intros A R. exact (ww H0 _ x H2 R).
    + intros A. exact (wo H0 _ x H2).
  - destruct H0 as (B1 & B2 & B3 & B4 & B5 & B6 & B7 & B8 & B9 & B10 & B11 & B12 & B13 & B14 & B15 & B16 & B17).
    eapply wf_put; [exact W|exact H|reflexivity..|auto| | | |].
    + intros k NE. fields. wtell.
    + intros R1 R2 R3. fields. apply (wt _ _ H); [congruence| |congruence]. destruct (cs_rstr x) eqn:E; [rewrite (B16 eq_refl) in R2; discriminate|reflexivity].
    + intros A R. rewrite B1, B3. apply (ww A sid x H). congruence.
    + intros A. rewrite B6, B7, B8. apply (wo A sid x H).
  - eapply wf_put; [exact W|exact H|reflexivity..|auto| | | |].
    + intros k NE. fields. wtell. neqb. reflexivity.
    + cs. discriminate.
    + intros A R. exact (ww A sid x H R).
    + intros A. exact (wo A sid x H).
  - assert (P : forall k z, cget (cerase sid s) k = Some z -> cget s k = Some z).
    { intros k z G. unfold cerase in G. findst G. exact G. }
    constructor; auto; intros; try (eapply wk; eauto; fail); try (eapply wt; eauto; fail); try (eapply ww; eauto; fail); try (eapply wo; eauto; fail).
  - constructor; auto; fields; auto.
    + destruct wn as (O & L & D). rewrite N.odd_add, O. split; [reflexivity|]. lia.
    + intros k x G. apply wk in G. destruct wn. lia.
    + intros k L. apply wfs. lia.
    + intros _. destruct wn. specialize (whs H). lia.
  - destruct wn as (O & L & D).
    assert (P : forall k z, cget (set_cl_streams ((cl_next s, opened r app s) :: cl_streams s)
          (addlog (rev (map LOut (send_headers (cl_next s) (open_flags r) (cl_pmax s) block)) ++ [LReq (cl_next s) app r])
            (set_cl_enc e (set_cl_last (cl_next s) (set_cl_next (cl_next s + 2) s))))) k = Some z -> (k = cl_next s /\ z = opened r app s) \/ cget s k = Some z).
    { intros k z G. findst G; [left; auto|right; exact G]. }
    assert (NT : forall k, notifications k (rev (map LOut (send_headers (cl_next s) (open_flags r) (cl_pmax s) block)) ++ [LReq (cl_next s) app r]) = 0%nat)
      by (intros k; wtell).
    constructor; try assumption; fields; auto.
    + eapply enc_some_wf; eauto.
    + rewrite N.odd_add, O. split; [reflexivity|]. lia.
    + intros k z G. destruct (P k z G) as [[-> ->]|G1]; [split; [exact O|lia]|]. apply wk in G1. split; [tauto|lia].
    + intros k Lk. rewrite notif_app, NT. apply wfs. lia.
    + intros k z G R1 R2 R3. rewrite notif_app, NT. destruct (P k z G) as [[-> ->]|G1]; [apply wfs; lia|]. exact (wt _ _ G1 R1 R2 R3).
    + intros A k z G R. destruct (P k z G) as [[-> ->]|G1]; [|eapply ww; eauto]. unfold opened. destruct (_ || _); cbn; lia.
    + intros A k z G. destruct (P k z G) as [[-> ->]|G1]; [|eapply wo; eauto]. unfold opened. destruct (q_body r) as [|b0 b]; destruct (q_wtrail r) eqn:ET; cbn; split; try lia; try discriminate.
    + intros _. specialize (whs H). lia.
  - eapply wf_put; [exact W|exact H0|reflexivity..|auto| | | |].
    + intros k NE. fields. wtell.
    + intros R1 R2 R3. fields. wtell. unfold sent_chunk in *. destruct fin; csh R1; csh R2; csh R3; eapply wt; eauto.
    + intros A R. unfold sent_chunk in *. destruct fin; csh R; cs; exact (ww H _ x H0 R).
    + intros A. unfold sent_chunk. pose proof (wo H _ x H0) as [A1 A2]. destruct fin; cs; (split; [lia|]); [intros _; auto|]. intros E. specialize (A2 E). lia.
  - assert (W1 : wf (set_cl_enc e s)) by (constructor; auto).
    eapply wf_put; [exact W1|exact H0|reflexivity..|auto| | | |].
    + intros k NE. fields. wtell.
    + intros R1 R2 R3. fields. wtell. exact (wt _ _ H0 R1 R2 R3).
    + intros A R. exact (ww H _ x H0 R).
    + intros A. cs. pose proof (wo H _ x H0) as [A1 A2]. auto.
  - assert (W1 : wf s').
    { subst s'. destruct (id =? 1); [|destruct (id =? 3); [eapply wf_ext; [exact W|..]; reflexivity || auto|destruct (id =? 5); [eapply wf_ext; [exact W|..]; reflexivity || auto|exact W]]].
      destruct (enc_set_peer_max (cl_enc s) v) eqn:E; [|exact W]. constructor; auto. cl. eapply enc_peer_wf; eauto. }
    eapply wf_ext; [exact W1|..]; reflexivity || auto.
  - assert (P : forall k z, cget (set_cl_streams (map (cshift (Z.of_N v - Z.of_N (cl_ipeer s))) (cl_streams s)) (set_cl_ipeer v (cnote (LSet 4 v) s))) k = Some z ->
      exists x, cget s k = Some x /\ cs_rsts z = cs_rsts x /\ cs_rstr z = cs_rstr x /\ cs_disp z = cs_disp x /\ cs_local z = cs_local x /\ cs_proc z = cs_proc x
        /\ cs_off z = cs_off x /\ cs_req z = cs_req x /\ cs_ends z = cs_ends x).
    { intros k z G. unfold cget in *. clh G. rewrite find_shift in G. destruct (find_cs (cl_streams s) k) as [x|]; [|discriminate]. cbn [option_map] in G.
      injection G as <-. exists x. split; [reflexivity|]. unfold cshift. cbn [fst snd]. destruct (N.odd k); cbn [snd]; cs; repeat split. }
    constructor; try assumption; intros.
    + destruct (P _ _ H1) as (x1 & G & _). eauto.
    + destruct (P _ _ H1) as (x1 & G & R1 & R2 & R3 & _). fields. wtell. eapply wt; eauto; congruence.
    + destruct (P _ _ H2) as (x1 & G & R1 & R2 & R3 & R4 & R5 & _). rewrite R4, R5. eapply ww; eauto; congruence.
    + destruct (P _ _ H2) as (x1 & G & R1 & R2 & R3 & R4 & R5 & R6 & R7 & R8). rewrite R6, R7, R8. eapply wo; eauto.
  - eapply wf_ext; [exact W|..]; reflexivity || auto.
  - constructor; auto.
  - constructor; auto; fields; auto. apply bytes_ok_app. auto.
  - destruct (parse_same _ _ _ _ H2) as (B1 & B2 & B3 & B4 & B5 & B6 & B7 & B8 & B9 & B10 & B11 & B12 & B13 & _).
    eapply wf_put; [exact W|exact H0|reflexivity..|auto| | | |].
    + intros k NE. fields. wtell.
    + cs. intros R1 R2 R3. fields. wtell. apply (wt _ _ H0); congruence.
    + cs. intros A R. rewrite B1, B3. exact (ww H _ x H0 H1).
    + cs. intros A. rewrite B6, B7, B8. exact (wo H _ x H0).
  - eapply wf_ext; [exact W|..]; try reflexivity; auto. unfold calive. cl. discriminate.
  - constructor; auto.
Qed.
Lemma mvs_wf s s' : wf s -> mvs s s' -> wf s'.
Proof. intros W H. induction H; auto. apply IHmvs. eapply mv_wf; eauto. Qed.

(** ** The response head *)
Lemma resp_head_spec head tr fs : forall started p p', resp_head head tr started p fs = inr p' ->
  ph_hdrs p' = ph_hdrs p ++ regular_fields fs /\
  (forall c, ph_clen p = Some c -> ph_clen p' = Some c) /\
  (forall v, In (str "content-length", v) (regular_fields fs) -> exists n, parse_content_length v = Some n /\ ph_clen p' = Some n) /\
  ((ph_status p' = ph_status p /\ filter (fun f => beq (f_name f) (str ":status")) fs = []) \/
   (ph_status p = [] /\ exists f, filter (fun f => beq (f_name f) (str ":status")) fs = [f] /\ f_value f = ph_status p' /\ length (ph_status p') = 3%nat)).
Proof.
  induction fs as [|f fs IH]; intros started p p' H; cbn [resp_head] in H.
  - injection H as <-. cbn. rewrite app_nil_r. do 2 (split; [tauto|]). split; [intros v []|]. left. auto.
  - destruct (f_name f) as [|c nm] eqn:EN; [discriminate|]. destruct (N.eqb_spec c 58) as [->|NC].
    + destruct tr; [discriminate|]. destruct started; [discriminate|]. destruct (beq (58 :: nm) (str ":status")) eqn:ES; [|discriminate].
      destruct (no_bytes (ph_status p)) eqn:NB; cbn [negb] in H; [|discriminate].
      destruct (Nat.eqb_spec (length (f_value f)) 3) as [EL|]; cbn [negb] in H; [|discriminate].
      destruct (forallb _ _) eqn:FB; cbn [negb] in H; [|discriminate].
      assert (EP : ph_status p = []) by (destruct (ph_status p); [reflexivity|discriminate]).
      assert (RF : regular_fields (f :: fs) = regular_fields fs).
      { unfold regular_fields. cbn [filter]. unfold regular at 1. rewrite EN, N.eqb_refl. reflexivity. }
      destruct (IH _ _ _ H) as (I1 & I2 & I3 & I4). cbn [ph_hdrs ph_clen ph_status] in I1, I2, I4. rewrite RF.
      split; [exact I1|]. split; [exact I2|]. split; [exact I3|]. right. split; [exact EP|]. exists f.
      cbn [filter]. rewrite EN, ES. destruct I4 as [[J1 J2]|[J1 _]].
      * rewrite J2, J1. auto.
      * rewrite J1 in EL. discriminate.
    + destruct (is_valid_header_field (c :: nm) (f_value f)) eqn:EV; cbn [negb] in H; [|discriminate].
      destruct (_ || _) in H; [discriminate|].
      assert (RF : regular_fields (f :: fs) = (f_name f, f_value f) :: regular_fields fs).
      { unfold regular_fields. cbn [filter]. assert (RG : regular f = true) by (unfold regular; rewrite EN, (proj2 (N.eqb_neq c 58)) by exact NC; reflexivity).
        rewrite RG. reflexivity. }
      assert (FS : filter (fun f => beq (f_name f) (str ":status")) (f :: fs) = filter (fun f => beq (f_name f) (str ":status")) fs).
      { cbn [filter]. destruct (beq (f_name f) (str ":status")) eqn:E; [|reflexivity]. apply beq_eq in E. rewrite EN in E. apply (f_equal (hd 0)) in E. exfalso. apply NC. exact E. }
      rewrite RF, FS. rewrite EN. destruct (beq (clower (c :: nm)) (str "content-length")) eqn:ECL.
      * destruct (parse_content_length (f_value f)) as [n|] eqn:EP; [|discriminate].
        destruct (match ph_clen p with Some c0 => negb (c0 =? n) | None => false end) eqn:EM; [discriminate|].
        destruct (_ && _) in H; [discriminate|].
        destruct (IH _ _ _ H) as (I1 & I2 & I3 & I4). cbn [ph_hdrs ph_clen ph_status] in *.
        split; [rewrite I1, <- app_assoc; reflexivity|].
        split; [intros c0 E0; rewrite E0 in EM; destruct (N.eqb_spec c0 n); [subst; auto|discriminate]|].
        split; [|exact I4]. intros v [E|E]; [|auto]. apply (f_equal snd) in E. cbn [snd] in E. subst v. rewrite EP. eauto.
      * destruct (IH _ _ _ H) as (I1 & I2 & I3 & I4). cbn [ph_hdrs ph_clen ph_status] in *.
        split; [rewrite I1, <- app_assoc; reflexivity|]. split; [exact I2|]. split; [|exact I4].
        intros v [E|E]; [|auto]. apply (f_equal fst) in E. cbn [fst] in E. rewrite E in ECL. vm_compute in ECL. discriminate.
Qed.

Lemma status_spec v n : parse_status_code v = Some n -> three_digits v n /\ 100 <= n <= 999.
Proof.
  unfold parse_status_code. destruct (Nat.eqb_spec (length v) 3) as [L|]; cbn [negb]; [|discriminate].
  destruct v as [|a [|b [|c [|]]]]; try discriminate. cbn [status_digits].
  destruct ((48 <=? a) && (a <=? 57)) eqn:A; [|discriminate]. destruct ((48 <=? b) && (b <=? 57)) eqn:B; [|discriminate].
  destruct ((48 <=? c) && (c <=? 57)) eqn:C; [|discriminate]. cbv iota beta.
  apply andb_true_iff in A as [A1 A2], B as [B1 B2], C as [C1 C2]. apply N.leb_le in A1, A2, B1, B2, C1, C2.
  destruct (_ || _) eqn:R; [discriminate|]. intros E; injection E as <-. apply orb_false_iff in R as [R1 R2]. apply N.ltb_ge in R1, R2.
  split; [|lia]. exists (a - 48), (b - 48), (c - 48).
  assert (48 + (a - 48) = a) as -> by lia. assert (48 + (b - 48) = b) as -> by lia. assert (48 + (c - 48) = c) as -> by lia.
  repeat split; lia.
Qed.

Lemma parse_head_spec x fs t y : parse_response_head x fs t = inr y ->
  cs_hdrs y = cs_hdrs x ++ regular_fields fs /\
  (forall c, cs_clen x = Some c -> cs_clen y = Some c) /\
  (forall v, In (str "content-length", v) (regular_fields fs) -> exists n, parse_content_length v = Some n /\ cs_clen y = Some n) /\
  (if t then cs_status y = cs_status x else has_status fs (cs_status y) /\ 100 <= cs_status y <= 999).
Proof.
  unfold parse_response_head. intros H. destruct (negb _); [discriminate|]. destruct (_ && _); [discriminate|].
  destruct (resp_head _ _ _ _ _) as [c|p] eqn:E; [discriminate|]. cbv zeta in H. apply resp_head_spec in E as (I1 & I2 & I3 & I4).
  cbn [ph_hdrs ph_clen ph_status] in *. destruct t.
  - injection H as <-. cs. auto.
  - destruct (no_bytes _) eqn:NB; [discriminate|]. destruct (parse_status_code _) as [n|] eqn:EP; [|discriminate]. injection H as <-. cs.
    split; [exact I1|]. split; [exact I2|]. split; [exact I3|]. destruct (status_spec _ _ EP) as [T B]. split; [|exact B].
    destruct I4 as [[J _]|[_ (f & F1 & F2 & F3)]]; [rewrite J in NB; discriminate|]. exists f, (ph_status p). auto.
Qed.

(** ** Contexts and chronicle agree while the connection is open *)
Definition neutral (k : N) (i : citem) : Prop :=
  match i with LIn f => stream_of f = k -> payload_octets f = [] | LBlock j _ => j <> k | _ => True end.
Lemma body_neutral k i l : neutral k i -> body_received k (i :: l) = body_received k l.
Proof.
  destruct i; cbn [neutral body_received]; auto. destruct (N.eqb_spec (stream_of f) k); [|auto]. intros H. rewrite (H e), app_nil_r. reflexivity.
Qed.
Lemma blocks_neutral k i l : neutral k i -> blocks k (i :: l) = blocks k l.
Proof. destruct i; cbn [neutral blocks]; auto. intros H. rewrite (proj2 (N.eqb_neq sid k)) by exact H. reflexivity. Qed.
Lemma ended_cons k i l : ended k l -> ended k (i :: l).
Proof. intros (f & H1 & H2). exists f. split; [right; exact H1|exact H2]. Qed.
Lemma resp_ok_note k x i l : neutral k i -> resp_ok k x l -> resp_ok k x (i :: l).
Proof.
  intros HN ((q & Q1 & Q2) & B & H & M1 & M2 & C & E). unfold resp_ok. rewrite (body_neutral _ _ _ HN), (blocks_neutral _ _ _ HN).
  split; [exists q; split; [right; exact Q1|exact Q2]|]. do 5 (split; [assumption|]). intros E1. apply ended_cons, E, E1.
Qed.
Lemma resp_ok_notes k x l0 l : (forall i, In i l0 -> neutral k i) -> resp_ok k x l -> resp_ok k x (l0 ++ l).
Proof. induction l0 as [|i l0 IH]; intros H R; [exact R|]. cbn [app]. apply resp_ok_note; [apply H; left; reflexivity|]. apply IH; [|exact R]. intros; apply H; right; assumption. Qed.
Lemma resp_ok_ext k x y l : cs_app y = cs_app x -> cs_method y = cs_method x -> cs_body y = cs_body x -> cs_hdrs y = cs_hdrs x -> cs_main y = cs_main x ->
  cs_status y = cs_status x -> cs_clen y = cs_clen x -> (cs_endr y = true -> cs_endr x = true \/ ended k l) -> resp_ok k x l -> resp_ok k y l.
Proof.
  intros E1 E2 E3 E4 E5 E6 E7 E8 (Q & B & H & M1 & M2 & C & E). unfold resp_ok. rewrite E1, E2, E3, E4, E5, E6, E7.
  do 6 (split; [assumption|]). intros E9. destruct (E8 E9); auto.
Qed.
Lemma body_neutrals k l0 l : (forall i, In i l0 -> neutral k i) -> body_received k (l0 ++ l) = body_received k l.
Proof. induction l0 as [|i l0 IH]; intros H; [reflexivity|]. cbn [app]. rewrite body_neutral by (apply H; left; reflexivity). apply IH. intros; apply H; right; assumption. Qed.
Lemma blocks_neutrals k l0 l : (forall i, In i l0 -> neutral k i) -> blocks k (l0 ++ l) = blocks k l.
Proof. induction l0 as [|i l0 IH]; intros H; [reflexivity|]. cbn [app]. rewrite blocks_neutral by (apply H; left; reflexivity). apply IH. intros; apply H; right; assumption. Qed.

Record agree (s : client) : Prop := mk_agree {
  a_st : forall k x, cget s k = Some x -> cs_rsts x = false -> resp_ok k x (cl_log s);
  a_new : forall k, cl_next s <= k -> N.odd k = true -> body_received k (cl_log s) = [] /\ blocks k (cl_log s) = [] }.
Definition agreed (s : client) : Prop := calive s = true -> agree s.
Lemma agree_log s s' l0 : agree s -> cl_log s' = l0 ++ cl_log s -> (forall k i, In i l0 -> neutral k i) -> cl_next s <= cl_next s' ->
  (forall k y, cget s' k = Some y -> cs_rsts y = false -> exists x, cget s k = Some x /\ cs_rsts x = false /\
     cs_app y = cs_app x /\ cs_method y = cs_method x /\ cs_body y = cs_body x /\ cs_hdrs y = cs_hdrs x /\ cs_main y = cs_main x /\
     cs_status y = cs_status x /\ cs_clen y = cs_clen x /\ (cs_endr y = true -> cs_endr x = true \/ ended k (cl_log s'))) -> agree s'.
Proof.
  intros [A1 A2] EL HN HX HS. constructor.
  - intros k y G R. destruct (HS k y G R) as (x & G1 & R1 & E1 & E2 & E3 & E4 & E5 & E6 & E7 & E8).
    eapply (resp_ok_ext k x y); try eassumption. rewrite EL. apply resp_ok_notes; [auto|]. apply A1; auto.
  - intros k L O. rewrite EL, body_neutrals, blocks_neutrals by auto. apply A2; [lia|exact O].
Qed.
