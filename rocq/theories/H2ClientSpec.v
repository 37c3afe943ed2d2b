(** Independent vocabulary for the theorems on the HTTP/2 client: quantities read off the chronicle of a
    connection (the list of [citem]s, newest first), with no reference to the client's own variables. *)
From Verif Require Import Base UtilSpec HpackModel H2Model H2FieldModel H2FieldSpec H2ClientModel.
Local Open Scope N_scope.

Definition stream_of (f : frame) : N := get_stream_id (fr_hdr f).
Definition has_end_stream (f : frame) : bool := N.testbit (h_flags (fr_hdr f)) 0.

(** Flow-controlled size of a frame: the whole payload of a DATA frame, padding included (RFC 9113 6.9.1). *)
Definition flow_size (f : frame) : N := match fr_pl f with PData d pad => N.of_nat (length d) + pad | _ => 0 end.
Definition credit (f : frame) : N := match fr_pl f with PWindow inc => inc | _ => 0 end.
Definition weigh_in (g : frame -> N) (i : citem) : N := match i with LIn f => g f | _ => 0 end.
Definition weigh_out (g : frame -> N) (i : citem) : N := match i with LOut f => g f | _ => 0 end.
Fixpoint total (g : citem -> N) (l : list citem) : N := match l with [] => 0 | i :: r => g i + total g r end.
Definition on_stream (sid : N) (g : frame -> N) (f : frame) : N := if stream_of f =? sid then g f else 0.

Definition data_received (l : list citem) : N := total (weigh_in flow_size) l.
Definition data_received_on (sid : N) (l : list citem) : N := total (weigh_in (on_stream sid flow_size)) l.
Definition credit_sent_on (sid : N) (l : list citem) : N := total (weigh_out (on_stream sid credit)) l.
Definition data_sent (l : list citem) : N := total (weigh_out flow_size) l.
Definition data_sent_on (sid : N) (l : list citem) : N := total (weigh_out (on_stream sid flow_size)) l.
Definition credit_received_on (sid : N) (l : list citem) : N := total (weigh_in (on_stream sid credit)) l.

(** The value of setting [id] in force: the last one applied, or the default. *)
Fixpoint setting (id dflt : N) (l : list citem) : N :=
  match l with
  | [] => dflt
  | LSet i v :: r => if i =? id then v else setting id dflt r
  | _ :: r => setting id dflt r
  end.

(** [P] held at every moment of the chronicle. *)
Definition always (P : list citem -> Prop) (l : list citem) : Prop := forall later before, l = later ++ before -> P before.

(** The newest frame, if it is DATA sent by the client, fits both windows and the frame size the server advertised. *)
Definition respects_send_windows (l : list citem) : Prop :=
  match l with
  | LOut f :: before =>
      match fr_pl f with
      | PData d pad =>
          data_sent l <= 65535 + credit_received_on 0 before /\
          data_sent_on (stream_of f) l <= setting 4 65535 before + credit_received_on (stream_of f) before /\
          flow_size f <= setting 5 16384 before
      | _ => True
      end
  | _ => True
  end.

(** The client has given back no more flow-control credit than it received octets, per connection and per stream. *)
Definition credits_earned (l : list citem) : Prop :=
  credit_sent_on 0 l <= data_received l /\ forall k, k <> 0 -> credit_sent_on k l <= data_received_on k l.
(** HEADERS and DATA frames sent on a stream, oldest first. *)
Definition message_frame (sid : N) (f : frame) : bool :=
  (stream_of f =? sid) && (match fr_pl f with PData _ _ | PHeaders _ _ => true | _ => false end).
Fixpoint frames_sent (sid : N) (l : list citem) : list frame :=
  match l with
  | [] => []
  | LOut f :: r => if message_frame sid f then frames_sent sid r ++ [f] else frames_sent sid r
  | _ :: r => frames_sent sid r
  end.
Definition payload_octets (f : frame) : list N := match fr_pl f with PData d _ => d | _ => [] end.
Definition body_octets (fs : list frame) : list N := flat_map payload_octets fs.

(** [fs] is a prefix of a transmission of request [r]: it starts with HEADERS, its DATA octets are a prefix of the
    body, END_STREAM appears at most on the last frame, and only if the body is complete. *)
Definition transmits (r : crequest) (fs : list frame) : Prop :=
  (exists f rest b, fs = f :: rest /\ fr_pl f = PHeaders b None) /\
  (exists later, q_body r = body_octets fs ++ later) /\
  (forall before f after, fs = before ++ f :: after -> has_end_stream f = true -> after = [] /\ body_octets fs = q_body r).

(** The newest item, if it is a CONTINUATION frame sent, or the HEADERS frame that opens a stream, fits the frame
    size the server advertised. *)
Definition head_frame_fits (l : list citem) : Prop :=
  match l with
  | LOut f :: before =>
      match fr_pl f with
      | PHeaders b _ => frames_sent (stream_of f) before = [] -> N.of_nat (length b) <= setting 5 16384 before
      | PCont b => N.of_nat (length b) <= setting 5 16384 before
      | _ => True
      end
  | _ => True
  end.
(** What the application is told about a request. *)
Definition tells (sid : N) (i : citem) : bool :=
  match i with LResp k _ _ _ | LErr k _ => k =? sid | _ => false end.
Definition notifications (sid : N) (l : list citem) : nat := length (filter (tells sid) l).

(** DATA octets received on a stream, oldest first; the header blocks received on it; whether END_STREAM was. *)
Fixpoint body_received (sid : N) (l : list citem) : list N :=
  match l with
  | [] => []
  | LIn f :: r => if stream_of f =? sid then body_received sid r ++ payload_octets f else body_received sid r
  | _ :: r => body_received sid r
  end.
Fixpoint blocks (sid : N) (l : list citem) : list (list HpackModel.field) :=
  match l with
  | [] => []
  | LBlock k fs :: r => if k =? sid then blocks sid r ++ [fs] else blocks sid r
  | _ :: r => blocks sid r
  end.
Definition ended (sid : N) (l : list citem) : Prop :=
  exists f, In (LIn f) l /\ message_frame sid f = true /\ has_end_stream f = true.
Definition goaway_received (l : list citem) : Prop := exists f a b c, In (LIn f) l /\ fr_pl f = PGoaway a b c.

(** The fields of a block that are not pseudo-header fields (those start with a colon), as name and value. *)
Definition regular (f : HpackModel.field) : bool := match f_name f with c :: _ => negb (c =? 58) | [] => true end.
Definition regular_fields (fs : list HpackModel.field) : list (list N * list N) :=
  map (fun f => (f_name f, f_value f)) (filter regular fs).
(** Three decimal digits. *)
Definition three_digits (v : list N) (n : N) : Prop :=
  exists a b c, v = [48 + a; 48 + b; 48 + c] /\ a <= 9 /\ b <= 9 /\ c <= 9 /\ n = 100 * a + 10 * b + c.
(** [fs] has exactly one :status field, and it reads [n]. *)
Definition has_status (fs : list HpackModel.field) (n : N) : Prop :=
  exists f v, filter (fun f => beq (f_name f) (str ":status")) fs = [f] /\ f_value f = v /\ three_digits v n.
(** RFC 9110 6.4.1, 8.6: responses whose Content-Length does not describe the content. *)
Definition bodiless (method : list N) (status : N) : Prop :=
  method = str "HEAD" \/ 100 <= status < 200 \/ status = 204 \/ status = 304.

(** The newest item, if it is a response given to the application, is the answer received on that request's stream:
    [at most once] is stated separately. *)
Definition faithful_response (l : list citem) : Prop :=
  match l with
  | LResp sid app r code :: before =>
      (exists q, In (LReq sid app q) before /\
         (bodiless (q_method q) (p_status r) \/
          forall v, In (str "content-length", v) (p_headers r) ->
            exists t, Trimmed v t /\ t <> [] /\ Forall Digit t /\ dec_val t = N.of_nat (length (p_body r)))) /\
      p_body r = body_received sid before /\ N.of_nat (length (p_body r)) <= 104857600 /\
      (exists fs rest, blocks sid before = fs :: rest /\ has_status fs (p_status r)) /\
      100 <= p_status r <= 999 /\
      p_headers r = flat_map regular_fields (blocks sid before) /\
      (ended sid before \/ goaway_received before)
  | _ => True
  end.

(** Replies to PING and SETTINGS written since the client last received DATA or completed a response. *)
Definition is_ack_reply (f : frame) : bool :=
  N.testbit (h_flags (fr_hdr f)) 0 && (match fr_pl f with PSettings _ | PPing _ => true | _ => false end).
Fixpoint replies_since_progress (l : list citem) : N :=
  match l with
  | [] => 0
  | LIn f :: r => match fr_pl f with PData _ _ => 0 | _ => replies_since_progress r end
  | LResp _ _ _ _ :: r => 0
  | LOut f :: r => (if is_ack_reply f then 1 else 0) + replies_since_progress r
  | _ :: r => replies_since_progress r
  end.

(** CONTINUATION frames received since the last HEADERS frame. *)
Fixpoint continuations (l : list citem) : N :=
  match l with
  | [] => 0
  | LIn f :: r => match fr_pl f with PHeaders _ _ => 0 | PCont _ => 1 + continuations r | _ => continuations r end
  | _ :: r => continuations r
  end.

(** Octets of the CONTINUATION frames received since the last HEADERS frame. *)
Fixpoint continuation_octets (l : list citem) : N :=
  match l with
  | [] => 0
  | LIn f :: r => match fr_pl f with PHeaders _ _ => 0 | PCont b => N.of_nat (length b) + continuation_octets r | _ => continuation_octets r end
  | _ :: r => continuation_octets r
  end.

Definition is_goaway_out (i : citem) : bool := match i with LOut f => (match fr_pl f with PGoaway _ _ _ => true | _ => false end) | _ => false end.
Definition sent_goaway (l : list citem) : bool := existsb is_goaway_out l.
(** Once a GOAWAY has been sent, the only frame that may still be written is a SETTINGS acknowledgement. *)
Definition quiet_after_goaway (l : list citem) : Prop :=
  match l with
  | LOut f :: before => sent_goaway before = true -> fr_pl f = PSettings [] /\ N.testbit (h_flags (fr_hdr f)) 0 = true
  | LReq _ _ _ :: before => sent_goaway before = false
  | _ => True
  end.

(** The streams of the requests accepted so far, newest first. *)
Fixpoint request_streams (l : list citem) : list N :=
  match l with [] => [] | LReq sid _ _ :: r => sid :: request_streams r | _ :: r => request_streams r end.
(** The newest item, if it is an accepted request, uses a fresh odd stream, above all earlier ones, and no GOAWAY
    has been received. *)
Definition fresh_request (l : list citem) : Prop :=
  match l with
  | LReq sid _ _ :: before => N.odd sid = true /\ Forall (fun k => k < sid) (request_streams before) /\ ~ goaway_received before
  | _ => True
  end.
(** RST_STREAM was sent on the stream. *)
Definition reset_sent (sid : N) (l : list citem) : Prop :=
  exists f, In (LOut f) l /\ stream_of f = sid /\ exists c, fr_pl f = PRst c.
(** RST_STREAM was received on the stream. *)
Definition reset_received (sid : N) (l : list citem) : Prop :=
  exists f, In (LIn f) l /\ stream_of f = sid /\ exists c, fr_pl f = PRst c.
(** The client has sent END_STREAM on the stream. *)
Definition end_sent (sid : N) (l : list citem) : Prop :=
  exists f, In (LOut f) l /\ message_frame sid f = true /\ has_end_stream f = true.
(** The stream of an accepted request is open or half-closed (RFC 9113 5.1): no RST_STREAM in either direction, and not
    yet END_STREAM in both. *)
Definition stream_open (sid : N) (l : list citem) : Prop :=
  (exists app r, In (LReq sid app r) l) /\ ~ reset_sent sid l /\ ~ reset_received sid l /\ ~ (ended sid l /\ end_sent sid l).
(** The newest item, if it is an accepted request, was made when fewer streams were open than the server's
    SETTINGS_MAX_CONCURRENT_STREAMS allows. *)
Definition within_limit (l : list citem) : Prop :=
  match l with
  | LReq _ _ _ :: before =>
      forall ks, NoDup ks -> (forall k, In k ks -> stream_open k before) -> N.of_nat (length ks) < setting 3 4294967295 before
  | _ => True
  end.
Definition silent_after_reset (l : list citem) : Prop :=
  match l with
  | LOut f :: before => forall sid, message_frame sid f = true -> ~ reset_sent sid before
  | _ => True
  end.

(** What the environment guarantees: received octets are octets, the framer passes on no WINDOW_UPDATE of 0; and, for
    the theorems that need it, the application makes no call but send_request ([sends_only]). *)
Definition frame_octets_ok (f : frame) : Prop :=
  (h_s0 (fr_hdr f) < 256 /\ h_s1 (fr_hdr f) < 256 /\ h_s2 (fr_hdr f) < 256 /\ h_s3 (fr_hdr f) < 256) /\
  match fr_pl f with PHeaders b _ | PCont b => Forall (fun x => x < 256) b | PWindow inc => inc <> 0 | _ => True end.
Definition is_send (c : ccmd) : Prop := match c with CSend _ _ => True | _ => False end.
Definition event_ok (e : cevent) : Prop :=
  match e with
  | CFrame f script _ => frame_octets_ok f /\ Forall (Forall is_send) script
  | CApp c script => is_send c /\ Forall (Forall is_send) script
  | CNotOk => True
  end.
