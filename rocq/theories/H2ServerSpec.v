(** Independent vocabulary for the theorems on the HTTP/2 server: quantities read off the chronicle of a
    connection (the list of [item]s, newest first), with no reference to the server's own variables. *)
From Coq Require Import Permutation.
From Verif Require Import Base H2Model H2FieldModel H2ServerModel.
Local Open Scope N_scope.

Definition stream_of (f : frame) : N := get_stream_id (fr_hdr f).
Definition has_end_stream (f : frame) : bool := N.testbit (h_flags (fr_hdr f)) 0.
Definition has_end_headers (f : frame) : bool := N.testbit (h_flags (fr_hdr f)) 2.

(** Flow-controlled size of a frame: the whole payload of a DATA frame, padding included (RFC 9113 6.9.1). *)
Definition flow_size (f : frame) : N := match fr_pl f with PData d pad => N.of_nat (length d) + pad | _ => 0 end.
Definition credit (f : frame) : N := match fr_pl f with PWindow inc => inc | _ => 0 end.

Definition weigh_in (g : frame -> N) (i : item) : N := match i with LIn f => g f | _ => 0 end.
Definition weigh_out (g : frame -> N) (i : item) : N := match i with LOut f => g f | _ => 0 end.
Fixpoint total (g : item -> N) (l : list item) : N := match l with [] => 0 | i :: r => g i + total g r end.
Definition on_stream (sid : N) (g : frame -> N) (f : frame) : N := if stream_of f =? sid then g f else 0.

(** Octets of DATA received on the connection / on a stream, and credit granted by WINDOW_UPDATE frames sent. *)
Definition data_received (l : list item) : N := total (weigh_in flow_size) l.
Definition data_received_on (sid : N) (l : list item) : N := total (weigh_in (on_stream sid flow_size)) l.
Definition credit_sent_on (sid : N) (l : list item) : N := total (weigh_out (on_stream sid credit)) l.
(** Octets of DATA sent, and credit received. *)
Definition data_sent (l : list item) : N := total (weigh_out flow_size) l.
Definition data_sent_on (sid : N) (l : list item) : N := total (weigh_out (on_stream sid flow_size)) l.
Definition credit_received_on (sid : N) (l : list item) : N := total (weigh_in (on_stream sid credit)) l.

(** The value of setting [id] in force: the last one applied, or the default. *)
Fixpoint setting (id dflt : N) (l : list item) : N :=
  match l with
  | [] => dflt
  | LSet i v :: r => if i =? id then v else setting id dflt r
  | _ :: r => setting id dflt r
  end.

(** The settings applied, oldest first. *)
Fixpoint settings_applied (l : list item) : list (N * N) :=
  match l with
  | [] => []
  | LSet i v :: r => settings_applied r ++ [(i, v)]
  | _ :: r => settings_applied r
  end.

(** The newest frame, if sent by the server, fits the frame size the peer advertised, and is a PUSH_PROMISE only
    if the peer has not disabled push. *)
Definition respects_peer_settings (l : list item) : Prop :=
  match l with
  | LOut f :: before =>
      match fr_pl f with
      | PData d pad => N.of_nat (length d) + pad <= setting 5 16384 before
      | PHeaders b _ | PCont b => N.of_nat (length b) <= setting 5 16384 before
      | PPush _ _ => setting 2 1 before = 1
      | _ => True
      end
  | _ => True
  end.

Definition count (p : item -> bool) (l : list item) : nat := length (filter p l).
Definition is_goaway_out (i : item) : bool := match i with LOut f => (match fr_pl f with PGoaway _ _ _ => true | _ => false end) | _ => false end.
Definition is_request (sid : N) (i : item) : bool := match i with LReq k _ => k =? sid | _ => false end.
Definition is_response_cmd (sid : N) (i : item) : bool := match i with LCmd (CRespond k _) => k =? sid | _ => false end.

(** HEADERS and DATA frames sent on a stream, oldest first. *)
Definition response_frame (sid : N) (f : frame) : bool :=
  (stream_of f =? sid) && (match fr_pl f with PData _ _ | PHeaders _ _ => true | _ => false end).
Fixpoint response_frames (sid : N) (l : list item) : list frame :=
  match l with
  | [] => []
  | LOut f :: r => if response_frame sid f then response_frames sid r ++ [f] else response_frames sid r
  | _ :: r => response_frames sid r
  end.

(** HEADERS and DATA frames received on a stream since the server last reset it, oldest first, up to and
    including the first one that carries END_STREAM: what RFC 9113 8.1 calls the request. *)
Definition is_rst_on (sid : N) (f : frame) : bool := (stream_of f =? sid) && (match fr_pl f with PRst _ => true | _ => false end).
Fixpoint frames_received (sid : N) (l : list item) : list frame :=
  match l with
  | [] => []
  | LIn f :: r => if response_frame sid f then frames_received sid r ++ [f] else frames_received sid r
  | LOut f :: r => if is_rst_on sid f then [] else frames_received sid r
  | _ :: r => frames_received sid r
  end.
Fixpoint upto_end (fs : list frame) : list frame :=
  match fs with [] => [] | f :: r => f :: (if has_end_stream f then [] else upto_end r) end.
Definition payload_octets (f : frame) : list N := match fr_pl f with PData d _ => d | _ => [] end.
Definition body_octets (fs : list frame) : list N := flat_map payload_octets fs.

(** Replies to PING and SETTINGS written since the last HEADERS or DATA frame was received. *)
Definition is_ack_reply (f : frame) : bool :=
  N.testbit (h_flags (fr_hdr f)) 0 && (match fr_pl f with PSettings _ | PPing _ => true | _ => false end).
Definition is_progress (f : frame) : bool := match fr_pl f with PData _ _ | PHeaders _ _ => true | _ => false end.
Fixpoint replies_since_progress (l : list item) : N :=
  match l with
  | [] => 0
  | LIn f :: r => if is_progress f then 0 else replies_since_progress r
  | LOut f :: r => (if is_ack_reply f then 1 else 0) + replies_since_progress r
  | _ :: r => replies_since_progress r
  end.

(** CONTINUATION frames received since the last HEADERS frame. *)
Fixpoint continuations (l : list item) : N :=
  match l with
  | [] => 0
  | LIn f :: r => match fr_pl f with PHeaders _ _ => 0 | PCont _ => 1 + continuations r | _ => continuations r end
  | _ :: r => continuations r
  end.

(** RST_STREAM frames received on client-initiated streams; the highest client stream used. *)
Definition is_client_reset (i : item) : bool :=
  match i with LIn f => (match fr_pl f with PRst _ => N.odd (stream_of f) | _ => false end) | _ => false end.
Fixpoint highest_stream (l : list item) : N :=
  match l with
  | [] => 0
  | LIn f :: r => match fr_pl f with PHeaders _ _ => N.max (stream_of f) (highest_stream r) | _ => highest_stream r end
  | _ :: r => highest_stream r
  end.

(** A stream that has been opened and is neither finished nor reset. *)
Definition in_progress (x : stream) : bool :=
  match st_state x with
  | OPEN | HALF_CLOSED_LOCAL | HALF_CLOSED_REMOTE => negb (st_rsts x) && negb (st_rstr x)
  | _ => false
  end.
Definition concurrent_client_streams (s : server) : nat :=
  length (filter (fun p => N.odd (fst p) && in_progress (snd p)) (sv_streams s)).

(** What the environment guarantees: received octets are octets, stream identifiers have 31 bits, and the
    iteration order over the map of streams is a reordering of its keys. *)
Definition frame_octets_ok (f : frame) : Prop :=
  match fr_pl f with PHeaders b _ | PCont b => Forall (fun x => x < 256) b | _ => True end.
Definition stream_id_ok (f : frame) : Prop := stream_of f < 2 ^ 31.
Definition cmd_ids_ok (c : appcmd) : Prop :=
  match c with
  | CRespond sid _ | CReset sid _ => sid < 2 ^ 31
  | CPush assoc prom _ => assoc < 2 ^ 31 /\ prom < 2 ^ 31
  | CCleanup _ => True
  end.
Definition event_ok (e : sevent) : Prop :=
  match e with
  | SFrame f a ord => frame_octets_ok f /\ stream_id_ok f /\ (forall l, Permutation (ord l) l) /\ Forall cmd_ids_ok (fst a)
  | SFramerError _ sid => sid < 2 ^ 31
  | SApp c => cmd_ids_ok c
  | _ => True
  end.

(** [P] held at every moment of the chronicle. *)
Definition always (P : list item -> Prop) (l : list item) : Prop := forall later before, l = later ++ before -> P before.

(** The application never lets an exception escape from a request handler. *)
Definition event_nothrow (e : sevent) : Prop := match e with SFrame _ a _ => snd a = false | _ => True end.

(** Still exchanging frames: no GOAWAY, no transport or framing error. *)
Definition open_connection (s : server) : Prop := sv_ok s = true /\ sv_active s = true.

(** The responses the application asked for on a stream, oldest first. *)
Fixpoint responses (sid : N) (l : list item) : list response :=
  match l with
  | [] => []
  | LCmd (CRespond k r) :: rest => if k =? sid then responses sid rest ++ [r] else responses sid rest
  | _ :: rest => responses sid rest
  end.

(** [fs] is a prefix of a transmission of response [r]: it starts with HEADERS, its DATA octets are a prefix of the
    body, END_STREAM appears at most on the last frame, and only if the body is complete. *)
Definition transmits (r : response) (fs : list frame) : Prop :=
  (forall f rest, fs = f :: rest -> exists b, fr_pl f = PHeaders b None) /\
  (exists later, rs_body r = body_octets fs ++ later) /\
  (forall before f after, fs = before ++ f :: after -> has_end_stream f = true -> after = [] /\ body_octets fs = rs_body r).

(** The server has reset stream [sid] since it last received HEADERS on it. *)
Fixpoint reset_since (sid : N) (l : list item) : bool :=
  match l with
  | [] => false
  | LOut f :: r => is_rst_on sid f || reset_since sid r
  | LIn f :: r => match fr_pl f with PHeaders _ _ => if stream_of f =? sid then false else reset_since sid r | _ => reset_since sid r end
  | _ :: r => reset_since sid r
  end.
(** The newest frame, if it is a HEADERS or DATA frame sent on a client's stream, is not sent on a stream already reset. *)
Definition silent_after_reset (l : list item) : Prop :=
  match l with
  | LOut f :: before => forall sid, N.odd sid = true -> response_frame sid f = true -> reset_since sid before = false
  | _ => True
  end.
