(** Model of the HTTP/2 frame layer: 2/protocol/frames.h, the serializers of 2/protocol/base.cpp and
    the framer (class Http2Protocol) of 2/protocol/base.h.

    Bytes are N below 256.  uint8_t/uint16_t/uint32_t/size_t values are N; the places where the C++
    arithmetic can wrap are written with an explicit mod.  Pointer reads go through [rd] and [slice],
    which return None when the access is outside the payload: the model's result is then [PUndef]. *)
From Verif Require Import Base.
Local Open Scope N_scope.

(** ** 2/protocol/frames.h:37-59 frame types and flags *)
Definition T_DATA := 0. Definition T_HEADERS := 1. Definition T_PRIORITY := 2. Definition T_RST_STREAM := 3.
Definition T_SETTINGS := 4. Definition T_PUSH_PROMISE := 5. Definition T_PING := 6. Definition T_GOAWAY := 7.
Definition T_WINDOW_UPDATE := 8. Definition T_CONTINUATION := 9.
Definition FLAG_END_STREAM := 1. Definition FLAG_ACK := 1. Definition FLAG_END_HEADERS := 4.
Definition FLAG_PADDED := 8. Definition FLAG_PRIORITY := 32.

(** 2/protocol/frames.h:65-81 error codes (the ones used) *)
Definition NO_ERROR := 0. Definition PROTOCOL_ERROR := 1. Definition INTERNAL_ERROR := 2.
Definition FLOW_CONTROL_ERROR := 3. Definition STREAM_CLOSED := 5. Definition FRAME_SIZE_ERROR := 6.
Definition REFUSED_STREAM := 7. Definition CANCEL := 8. Definition COMPRESSION_ERROR := 9.
Definition ENHANCE_YOUR_CALM := 11.

(** 2/protocol/frames.h:104-109 *)
Definition DEFAULT_WINDOW := 65535. Definition DEFAULT_MAX_FRAME_SIZE := 16384.
Definition MIN_MAX_FRAME_SIZE := 16384. Definition MAX_FRAME_SIZE_LIMIT := 16777215.
Definition MAX_WINDOW := 2147483647.

(** A flag test [flags & F] for a single-bit F. *)
Definition has_flag (flags f : N) : bool := negb (N.land flags f =? 0).

(** (v >> 8k) & 0xFF, the serializers' byte extraction. *)
Definition octet (v k : N) : N := N.land (N.shiftr v (8 * k)) 255.

(** ** 2/protocol/frames.h:124-186 FrameHeader: nine packed octets *)
Record fhdr := mk_hdr { h_l0 : N; h_l1 : N; h_l2 : N; h_type : N; h_flags : N;
                        h_s0 : N; h_s1 : N; h_s2 : N; h_s3 : N }.

(** frames.h:129-132 zero-initialised header *)
Definition hdr_zero : fhdr := mk_hdr 0 0 0 0 0 0 0 0 0.

(** frames.h:138-142 get_payload_length *)
Definition get_payload_length (h : fhdr) : N :=
  N.lor (N.lor (N.shiftl (h_l0 h) 16) (N.shiftl (h_l1 h) 8)) (h_l2 h).
(** frames.h:148-153 set_payload_length *)
Definition set_payload_length (h : fhdr) (len : N) : fhdr :=
  mk_hdr (octet len 2) (octet len 1) (octet len 0) (h_type h) (h_flags h) (h_s0 h) (h_s1 h) (h_s2 h) (h_s3 h).
(** frames.h:168-172 get_stream_id *)
Definition get_stream_id (h : fhdr) : N :=
  N.lor (N.lor (N.lor (N.shiftl (N.land (h_s0 h) 127) 24) (N.shiftl (h_s1 h) 16)) (N.shiftl (h_s2 h) 8)) (h_s3 h).
(** frames.h:178-184 set_stream_id *)
Definition set_stream_id (h : fhdr) (id : N) : fhdr :=
  mk_hdr (h_l0 h) (h_l1 h) (h_l2 h) (h_type h) (h_flags h)
         (N.land (octet id 3) 127) (octet id 2) (octet id 1) (octet id 0).

(** The nine octets as written by put(&header, FRAME_HEADER_SIZE) (base.cpp) and read back by the
    memcpy of base.h:617. *)
Definition hdr_bytes (h : fhdr) : list N :=
  [h_l0 h; h_l1 h; h_l2 h; h_type h; h_flags h; h_s0 h; h_s1 h; h_s2 h; h_s3 h].
Definition hdr_of_bytes (l : list N) : option fhdr :=
  match l with
  | [a; b; c; t; f; s0; s1; s2; s3] => Some (mk_hdr a b c t f s0 s1 s2 s3)
  | _ => None
  end.

(** ** 2/protocol/frames.h:193-315 payload structures *)
Record prio := mk_prio { p_dep : N; p_weight : N; p_excl : bool }.
Inductive payload :=
| PData (data : list N) (padding : N)
| PHeaders (frag : list N) (pri : option prio)
| PPriority (p : prio)
| PRst (code : N)
| PSettings (entries : list (N * N))
| PPush (promised : N) (frag : list N)
| PPing (opaque : list N)
| PGoaway (last code : N) (debug : list N)
| PWindow (inc : N)
| PCont (frag : list N).
Record frame := mk_frame { fr_hdr : fhdr; fr_pl : payload }.

(** Four octets, big endian (base.cpp:573-576, 604-607, ...). *)
Definition be32 (v : N) : list N := [octet v 3; octet v 2; octet v 1; octet v 0].
Definition be16 (v : N) : list N := [octet v 1; octet v 0].

(** base.cpp:567-577 priority octets *)
Definition prio_bytes (p : prio) : list N :=
  let dep := N.land (p_dep p) 2147483647 in
  let v := if p_excl p then N.lor dep 2147483648 else dep in
  be32 v ++ [p_weight p].

(** ** base.cpp:500-832: the ten serializers.  The payload octets each one writes ... *)
Definition payload_bytes (h : fhdr) (p : payload) : list N :=
  match p with
  | PData d _ => d                                                        (* 500-514 *)
  | PHeaders frag _ => frag                                               (* 526-540, priority_info not written *)
  | PPriority p => prio_bytes p                                           (* 558-583 *)
  | PRst code => be32 code                                                (* 594-613 *)
  | PSettings es => if has_flag (h_flags h) FLAG_ACK then []              (* 625-658 *)
                    else concat (map (fun e => be16 (fst e) ++ be32 (snd e)) es)
  | PPush id frag => be32 (N.land id 2147483647) ++ frag                  (* 676-703 *)
  | PPing o => o                                                          (* 714-725 *)
  | PGoaway last code dbg => be32 (N.land last 2147483647) ++ be32 code ++ dbg  (* 746-774 *)
  | PWindow inc => be32 (N.land inc 2147483647)                           (* 786-805 *)
  | PCont frag => frag                                                    (* 818-832 *)
  end.

(** ... after a copy of the frame's header with the length set to static_cast<uint32_t>(size). *)
Definition serialize (f : frame) : list N :=
  let body := payload_bytes (fr_hdr f) (fr_pl f) in
  hdr_bytes (set_payload_length (fr_hdr f) (N.of_nat (length body) mod 2 ^ 32)) ++ body.

(** ** Payload parsing, base.h:126-151 and 1112-1374 *)

(** A read at offset [i] of the payload buffer; None is an out-of-bounds read. *)
Definition rd (l : list N) (i : N) : option N := nth_error l (N.to_nat i).
(** assign(p + off, p + off + n) *)
Definition slice (l : list N) (off n : N) : option (list N) :=
  if off + n <=? N.of_nat (length l) then Some (firstn (N.to_nat n) (skipn (N.to_nat off) l)) else None.

(** base.h:126-129 extract_uint16_be *)
Definition rd16 (l : list N) (i : N) : option N :=
  match rd l i, rd l (i + 1) with
  | Some a, Some b => Some (N.lor (N.shiftl a 8) b)
  | _, _ => None
  end.
(** base.h:136-140 extract_uint32_be *)
Definition rd32 (l : list N) (i : N) : option N :=
  match rd l i, rd l (i + 1), rd l (i + 2), rd l (i + 3) with
  | Some a, Some b, Some c, Some d => Some (N.lor (N.lor (N.lor (N.shiftl a 24) (N.shiftl b 16)) (N.shiftl c 8)) d)
  | _, _, _, _ => None
  end.
(** base.h:147-151 extract_uint31_be *)
Definition rd31 (l : list N) (i : N) : option N :=
  match rd l i, rd l (i + 1), rd l (i + 2), rd l (i + 3) with
  | Some a, Some b, Some c, Some d =>
      Some (N.lor (N.lor (N.lor (N.shiftl (N.land a 127) 24) (N.shiftl b 16)) (N.shiftl c 8)) d)
  | _, _, _, _ => None
  end.

Inductive parsed := PErr (code : N) | PUndef | POk (p : payload).

(** size_t subtraction *)
Definition szsub (a b : N) : N := (a + 2 ^ 64 - b) mod 2 ^ 64.

(** base.h:836-854 validate_padded_frame, on (offset, p_len); inl is the reported error. *)
Definition validate_padded (l : list N) (off p_len : N) : option (N + N * N * N) :=
  if p_len =? 0 then Some (inl FRAME_SIZE_ERROR)
  else match rd l off with
       | None => None
       | Some pad => let off := off + 1 in let p_len := p_len - 1 in
                     if p_len <? pad then Some (inl PROTOCOL_ERROR) else Some (inr (pad, off, p_len))
       end.

Definition opt_parsed {A} (o : option A) (k : A -> parsed) : parsed := match o with None => PUndef | Some a => k a end.

(** base.h:1112-1134 *)
Definition parse_data (h : fhdr) (l : list N) : parsed :=
  let size := N.of_nat (length l) in
  if has_flag (h_flags h) FLAG_PADDED then
    opt_parsed (validate_padded l 0 size) (fun r =>
      match r with
      | inl e => PErr e
      | inr (pad, off, p_len) => opt_parsed (slice l off (szsub p_len pad)) (fun d => POk (PData d (1 + pad)))
      end)
  else opt_parsed (slice l 0 size) (fun d => POk (PData d 0)).

(** base.h:1164-1168 / 1195-1198 *)
Definition read_prio (l : list N) (off : N) : option prio :=
  match rd32 l off, rd l (off + 4) with
  | Some raw, Some w => Some (mk_prio (N.land raw 2147483647) w (N.land (N.shiftr raw 31) 1 =? 1))
  | _, _ => None
  end.

(** base.h:1139-1176 (parsing part) *)
Definition parse_headers (h : fhdr) (l : list N) : parsed :=
  let size := N.of_nat (length l) in
  opt_parsed (if has_flag (h_flags h) FLAG_PADDED then validate_padded l 0 size else Some (inr (0, 0, size))) (fun r =>
    match r with
    | inl e => PErr e
    | inr (pad, off, p_len) =>
        if has_flag (h_flags h) FLAG_PRIORITY then
          if p_len <? 5 + pad then PErr FRAME_SIZE_ERROR
          else opt_parsed (read_prio l off) (fun pri =>
                 opt_parsed (slice l (off + 5) (szsub (szsub p_len 5) pad)) (fun f => POk (PHeaders f (Some pri))))
        else opt_parsed (slice l off (szsub p_len pad)) (fun f => POk (PHeaders f None))
    end).

(** base.h:1187-1202 *)
Definition parse_priority (l : list N) : parsed :=
  if negb (5 =? N.of_nat (length l)) then PErr FRAME_SIZE_ERROR
  else opt_parsed (read_prio l 0) (fun p => POk (PPriority p)).

(** base.h:1207-1219 *)
Definition parse_rst (l : list N) : parsed :=
  if negb (4 =? N.of_nat (length l)) then PErr FRAME_SIZE_ERROR
  else opt_parsed (rd32 l 0) (fun c => POk (PRst c)).

(** base.h:1239-1244: the entry loop, i stepping by 6; [fuel] is the number of entries left. *)
Fixpoint read_settings (fuel : nat) (l : list N) (i : N) : option (list (N * N)) :=
  match fuel with
  | O => Some []
  | S k => match rd16 l i, rd32 l (i + 2), read_settings k l (i + 6) with
           | Some id, Some v, Some r => Some ((id, v) :: r)
           | _, _, _ => None
           end
  end.

(** base.h:1224-1248 *)
Definition parse_settings (h : fhdr) (l : list N) : parsed :=
  let size := N.of_nat (length l) in
  if has_flag (h_flags h) FLAG_ACK then PErr FRAME_SIZE_ERROR
  else if negb (size mod 6 =? 0) then PErr FRAME_SIZE_ERROR
  else opt_parsed (read_settings (N.to_nat (size / 6)) l 0) (fun es => POk (PSettings es)).

(** base.h:1253-1280 (parsing part) *)
Definition parse_push (h : fhdr) (l : list N) : parsed :=
  let size := N.of_nat (length l) in
  opt_parsed (if has_flag (h_flags h) FLAG_PADDED then validate_padded l 0 size else Some (inr (0, 0, size))) (fun r =>
    match r with
    | inl e => PErr e
    | inr (pad, off, p_len) =>
        if p_len <? 4 + pad then PErr FRAME_SIZE_ERROR
        else opt_parsed (rd31 l off) (fun id =>
               opt_parsed (slice l (off + 4) (szsub (szsub p_len 4) pad)) (fun f => POk (PPush id f)))
    end).

(** base.h:1291-1303; opaque_data is an 8-octet array *)
Definition parse_ping (l : list N) : parsed :=
  if negb (8 =? N.of_nat (length l)) then PErr FRAME_SIZE_ERROR
  else opt_parsed (slice l 0 (N.of_nat (length l))) (fun o => POk (PPing o)).

(** base.h:1308-1325 *)
Definition parse_goaway (l : list N) : parsed :=
  let size := N.of_nat (length l) in
  if size <? 8 then PErr FRAME_SIZE_ERROR
  else opt_parsed (rd31 l 0) (fun last => opt_parsed (rd32 l 4) (fun code =>
         if 8 <? size then opt_parsed (slice l 8 (size - 8)) (fun d => POk (PGoaway last code d))
         else POk (PGoaway last code []))).

(** base.h:1330-1357 *)
Definition parse_window_update (l : list N) : parsed :=
  if negb (4 =? N.of_nat (length l)) then PErr FRAME_SIZE_ERROR
  else opt_parsed (rd31 l 0) (fun inc =>
         if inc =? 0 then PErr PROTOCOL_ERROR
         else if 2147483647 <? inc then PErr FLOW_CONTROL_ERROR
         else POk (PWindow inc)).

(** base.h:1362-1366 *)
Definition parse_continuation (l : list N) : parsed :=
  opt_parsed (slice l 0 (N.of_nat (length l))) (fun f => POk (PCont f)).

(** base.h:1074-1107 handle_payload_frame_dispatch: None for an unknown type, which is ignored. *)
Definition parse_payload (h : fhdr) (l : list N) : option parsed :=
  let t := h_type h in
  if t =? T_DATA then Some (parse_data h l)
  else if t =? T_HEADERS then Some (parse_headers h l)
  else if t =? T_PRIORITY then Some (parse_priority l)
  else if t =? T_RST_STREAM then Some (parse_rst l)
  else if t =? T_SETTINGS then Some (parse_settings h l)
  else if t =? T_PUSH_PROMISE then Some (parse_push h l)
  else if t =? T_PING then Some (parse_ping l)
  else if t =? T_GOAWAY then Some (parse_goaway l)
  else if t =? T_WINDOW_UPDATE then Some (parse_window_update l)
  else if t =? T_CONTINUATION then Some (parse_continuation l)
  else None.

(** base.h:990-1067 handle_zero_payload_frame_dispatch: what is delivered for an empty payload. *)
Definition parse_zero (h : fhdr) : option parsed :=
  let t := h_type h in
  if t =? T_SETTINGS then Some (POk (PSettings []))
  else if t =? T_PING then Some (PErr FRAME_SIZE_ERROR)
  else if t =? T_HEADERS then Some (POk (PHeaders [] None))
  else if t =? T_DATA then Some (POk (PData [] 0))
  else if (t =? T_PRIORITY) || (t =? T_RST_STREAM) || (t =? T_GOAWAY) || (t =? T_WINDOW_UPDATE) then Some (PErr FRAME_SIZE_ERROR)
  else if t =? T_PUSH_PROMISE then Some (PErr FRAME_SIZE_ERROR)
  else if t =? T_CONTINUATION then Some (POk (PCont []))
  else None.

(** ** The framer: base.h:449-712 *)
Inductive pstate := EXPECTING_PREFACE | EXPECTING_FRAME_HEADER | EXPECTING_FRAME_PAYLOAD.

Record framer := mk_framer {
  fs_state : pstate; fs_preface : list N; fs_hdr : fhdr; fs_expected : N; fs_our_max : N;
  fs_ok : bool; fs_err : option N; fs_cont : bool; fs_cont_sid : N }.

(** base.h:53-58 *)
Definition PREFACE : list N := str "PRI * HTTP/2.0" ++ [13; 10; 13; 10] ++ str "SM" ++ [13; 10; 13; 10].

(** base.h:463-498 a fresh framer.  [our_max] outside the RFC range falls back to the default. *)
Definition framer_init (our_max : N) : framer :=
  mk_framer EXPECTING_PREFACE [] hdr_zero 0
    (if (our_max <? DEFAULT_MAX_FRAME_SIZE) || (MAX_FRAME_SIZE_LIMIT <? our_max) then DEFAULT_MAX_FRAME_SIZE else our_max)
    true None false 0.

(** What the framer calls on the side protocol: on(PrefaceCompleteEvent), on(Http2FrameData<..>),
    handle_framer_detected_error. *)
Inductive fevent := EvPreface | EvFrame (f : frame) | EvError (code sid : N).

Section FRAMER.
  (** The side protocol is a parameter: its state, and what it does on an event.  A [Some code] result
      means it called not_ok(code).  (Exceptions, base.h:692-698, are not modelled.) *)
  Variable S : Type.
  Variable on : S -> fevent -> S * option N.

  Definition set_err (fr : framer) (code : N) : framer :=
    mk_framer (fs_state fr) (fs_preface fr) (fs_hdr fr) (fs_expected fr) (fs_our_max fr) false (Some code) (fs_cont fr) (fs_cont_sid fr).
  Definition set_state (fr : framer) (st : pstate) : framer :=
    mk_framer st (fs_preface fr) (fs_hdr fr) (fs_expected fr) (fs_our_max fr) (fs_ok fr) (fs_err fr) (fs_cont fr) (fs_cont_sid fr).
  Definition set_cont (fr : framer) (c : bool) (sid : N) : framer :=
    mk_framer (fs_state fr) (fs_preface fr) (fs_hdr fr) (fs_expected fr) (fs_our_max fr) (fs_ok fr) (fs_err fr) c sid.
  Definition set_hdr (fr : framer) (h : fhdr) (n : N) : framer :=
    mk_framer (fs_state fr) (fs_preface fr) h n (fs_our_max fr) (fs_ok fr) (fs_err fr) (fs_cont fr) (fs_cont_sid fr).
  Definition set_expected (fr : framer) (n : N) : framer := set_hdr fr (fs_hdr fr) n.
  Definition set_preface (fr : framer) (p : list N) : framer :=
    mk_framer (fs_state fr) p (fs_hdr fr) (fs_expected fr) (fs_our_max fr) (fs_ok fr) (fs_err fr) (fs_cont fr) (fs_cont_sid fr).

  Definition call (fr : framer) (s : S) (e : fevent) : framer * S :=
    let '(s', r) := on s e in (match r with Some c => set_err fr c | None => fr end, s').

  (** base.h:789-794 report_frame_error *)
  Definition report (fr : framer) (s : S) (code sid : N) : framer * S := call (set_err fr code) s (EvError code sid).

  (** base.h:531-563 getMessageSize *)
  Definition message_size (fr : framer) (avail : N) : N :=
    match fs_state fr with
    | EXPECTING_PREFACE =>
        let need := N.of_nat (length PREFACE) - N.of_nat (length (fs_preface fr)) in
        if need =? 0 then 0 else if avail <? need then 0 else need
    | EXPECTING_FRAME_HEADER => if avail <? 9 then 0 else 9
    | EXPECTING_FRAME_PAYLOAD =>
        if fs_expected fr =? 0 then 0 else if avail <? fs_expected fr then 0 else fs_expected fr
    end.

  (** base.h:990-1067 *)
  Definition zero_dispatch (fr : framer) (s : S) : framer * S :=
    match parse_zero (fs_hdr fr) with
    | Some (POk p) => call fr s (EvFrame (mk_frame (fs_hdr fr) p))
    | Some (PErr c) => report fr s c (get_stream_id (fs_hdr fr))
    | Some PUndef => (fr, s) (* not produced by parse_zero *)
    | None => (fr, s)
    end.

  (** base.h:1177-1180, 1281-1284, 1369-1372: the continuation bookkeeping after the handler ran. *)
  Definition after_frame (fr : framer) : framer :=
    let h := fs_hdr fr in
    if negb (fs_ok fr) then fr
    else if (h_type h =? T_HEADERS) || (h_type h =? T_PUSH_PROMISE) then
      let req := negb (has_flag (h_flags h) FLAG_END_HEADERS) in
      set_cont fr req (if req then get_stream_id h else 0)
    else if h_type h =? T_CONTINUATION then
      if has_flag (h_flags h) FLAG_END_HEADERS then set_cont fr false 0 else fr
    else fr.

  (** base.h:1074-1374: None when the parser would read outside the payload; the boolean is the
      handler's return value. *)
  Definition payload_dispatch (fr : framer) (s : S) (l : list N) : option (framer * S * bool) :=
    if negb (fs_ok fr) then Some (fr, s, false)
    else match parse_payload (fs_hdr fr) l with
         | None => Some (fr, s, true)
         | Some PUndef => None
         | Some (PErr c) => let '(fr, s) := report fr s c (get_stream_id (fs_hdr fr)) in Some (fr, s, false)
         | Some (POk p) => let '(fr, s) := call fr s (EvFrame (mk_frame (fs_hdr fr) p)) in Some (after_frame fr, s, true)
         end.

  (** base.h:608-665 onMessage in EXPECTING_FRAME_HEADER; [msg] is the nine octets. *)
  Definition on_header (fr : framer) (s : S) (h : fhdr) : framer * S :=
    let fr := set_hdr fr h (get_payload_length h) in
    if fs_cont fr && negb ((h_type h =? T_CONTINUATION) && (get_stream_id h =? fs_cont_sid fr)) then
      call (set_err fr PROTOCOL_ERROR) s (EvError PROTOCOL_ERROR (fs_cont_sid fr))
    else if (h_type h =? T_SETTINGS) && negb (get_stream_id h =? 0) then (set_err fr PROTOCOL_ERROR, s)
    else if ((h_type h =? T_PING) || (h_type h =? T_GOAWAY)) && negb (get_stream_id h =? 0) then (set_err fr PROTOCOL_ERROR, s)
    else if fs_our_max fr <? fs_expected fr then (set_err fr FRAME_SIZE_ERROR, s)
    else if negb (fs_ok fr) then (fr, s)
    else if fs_expected fr =? 0 then
      let '(fr, s) := zero_dispatch fr s in
      (if fs_ok fr then set_state fr EXPECTING_FRAME_HEADER else fr, s)
    else (set_state fr EXPECTING_FRAME_PAYLOAD, s).

  (** base.h:570-699 onMessage; [msg] is the first getMessageSize() octets of the input. *)
  Definition on_message (fr : framer) (s : S) (msg : list N) : option (framer * S) :=
    match fs_state fr with
    | EXPECTING_PREFACE =>
        let fr := set_preface fr (fs_preface fr ++ msg) in
        if N.of_nat (length (fs_preface fr)) =? N.of_nat (length PREFACE) then
          if beq (fs_preface fr) PREFACE then Some (call (set_state fr EXPECTING_FRAME_HEADER) s EvPreface)
          else Some (set_err fr PROTOCOL_ERROR, s)
        else if N.of_nat (length PREFACE) <? N.of_nat (length (fs_preface fr)) then Some (set_err fr INTERNAL_ERROR, s)
        else Some (fr, s)
    | EXPECTING_FRAME_HEADER =>
        match hdr_of_bytes msg with
        | None => Some (set_err fr INTERNAL_ERROR, s)
        | Some h => Some (on_header fr s h)
        end
    | EXPECTING_FRAME_PAYLOAD =>
        if negb (N.of_nat (length msg) =? fs_expected fr) then
          Some (report fr s FRAME_SIZE_ERROR (get_stream_id (fs_hdr fr)))
        else if N.of_nat (length msg) =? 0 then Some (fr, s)
        else match payload_dispatch fr s msg with
             | None => None
             | Some (fr, s, false) => Some (fr, s)
             | Some (fr, s, true) => Some (set_expected (set_state fr EXPECTING_FRAME_HEADER) 0, s)
             end
    end.

  (** The input loop of qb-io (outside this repository): while the protocol is ok and
      getMessageSize() is positive, onMessage(size) then drop [size] octets.  [fuel] bounds the number
      of messages by the number of octets; [drive] below supplies enough. *)
  Fixpoint drive_n (fuel : nat) (fr : framer) (s : S) (buf : list N) : option (framer * S * list N) :=
    match fuel with
    | O => Some (fr, s, buf)
    | Datatypes.S k =>
        if negb (fs_ok fr) then Some (fr, s, buf)
        else let n := message_size fr (N.of_nat (length buf)) in
             if n =? 0 then Some (fr, s, buf)
             else match on_message fr s (firstn (N.to_nat n) buf) with
                  | None => None
                  | Some (fr, s) => drive_n k fr s (skipn (N.to_nat n) buf)
                  end
    end.
  Definition drive (fr : framer) (s : S) (buf : list N) : option (framer * S * list N) := drive_n (Datatypes.S (length buf)) fr s buf.

  (** Octets arriving in chunks: each chunk is appended to what is left over. *)
  Fixpoint feed (fr : framer) (s : S) (pend : list N) (chunks : list (list N)) : option (framer * S * list N) :=
    match chunks with
    | [] => Some (fr, s, pend)
    | c :: cs => match drive fr s (pend ++ c) with
                 | None => None
                 | Some (fr, s, pend) => feed fr s pend cs
                 end
    end.
End FRAMER.

(** base.h:715-758 send_headers_with_continuation: the frames written for an encoded header block.
    The loop runs at least once; [fuel] bounds the fragments by the block length (the fragment size is
    at least 1).  The early exit on a failed write is not modelled. *)
Definition mk_h (ty fl sid : N) : fhdr := set_stream_id (mk_hdr 0 0 0 ty fl 0 0 0 0) sid.
Fixpoint header_frames (fuel : nat) (first : bool) (sid flags maxf : N) (block : list N) : list frame :=
  match fuel with
  | O => []
  | S k =>
      let frag := firstn (N.to_nat maxf) block in
      let rest := skipn (N.to_nat maxf) block in
      let last := match rest with [] => true | _ => false end in
      (if first then mk_frame (mk_h T_HEADERS (if last then N.lor flags FLAG_END_HEADERS else N.ldiff flags FLAG_END_HEADERS) sid)
                              (PHeaders frag None)
       else mk_frame (mk_h T_CONTINUATION (if last then FLAG_END_HEADERS else 0) sid) (PCont frag))
      :: (if last then [] else header_frames k false sid flags maxf rest)
  end.
Definition send_headers (sid flags peer_max : N) (block : list N) : list frame :=
  header_frames (S (length block)) true sid flags (N.max 1 peer_max) block.

(** ** SettingsHelper, base.cpp:31-102 *)
Definition validate_setting (id value : N) : option N (* the error code when invalid *) :=
  if id =? 2 then if 1 <? value then Some PROTOCOL_ERROR else None
  else if id =? 4 then if MAX_WINDOW <? value then Some FLOW_CONTROL_ERROR else None
  else if id =? 5 then if (value <? MIN_MAX_FRAME_SIZE) || (MAX_FRAME_SIZE_LIMIT <? value) then Some PROTOCOL_ERROR else None
  else if id =? 8 then if 1 <? value then Some PROTOCOL_ERROR else None
  else None.

(** base.cpp:92-102 on the value found in the map, if any *)
Definition safe_max_frame_size (v : option N) : N :=
  match v with
  | Some x => if (MIN_MAX_FRAME_SIZE <=? x) && (x <=? MAX_FRAME_SIZE_LIMIT) then x else 16384
  | None => 16384
  end.

(** base.h:966-969 set_peer_max_frame_size *)
Definition clamp_peer_max_frame_size (size : N) : N := N.max DEFAULT_MAX_FRAME_SIZE (N.min size MAX_FRAME_SIZE_LIMIT).

(** base.cpp:307-336 should_escalate_to_connection *)
Definition should_escalate (code sid : N) : bool :=
  if sid =? 0 then true
  else if existsb (N.eqb code) [1; 9; 10; 11; 12; 13] then true
  else if existsb (N.eqb code) [2; 3; 4; 6] then true
  else false.

(** base.h:379-402, base.cpp:395-442 StreamIdValidator *)
Definition is_client_sid (sid : N) : bool := negb (sid =? 0) && (sid mod 2 =? 1).
Definition is_server_sid (sid : N) : bool := negb (sid =? 0) && (sid mod 2 =? 0).
Definition validate_stream_id (ty sid : N) (is_server : bool) : bool :=
  if existsb (N.eqb ty) [T_SETTINGS; T_PING; T_GOAWAY] then sid =? 0
  else if existsb (N.eqb ty) [T_DATA; T_HEADERS; T_PRIORITY; T_RST_STREAM; T_PUSH_PROMISE; T_CONTINUATION] then
    if sid =? 0 then false
    else if (ty =? T_HEADERS) || (ty =? T_PUSH_PROMISE) then
      if is_server && negb (is_client_sid sid) then false
      else negb (negb is_server && (ty =? T_PUSH_PROMISE) && negb (is_server_sid sid))
    else true
  else true.
