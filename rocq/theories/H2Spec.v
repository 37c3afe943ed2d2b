(** Independent specification of the RFC 9113 wire formats (sections 4.1 and 6).
    It uses the frame data types of the model but none of its functions. *)
From Verif Require Import Base H2Model.
Local Open Scope N_scope.

(** Big-endian value of a string of octets. *)
Fixpoint be_val (l : list N) : N :=
  match l with [] => 0 | b :: r => b * 256 ^ N.of_nat (length r) + be_val r end.

(** Bits of the flags octet. *)
Definition ack (fl : N) : Prop := N.testbit fl 0 = true.
Definition end_stream (fl : N) : Prop := N.testbit fl 0 = true.
Definition end_headers (fl : N) : Prop := N.testbit fl 2 = true.
Definition padded (fl : N) : Prop := N.testbit fl 3 = true.
Definition priority (fl : N) : Prop := N.testbit fl 5 = true.

(** RFC 9113 4.1: nine octets carrying length, type, flags and stream id (top bit reserved). *)
Definition HeaderLayout (bytes : list N) (len ty fl sid : N) : Prop :=
  exists lb sb, bytes = lb ++ [ty; fl] ++ sb /\ length lb = 3%nat /\ length sb = 4%nat /\
    be_val lb = len /\ be_val sb mod 2 ^ 31 = sid.

(** Padding (6.1): with the PADDED flag, one Pad Length octet n, the content, then n octets. *)
Inductive Padded (fl : N) : list N -> list N -> N -> Prop :=
| pad_yes n inner padding : padded fl -> N.of_nat (length padding) = n -> Padded fl (n :: inner ++ padding) inner (1 + n)
| pad_no inner : ~ padded fl -> Padded fl inner inner 0.

(** Priority fields (6.3): E bit, 31-bit dependency, weight. *)
Definition PrioLayout (bytes : list N) (p : prio) : Prop :=
  exists db, bytes = db ++ [p_weight p] /\ length db = 4%nat /\ p_dep p < 2 ^ 31 /\
    be_val db = (if p_excl p then 2 ^ 31 else 0) + p_dep p.

Inductive SettingsLayout : list N -> list (N * N) -> Prop :=
| sl_nil : SettingsLayout [] []
| sl_cons ib vb rest es : length ib = 2%nat -> length vb = 4%nat -> SettingsLayout rest es ->
    SettingsLayout (ib ++ vb ++ rest) ((be_val ib, be_val vb) :: es).

(** The payload formats: [PayloadOf type flags octets content]. *)
Inductive PayloadOf : N -> N -> list N -> payload -> Prop :=
| po_data fl bs d n : Padded fl bs d n -> PayloadOf 0 fl bs (PData d n)
| po_headers fl bs frag n : ~ priority fl -> Padded fl bs frag n -> PayloadOf 1 fl bs (PHeaders frag None)
| po_headers_prio fl bs pb p frag n : priority fl -> Padded fl bs (pb ++ frag) n -> PrioLayout pb p ->
    PayloadOf 1 fl bs (PHeaders frag (Some p))
| po_priority fl bs p : PrioLayout bs p -> PayloadOf 2 fl bs (PPriority p)
| po_rst fl bs : length bs = 4%nat -> PayloadOf 3 fl bs (PRst (be_val bs))
| po_settings fl bs es : ~ ack fl -> SettingsLayout bs es -> PayloadOf 4 fl bs (PSettings es)
| po_settings_ack fl : ack fl -> PayloadOf 4 fl [] (PSettings [])
| po_push fl bs ib frag n : Padded fl bs (ib ++ frag) n -> length ib = 4%nat ->
    PayloadOf 5 fl bs (PPush (be_val ib mod 2 ^ 31) frag)
| po_ping fl bs : length bs = 8%nat -> PayloadOf 6 fl bs (PPing bs)
| po_goaway fl lb cb dbg : length lb = 4%nat -> length cb = 4%nat ->
    PayloadOf 7 fl (lb ++ cb ++ dbg) (PGoaway (be_val lb mod 2 ^ 31) (be_val cb) dbg)
| po_window fl bs : length bs = 4%nat -> be_val bs mod 2 ^ 31 <> 0 -> PayloadOf 8 fl bs (PWindow (be_val bs mod 2 ^ 31))
| po_continuation fl bs : PayloadOf 9 fl bs (PCont bs).

Definition known_type (ty : N) : Prop := ty <= 9.

(** Malformed payloads that RFC 9113 makes a PROTOCOL_ERROR: a Pad Length at least as long as what
    follows it in DATA, HEADERS and PUSH_PROMISE (6.1, 6.2, 6.6), a zero WINDOW_UPDATE increment (6.9). *)
Inductive ProtocolMalformed (ty fl : N) : list N -> Prop :=
| pm_pad n r : ty = 0 \/ ty = 1 \/ ty = 5 -> padded fl -> N.of_nat (length r) < n -> ProtocolMalformed ty fl (n :: r)
| pm_window bs : ty = 8 -> length bs = 4%nat -> be_val bs mod 2 ^ 31 = 0 -> ProtocolMalformed ty fl bs.

(** Contents that fit their field widths (what a C++ Http2FrameData can hold), written without the
    padding and priority options the serializers do not produce. *)
Inductive Sendable : frame -> Prop :=
| sd_data h d : h_type h = 0 -> ~ padded (h_flags h) -> Sendable (mk_frame h (PData d 0))
| sd_headers h f : h_type h = 1 -> ~ padded (h_flags h) -> ~ priority (h_flags h) -> Sendable (mk_frame h (PHeaders f None))
| sd_priority h p : h_type h = 2 -> p_dep p < 2 ^ 31 -> Sendable (mk_frame h (PPriority p))
| sd_rst h c : h_type h = 3 -> c < 2 ^ 32 -> Sendable (mk_frame h (PRst c))
| sd_settings h es : h_type h = 4 -> (ack (h_flags h) -> es = []) -> get_stream_id h = 0 ->
    Forall (fun e => fst e < 2 ^ 16 /\ snd e < 2 ^ 32) es -> Sendable (mk_frame h (PSettings es))
| sd_push h id f : h_type h = 5 -> ~ padded (h_flags h) -> id < 2 ^ 31 -> Sendable (mk_frame h (PPush id f))
| sd_ping h o : h_type h = 6 -> length o = 8%nat -> get_stream_id h = 0 -> Sendable (mk_frame h (PPing o))
| sd_goaway h l c d : h_type h = 7 -> l < 2 ^ 31 -> c < 2 ^ 32 -> get_stream_id h = 0 -> Sendable (mk_frame h (PGoaway l c d))
| sd_window h i : h_type h = 8 -> 0 < i < 2 ^ 31 -> Sendable (mk_frame h (PWindow i))
| sd_cont h f : h_type h = 9 -> Sendable (mk_frame h (PCont f)).

(** Every octet of the frame's header and content is an octet. *)
Definition hdr_ok (h : fhdr) : Prop := bytes_ok (hdr_bytes h).

(** Values RFC 9113 6.5.2 (and RFC 8441 for 8) forbid for a setting, with the error code. *)
Inductive SettingForbidden : N -> N -> N -> Prop :=
| sf_push v : 1 < v -> SettingForbidden 2 v 1
| sf_window v : 2 ^ 31 - 1 < v -> SettingForbidden 4 v 3
| sf_frame_small v : v < 2 ^ 14 -> SettingForbidden 5 v 1
| sf_frame_big v : 2 ^ 24 - 1 < v -> SettingForbidden 5 v 1
| sf_connect v : 1 < v -> SettingForbidden 8 v 1.

(** ** Sequences of frames *)

(** The field block currently open after a sequence of dispatched frames (RFC 9113 4.3, 6.10): opened by
    HEADERS or PUSH_PROMISE without END_HEADERS, closed by END_HEADERS. *)
Definition open_step (o : option N) (e : fevent) : option N :=
  match e with
  | EvFrame f =>
      let h := fr_hdr f in
      if (h_type h =? 1) || (h_type h =? 5) then if N.testbit (h_flags h) 2 then None else Some (get_stream_id h)
      else if h_type h =? 9 then if N.testbit (h_flags h) 2 then None else o
      else o
  | _ => o
  end.
Definition open_block (evs : list fevent) : option N := fold_left open_step evs None.

(** A sequence RFC 9113 4.3 allows: nothing but CONTINUATION on the same stream inside a block. *)
Inductive BlockSeq : option N -> list frame -> Prop :=
| bs_nil o : BlockSeq o []
| bs_frame f fs : h_type (fr_hdr f) <> 9 -> BlockSeq (open_step None (EvFrame f)) fs -> BlockSeq None (f :: fs)
| bs_cont sid f fs : h_type (fr_hdr f) = 9 -> get_stream_id (fr_hdr f) = sid ->
    BlockSeq (open_step (Some sid) (EvFrame f)) fs -> BlockSeq (Some sid) (f :: fs).

(** The event reports the frame that was sent: same type, flags, stream and content. *)
Definition Delivered (f : frame) (e : fevent) : Prop :=
  exists g, e = EvFrame g /\ h_type (fr_hdr g) = h_type (fr_hdr f) /\ h_flags (fr_hdr g) = h_flags (fr_hdr f) /\
    get_stream_id (fr_hdr g) = get_stream_id (fr_hdr f) /\ fr_pl g = fr_pl f.

(** A side protocol that only records: what it was told so far, and an arbitrary verdict
    (None: go on; Some code: fail the connection) computed from that history. *)
Definition recorder (verdict : list fevent -> option N) (s : list fevent) (e : fevent) : list fevent * option N :=
  (s ++ [e], verdict (s ++ [e])).

(** The header-block fragment a frame carries. *)
Definition fragment (f : frame) : list N :=
  match fr_pl f with PHeaders x _ => x | PPush _ x => x | PCont x => x | _ => [] end.

(** RFC 9113 4.3: one HEADERS, then CONTINUATIONs; fragments in order give the block; END_HEADERS on the
    last and only there; every fragment within the peer's SETTINGS_MAX_FRAME_SIZE. *)
Definition HeaderBlockFrames (sid flags maxf : N) (block : list N) (fs : list frame) : Prop :=
  concat (map fragment fs) = block /\
  Forall (fun f => get_stream_id (fr_hdr f) = sid /\ N.of_nat (length (fragment f)) <= maxf) fs /\
  (forall pre f post, fs = pre ++ f :: post ->
     (h_type (fr_hdr f) = if pre then 1 else 9) /\ (end_headers (h_flags (fr_hdr f)) <-> post = [])) /\
  (exists f0 rest, fs = f0 :: rest /\ forall i, i <> 2 -> N.testbit (h_flags (fr_hdr f0)) i = N.testbit flags i).
