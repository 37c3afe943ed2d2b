(** A reader of HTTP/1.1 messages, written from RFC 9112, independent of the code: how an octet stream is
    cut into a start line, field lines and a body.  No reference to the model. *)
From Verif Require Import Base UtilSpec CookieSpec H2FieldSpec.
Local Open Scope N_scope.

Definition CRLF : list N := [13; 10].
Definition NoEol (l : list N) : Prop := Forall (fun c => c <> 13 /\ c <> 10) l.

(** A field: name and value. *)
Notation field := (list N * list N)%type.

(** field-line = field-name ":" OWS field-value OWS (RFC 9112 5) *)
Definition FieldLine (f : field) (line : list N) : Prop :=
  Token (fst f) /\ exists raw, line = fst f ++ [58] ++ raw /\ NoEol raw /\ Trimmed raw (snd f).

(** FieldLines fs s rest: s is the field lines fs, the empty line, and then rest. *)
Inductive FieldLines : list field -> list N -> list N -> Prop :=
| fl_end rest : FieldLines [] (CRLF ++ rest) rest
| fl_more f line fs s rest : FieldLine f line -> FieldLines fs s rest ->
    FieldLines (f :: fs) (line ++ CRLF ++ s) rest.

(** Decimal and hexadecimal numerals. *)
Definition Decimal (ds : list N) (n : N) : Prop := ds <> [] /\ Forall Digit ds /\ dec_val ds = n.
Fixpoint hex_val (vs : list N) : N := match vs with [] => 0 | v :: r => v * 16 ^ N.of_nat (length r) + hex_val r end.
Definition Hexadecimal (ds : list N) (n : N) : Prop := ds <> [] /\ exists vs, Forall2 HexVal ds vs /\ hex_val vs = n.

(** Chunked transfer coding without extensions and trailers (RFC 9112 7.1). *)
Inductive ChunkedBody : list N -> list N -> list N -> Prop :=
| cb_last size rest : Hexadecimal size 0 -> ChunkedBody [] (size ++ CRLF ++ CRLF ++ rest) rest
| cb_chunk size data more s rest :
    data <> [] -> Hexadecimal size (N.of_nat (length data)) -> ChunkedBody more s rest ->
    ChunkedBody (data ++ more) (size ++ CRLF ++ data ++ CRLF ++ s) rest.

(** The values of the fields with a given name, compared without regard to case. *)
Definition values_of (name : list N) (fs : list field) : list (list N) :=
  map snd (filter (fun f => beq (map lower (fst f)) (map lower name)) fs).

Inductive framing := Chunked | Length (n : N) | Undeclared.

(** The framing a list of fields declares (RFC 9112 6.1-6.3); there is none when the fields conflict. *)
Inductive Declares (fs : list field) : framing -> Prop :=
| d_chunked tss t : values_of (str "Transfer-Encoding") fs <> [] ->
    Forall2 (HeaderItems 44) (values_of (str "Transfer-Encoding") fs) tss -> concat tss = [t] ->
    map lower t = str "chunked" -> values_of (str "Content-Length") fs = [] -> Declares fs Chunked
| d_length n : values_of (str "Transfer-Encoding") fs = [] -> values_of (str "Content-Length") fs <> [] ->
    Forall (fun v => Decimal v n) (values_of (str "Content-Length") fs) -> Declares fs (Length n)
| d_none : values_of (str "Transfer-Encoding") fs = [] -> values_of (str "Content-Length") fs = [] ->
    Declares fs Undeclared.

(** Request: METHOD SP target SP HTTP/major.minor CRLF, fields, body; a request that declares no framing has
    no body. *)
Definition RequestBody (fr : framing) (body s rest : list N) : Prop :=
  match fr with
  | Chunked => ChunkedBody body s rest
  | Length n => s = body ++ rest /\ N.of_nat (length body) = n
  | Undeclared => body = [] /\ s = rest
  end.

Definition ReadRequest (s : list N) (method target : list N) (major minor : N) (fs : list field)
    (body rest : list N) : Prop :=
  exists maj min s1 s2 fr,
    s = method ++ [32] ++ target ++ [32] ++ str "HTTP/" ++ maj ++ [46] ++ min ++ CRLF ++ s1 /\
    Token method /\ target <> [] /\ Forall (fun c => c <> 32 /\ c <> 13 /\ c <> 10) target /\
    Decimal maj major /\ Decimal min minor /\
    FieldLines fs s1 s2 /\ Declares fs fr /\ RequestBody fr body s2 rest.

(** Statuses whose responses have no body whatever the fields say (RFC 9112 6.3). *)
Definition Bodyless (status : N) : Prop := 100 <= status < 200 \/ status = 204 \/ status = 304.

(** A response that declares no framing extends to the end of the connection. *)
Definition ResponseBody (status : N) (fr : framing) (body s rest : list N) : Prop :=
  (Bodyless status /\ body = [] /\ rest = s) \/
  (~ Bodyless status /\ match fr with
                        | Chunked => ChunkedBody body s rest
                        | Length n => s = body ++ rest /\ N.of_nat (length body) = n
                        | Undeclared => body = s /\ rest = []
                        end).

(** Response to a request other than HEAD and CONNECT. *)
Definition ReadResponse (s : list N) (major minor status : N) (reason : list N) (fs : list field)
    (body rest : list N) : Prop :=
  exists maj min code s1 s2 fr,
    s = str "HTTP/" ++ maj ++ [46] ++ min ++ [32] ++ code ++ [32] ++ reason ++ CRLF ++ s1 /\
    Decimal maj major /\ Decimal min minor /\ Decimal code status /\ NoEol reason /\
    FieldLines fs s1 s2 /\ Declares fs fr /\ ResponseBody status fr body s2 rest.

(** The fields of a header map, one per value. *)
Definition fields_of (h : list (list N * list (list N))) : list field :=
  flat_map (fun e => map (fun v => (fst e, v)) (snd e)) h.

(** What a reader gets for the fields given: same names, values without surrounding blanks. *)
Definition SentAs (given read : list field) : Prop :=
  Forall2 (fun g r => fst g = fst r /\ Trimmed (snd g) (snd r)) given read.

(** A header map: octets, names distinct up to case, at least one value each. *)
Definition HeaderMap (h : list (list N * list (list N))) : Prop :=
  Forall (fun e => bytes_ok (fst e) /\ snd e <> [] /\ Forall bytes_ok (snd e)) h /\
  NoDup (map (fun e => map lower (fst e)) h).

(** The estimate of the size of the header section: name and value sizes, two octets for each separator. *)
Definition section_size (h : list (list N * list (list N))) : N :=
  fold_right (fun e a => N.of_nat (length (fst e)) + 2 +
                         fold_right (fun v b => N.of_nat (length v) + 2 + b) 0 (snd e) + a) 0 h.

(** A field the library sends: a token of at most 1024 octets, a value of visible characters, blanks, tabs
    and octets above 127, at most 8192 octets. *)
Definition SendableField (f : field) : Prop :=
  (Token (fst f) /\ N.of_nat (length (fst f)) <= 1024) /\
  (Forall FieldVchar (snd f) /\ N.of_nat (length (snd f)) <= 8192).
