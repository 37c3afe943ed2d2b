(** Independent specification for WebSocket (RFC 6455) and UTF-8 (RFC 3629). *)
From Verif Require Import Base H2Spec.
Local Open Scope N_scope.

(** ** UTF-8: the encoding of Unicode scalar values *)
Definition Scalar (c : N) : Prop := c < 55296 \/ 57344 <= c < 1114112.
Definition utf8 (c : N) : list N :=
  if c <? 128 then [c]
  else if c <? 2048 then [192 + c / 64; 128 + c mod 64]
  else if c <? 65536 then [224 + c / 4096; 128 + c / 64 mod 64; 128 + c mod 64]
  else [240 + c / 262144; 128 + c / 4096 mod 64; 128 + c / 64 mod 64; 128 + c mod 64].
Definition Utf8 (s : list N) : Prop := exists cs, Forall Scalar cs /\ s = flat_map utf8 cs.

(** ** Frames on the wire (RFC 6455 5.2) *)
Record wframe := mk_wf { wf_fin : bool; wf_op : N; wf_mask : option (list N); wf_payload : list N }.
(** [n] is encoded by the 7-bit indicator [ind] and the extension octets [ext], in the shortest form. *)
Definition LengthBytes (n ind : N) (ext : list N) : Prop :=
  (n < 126 /\ ind = n /\ ext = []) \/
  (126 <= n < 65536 /\ ind = 126 /\ length ext = 2%nat /\ be_val ext = n) \/
  (65536 <= n < 2 ^ 63 /\ ind = 127 /\ length ext = 8%nat /\ be_val ext = n).
(** [b] is [a] masked with the four octets [m] (RFC 6455 5.3). *)
Definition Masked (m a b : list N) : Prop :=
  length m = 4%nat /\ length a = length b /\ forall i, (i < length a)%nat -> nth i b 0 = N.lxor (nth i a 0) (nth (i mod 4) m 0).
Inductive Wire : wframe -> list N -> Prop :=
| wire_plain fin op payload ind ext : LengthBytes (N.of_nat (length payload)) ind ext ->
    Wire (mk_wf fin op None payload) ((if fin then 128 else 0) + op :: ind :: ext ++ payload)
| wire_masked fin op m payload ind ext body : LengthBytes (N.of_nat (length payload)) ind ext -> Masked m payload body ->
    Wire (mk_wf fin op (Some m) payload) ((if fin then 128 else 0) + op :: 128 + ind :: ext ++ m ++ body).

Definition data_op (op : N) : Prop := op = 0 \/ op = 1 \/ op = 2.
Definition control_op (op : N) : Prop := op = 8 \/ op = 9 \/ op = 10.
(** A frame one endpoint may send to an endpoint that is ([server]) or is not the server. *)
Definition ValidFrame (server : bool) (f : wframe) : Prop :=
  (data_op (wf_op f) \/ control_op (wf_op f) /\ wf_fin f = true /\ N.of_nat (length (wf_payload f)) <= 125) /\
  (wf_mask f = None <-> server = false) /\ bytes_ok (wf_payload f).

(** ** Conversations *)
Inductive wevent :=
| EMsg (op : N) (data : list N)    (* a text (1) or binary (2) message *)
| EPing (data : list N)
| EPong (data : list N)
| EClose (data : list N).

Definition fits (max : N) (d : list N) : Prop := max = 0 \/ N.of_nat (length d) <= max.
(** Close codes that may appear on the wire (RFC 6455 7.4). *)
Definition close_code_ok (c : N) : Prop := 1000 <= c <= 4999 /\ ~ In c [1004; 1005; 1006; 1015].
Definition ClosePayload (p : list N) : Prop :=
  p = [] \/ exists a b reason, p = a :: b :: reason /\ close_code_ok (be_val [a; b]) /\ Utf8 reason.

(** The state between frames is the message in progress.  [Frame max st f st' evs]: frame [f] is legal in state [st], leads to [st']
    and makes the endpoint report [evs]. *)
Notation progress := (option (N * list N)).
Definition complete (op : N) (d : list N) : Prop := op = 1 -> Utf8 d.
Inductive FrameStep (max : N) : progress -> wframe -> progress -> list wevent -> Prop :=
| fs_single op m p : op = 1 \/ op = 2 -> fits max p -> complete op p -> FrameStep max None (mk_wf true op m p) None [EMsg op p]
| fs_first op m p : op = 1 \/ op = 2 -> fits max p -> FrameStep max None (mk_wf false op m p) (Some (op, p)) []
| fs_middle op d m p : fits max (d ++ p) -> FrameStep max (Some (op, d)) (mk_wf false 0 m p) (Some (op, d ++ p)) []
| fs_last op d m p : fits max (d ++ p) -> complete op (d ++ p) -> FrameStep max (Some (op, d)) (mk_wf true 0 m p) None [EMsg op (d ++ p)]
| fs_ping st m p : FrameStep max st (mk_wf true 9 m p) st [EPing p]
| fs_pong st m p : FrameStep max st (mk_wf true 10 m p) st [EPong p].
Inductive Conversation (server : bool) (max : N) : progress -> list wframe -> progress -> list wevent -> Prop :=
| conv_nil st : Conversation server max st [] st []
| conv_cons st f st1 evs fs st2 evs2 : ValidFrame server f -> FrameStep max st f st1 evs -> Conversation server max st1 fs st2 evs2 ->
    Conversation server max st (f :: fs) st2 (evs ++ evs2).

(** Why an endpoint may give up on the octets [rest] that follow a legal conversation, and with which close code. *)
Inductive Offence (server : bool) (max : N) (st : progress) (rest : list N) : N -> Prop :=
(* the two first octets of a frame *)
| of_opcode b0 b1 t : rest = b0 :: b1 :: t -> ~ data_op (b0 mod 16) -> ~ control_op (b0 mod 16) -> Offence server max st rest 1002
| of_rsv b0 b1 t : rest = b0 :: b1 :: t -> b0 / 16 mod 8 <> 0 -> Offence server max st rest 1002
| of_fragmented_control b0 b1 t : rest = b0 :: b1 :: t -> control_op (b0 mod 16) -> b0 < 128 -> Offence server max st rest 1002
| of_mask b0 b1 t : rest = b0 :: b1 :: t -> (128 <= b1 <-> server = false) -> Offence server max st rest 1002
| of_long_control b0 b1 t : rest = b0 :: b1 :: t -> control_op (b0 mod 16) -> 125 < b1 mod 128 -> Offence server max st rest 1002
(* the length *)
| of_length16 b0 b1 ext t : rest = b0 :: b1 :: ext ++ t -> b1 mod 128 = 126 -> length ext = 2%nat -> be_val ext < 126 -> Offence server max st rest 1002
| of_length64 b0 b1 ext t : rest = b0 :: b1 :: ext ++ t -> b1 mod 128 = 127 -> length ext = 8%nat -> be_val ext < 65536 \/ 2 ^ 63 <= be_val ext -> Offence server max st rest 1002
| of_too_big b0 b1 ext t n : rest = b0 :: b1 :: ext ++ t -> LengthBytes n (b1 mod 128) ext -> max <> 0 -> max < n -> data_op (b0 mod 16) -> Offence server max st rest 1009
(* a complete frame out of place *)
| of_interleaved f w t op d : rest = w ++ t -> Wire f w -> ValidFrame server f -> st = Some (op, d) -> wf_op f = 1 \/ wf_op f = 2 -> Offence server max st rest 1002
| of_orphan f w t : rest = w ++ t -> Wire f w -> ValidFrame server f -> st = None -> wf_op f = 0 -> Offence server max st rest 1002
| of_total f w t op d : rest = w ++ t -> Wire f w -> ValidFrame server f -> st = Some (op, d) -> wf_op f = 0 -> ~ fits max (d ++ wf_payload f) -> Offence server max st rest 1009
| of_text f w t : rest = w ++ t -> Wire f w -> ValidFrame server f -> st = None -> wf_op f = 1 -> wf_fin f = true -> ~ Utf8 (wf_payload f) -> Offence server max st rest 1007
| of_text_fragments f w t d : rest = w ++ t -> Wire f w -> ValidFrame server f -> st = Some (1, d) -> wf_op f = 0 -> wf_fin f = true ->
    ~ Utf8 (d ++ wf_payload f) -> Offence server max st rest 1007
| of_close_code f w t : rest = w ++ t -> Wire f w -> ValidFrame server f -> wf_op f = 8 ->
    (length (wf_payload f) = 1%nat \/ exists a b r, wf_payload f = a :: b :: r /\ ~ close_code_ok (be_val [a; b])) -> Offence server max st rest 1002
| of_close_reason f w t a b r : rest = w ++ t -> Wire f w -> ValidFrame server f -> wf_op f = 8 -> wf_payload f = a :: b :: r -> ~ Utf8 r -> Offence server max st rest 1007.

(** ** What can be observed of an endpoint: events handed to the application, octets written to the peer, the
    report of a protocol error. *)
Inductive logitem := WEv (e : wevent) | WOut (b : list N) | WErr.
(** [b] is one frame written by an endpoint: unmasked by a server, masked by a client. *)
Definition Sends (server : bool) (op : N) (p b : list N) : Prop := exists m, Wire (mk_wf true op m p) b /\ (m = None <-> server = true).
(** The events of a conversation with the answers they require: every ping is answered by a pong that carries the same octets, at once. *)
Inductive Chronicle (server : bool) : list wevent -> list logitem -> Prop :=
| ch_nil : Chronicle server [] []
| ch_ping p b evs l : Sends server 10 p b -> Chronicle server evs l -> Chronicle server (EPing p :: evs) (WEv (EPing p) :: WOut b :: l)
| ch_other e evs l : (forall p, e <> EPing p) -> Chronicle server evs l -> Chronicle server (e :: evs) (WEv e :: l).
(** Nothing can be concluded from [rest] yet: it neither starts with a frame nor shows an offence. *)
Definition Incomplete (server : bool) (max : N) (rest : list N) : Prop :=
  (forall f w t, rest = w ++ t -> Wire f w -> ValidFrame server f -> False) /\ (forall st code, ~ Offence server max st rest code).
(** [rest] starts with a legal close frame of payload [p]. *)
Definition ClosesWith (server : bool) (rest p : list N) : Prop :=
  exists f w t, rest = w ++ t /\ Wire f w /\ ValidFrame server f /\ wf_op f = 8 /\ wf_payload f = p /\ ClosePayload p.
(** The last items observed after a legal conversation that left message [st] in progress, when the octets [rest] follow it.
    [has_close]: the application handles close events; [thr e]: its handler throws on [e]. *)
Inductive Ends (server has_close : bool) (max : N) (thr : wevent -> bool) (st : progress) (rest : list N) : bool -> list logitem -> Prop :=
| en_running : Incomplete server max rest -> Ends server has_close max thr st rest true []
| en_failed code reason b : Offence server max st rest code -> Utf8 reason -> Sends server 8 (code / 256 :: code mod 256 :: reason) b ->
    Ends server has_close max thr st rest false [WOut b; WErr]
| en_close_handled p : has_close = true -> ClosesWith server rest p -> Ends server has_close max thr st rest false [WEv (EClose p)]
| en_close_echoed p b : has_close = false -> ClosesWith server rest p -> Sends server 8 p b -> Ends server has_close max thr st rest false [WOut b]
| en_thrown f w t st' e : rest = w ++ t -> Wire f w -> ValidFrame server f -> FrameStep max st f st' [e] -> thr e = true ->
    Ends server has_close max thr st rest false [WEv e].
