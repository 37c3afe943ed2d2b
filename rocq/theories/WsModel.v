(** Model of src/qbm/http/ws/ws.h and ws.cpp: UTF-8 check, close messages, frame serialisation, the frame
    parser [ws_internal::base] and the handshake checks.  Octets are N below 256; size_t values are N (the
    parser never adds to a length of 2^63 or more, see WsProps). *)
From Verif Require Import Base H2Spec WsSpec UtilModel.
Local Open Scope N_scope.

(** ws.cpp:101-103 the lambda is_cont *)
Definition is_cont (b : N) : bool := N.land b 192 =? 128.
Definition between (a b x : N) : bool := (a <=? x) && (x <=? b).

(** ws.cpp:96-203 is_utf8; the index [i] is the number of octets already dropped *)
Fixpoint is_utf8 (s : list N) : bool :=
  match s with
  | [] => true
  | b0 :: r0 =>
    if b0 <=? 127 then is_utf8 r0
    else if between 194 223 b0 then
      match r0 with b1 :: r1 => if negb (is_cont b1) then false else is_utf8 r1 | _ => false end
    else if b0 =? 224 then
      match r0 with b1 :: b2 :: r2 => if (b1 <? 160) || (191 <? b1) || negb (is_cont b2) then false else is_utf8 r2 | _ => false end
    else if between 225 236 b0 then
      match r0 with b1 :: b2 :: r2 => if negb (is_cont b1) || negb (is_cont b2) then false else is_utf8 r2 | _ => false end
    else if b0 =? 237 then
      match r0 with b1 :: b2 :: r2 => if (b1 <? 128) || (159 <? b1) || negb (is_cont b2) then false else is_utf8 r2 | _ => false end
    else if between 238 239 b0 then
      match r0 with b1 :: b2 :: r2 => if negb (is_cont b1) || negb (is_cont b2) then false else is_utf8 r2 | _ => false end
    else if b0 =? 240 then
      match r0 with b1 :: b2 :: b3 :: r3 => if (b1 <? 144) || (191 <? b1) || negb (is_cont b2) || negb (is_cont b3) then false else is_utf8 r3 | _ => false end
    else if between 241 243 b0 then
      match r0 with b1 :: b2 :: b3 :: r3 => if negb (is_cont b1) || negb (is_cont b2) || negb (is_cont b3) then false else is_utf8 r3 | _ => false end
    else if b0 =? 244 then
      match r0 with b1 :: b2 :: b3 :: r3 => if (b1 <? 128) || (143 <? b1) || negb (is_cont b2) || negb (is_cont b3) then false else is_utf8 r3 | _ => false end
    else false
  end.

(** ws.h:253-266 is_sendable_close_code (also is_valid_received_close_code, ws.h:413-416) *)
Definition is_sendable_close_code (code : N) : bool :=
  if (code <? 1000) || (4999 <? code) then false
  else if (code =? 1004) || (code =? 1005) || (code =? 1006) || (code =? 1015) then false else true.

(** ws.cpp:222-227: the loop that shortens a clipped reason, on the reversed text *)
Fixpoint shrink (n : nat) (reason : list N) : list N :=
  match n with
  | O => reason
  | S k => match reason with [] => [] | _ => if is_utf8 reason then reason else shrink k (removelast reason) end
  end.
(** ws.cpp:210-234 MessageClose::MessageClose: the payload, or None when it throws *)
Definition message_close (status : N) (reason : list N) : option (list N) :=
  if negb (is_sendable_close_code status) then None
  else
    let reason := if 123 <? N.of_nat (length reason) then shrink 123 (firstn 123 reason) else reason in
    if (match reason with [] => false | _ => true end) && negb (is_utf8 reason) then None
    else Some (N.land (N.shiftr status 8) 255 :: N.land status 255 :: reason).

(** ws.h:398-411 is_valid_frame_opcode *)
Definition is_valid_frame_opcode (op : N) : bool := (op =? 0) || (op =? 1) || (op =? 2) || (op =? 8) || (op =? 9) || (op =? 10).
(** ws.cpp:257-261 is_control_opcode *)
Definition is_control_opcode (fro : N) : bool := 8 <=? N.land fro 15.
(** ws.cpp:263-278 enforce_outgoing_frame_constraints: false when it throws *)
Definition outgoing_ok (fro size : N) : bool :=
  if negb (N.land fro 112 =? 0) then false
  else if negb (is_valid_frame_opcode (N.land fro 15)) then false
  else if is_control_opcode fro && (125 <? size) then false
  else if is_control_opcode fro && (N.land fro 128 =? 0) then false
  else true.

(** ws.cpp:315-316 and 366-367: the length octets, most significant first *)
Fixpoint len_bytes (c : nat) (length : N) : list N :=
  match c with O => [] | S k => N.shiftr length (8 * N.of_nat k) mod 256 :: len_bytes k length end.
(** ws.cpp:302-320, 353-371: length field, with the mask bit [mb] (0 or 128) *)
Definition length_field (mb length : N) : list N :=
  if 126 <=? length then
    if 65535 <? length then (127 + mb) :: len_bytes 8 length else (126 + mb) :: len_bytes 2 length
  else [length + mb].
(** ws.cpp:385-394: masking, four octets at a time and then octet by octet.  A 32-bit XOR of words copied with
    memcpy is the XOR of their octets whatever the byte order. *)
Fixpoint mask_payload (m : list N) (i : nat) (d : list N) : list N :=
  match d with
  | a :: b :: c :: e :: r =>
      N.lxor a (nth 0 m 0) :: N.lxor b (nth 1 m 0) :: N.lxor c (nth 2 m 0) :: N.lxor e (nth 3 m 0) :: mask_payload m (i + 4) r
  | a :: b :: c :: [] => [N.lxor a (nth (i mod 4) m 0); N.lxor b (nth ((i + 1) mod 4) m 0); N.lxor c (nth ((i + 2) mod 4) m 0)]
  | a :: b :: [] => [N.lxor a (nth (i mod 4) m 0); N.lxor b (nth ((i + 1) mod 4) m 0)]
  | [a] => [N.lxor a (nth (i mod 4) m 0)]
  | [] => []
  end.
(** ws.cpp:291-324 fill_unmasked_message, 336-395 fill_masked_message, 405-413 put: None when it throws.
    The mask [m] comes from the CSPRNG pool (ws.cpp:41-80), not modelled. *)
Definition serialize (mask : option (list N)) (fro : N) (payload : list N) : option (list N) :=
  let n := N.of_nat (length payload) in
  if negb (outgoing_ok fro n) then None
  else Some (match mask with
             | None => fro :: length_field 0 n ++ payload
             | Some m => fro :: length_field 128 n ++ m ++ mask_payload m 0 payload
             end).

(** ** The parser: ws.h:427-785 class base.  [w_masked] is _message.masked, [w_data] the octets of _message. *)
Record ws := mk_ws { w_ok : bool; w_parsed : N; w_exp : N; w_fro : N; w_dop : N; w_data : list N; w_masked : bool; w_sent : nat; w_log : list logitem }.
Definition ws_init : ws := mk_ws true 0 0 0 0 [] false 0 [].
Definition set_ok b s := mk_ws b (w_parsed s) (w_exp s) (w_fro s) (w_dop s) (w_data s) (w_masked s) (w_sent s) (w_log s).
Definition set_parsed v s := mk_ws (w_ok s) v (w_exp s) (w_fro s) (w_dop s) (w_data s) (w_masked s) (w_sent s) (w_log s).
Definition set_exp v s := mk_ws (w_ok s) (w_parsed s) v (w_fro s) (w_dop s) (w_data s) (w_masked s) (w_sent s) (w_log s).
Definition set_fro v s := mk_ws (w_ok s) (w_parsed s) (w_exp s) v (w_dop s) (w_data s) (w_masked s) (w_sent s) (w_log s).
Definition set_dop v s := mk_ws (w_ok s) (w_parsed s) (w_exp s) (w_fro s) v (w_data s) (w_masked s) (w_sent s) (w_log s).
Definition set_data v s := mk_ws (w_ok s) (w_parsed s) (w_exp s) (w_fro s) (w_dop s) v (w_masked s) (w_sent s) (w_log s).
Definition set_masked v s := mk_ws (w_ok s) (w_parsed s) (w_exp s) (w_fro s) (w_dop s) (w_data s) v (w_sent s) (w_log s).
Definition set_sent v s := mk_ws (w_ok s) (w_parsed s) (w_exp s) (w_fro s) (w_dop s) (w_data s) (w_masked s) v (w_log s).
Definition wnote i s := mk_ws (w_ok s) (w_parsed s) (w_exp s) (w_fro s) (w_dop s) (w_data s) (w_masked s) (w_sent s) (i :: w_log s).

Section WS.
(** IO_::has_server; whether IO_ handles the close event; _max_payload_size; the masks the pool hands out; which
    events make the application's handler throw. *)
Variable server : bool.
Variable has_close : bool.
Variable max : N.
Variable masks : nat -> list N.
Variable thr : wevent -> bool.

(** _io << message, with masked as set just before (ws.h:461-463, 486-489).  The bool is false when put throws. *)
Definition send (fro : N) (payload : list N) (s : ws) : ws * bool :=
  match serialize (if server then None else Some (masks (w_sent s))) fro payload with
  | None => (s, false)
  | Some b => (wnote (WOut b) (set_sent (if server then w_sent s else S (w_sent s)) s), true)
  end.

(** ws.h:457-471 fail_connection and 473-480 notify_protocol_error.  The constructor of MessageClose and put do
    not throw on the arguments used; an exception of the application's error handler is not modelled. *)
Definition fail (status : N) (reason : list N) (s : ws) : ws :=
  if w_ok s then
    match message_close status reason with
    | None => s
    | Some p => let s := fst (send 136 p s) in
                set_dop 0 (set_data [] (set_ok false (wnote WErr s)))
    end
  else s.

(** Report an event to the application; the bool is false when its handler throws. *)
Definition report (e : wevent) (s : ws) : ws * bool := (wnote (WEv e) s, negb (thr e)).

(** ws.h:695-696: length += byte << (8 * (num_bytes - 1 - c)) *)
Fixpoint sum_length (num : nat) (l : list N) : N :=
  match num, l with
  | S k, b :: r => N.shiftl b (8 * N.of_nat k) + sum_length k r
  | _, _ => 0
  end.

(** ws.h:482-534 processControlFrame; false when an exception escapes *)
Definition process_control (op : N) (p : list N) (s : ws) : ws * bool :=
  if op =? 8 then
    let echo s :=
      let '(s, okb) := if has_close then report (EClose p) s else send (w_fro s) p s in
      if okb then (set_ok false s, true) else (s, false) in
    match p with
    | [] => echo s
    | [_] => (fail 1002 (str "Close frame payload of 1 byte is invalid") s, true)
    | a :: b :: reason =>
        let code := N.lor (N.shiftl a 8) b in
        if negb (is_sendable_close_code code) then (fail 1002 (str "Invalid close status code") s, true)
        else if (match reason with [] => false | _ => true end) && negb (is_utf8 reason) then (fail 1007 (str "Invalid UTF-8 in close reason") s, true)
        else echo s
    end
  else if op =? 9 then
    let '(s, okb) := report (EPing p) s in
    if okb then send 138 p s else (s, false)
  else if op =? 10 then report (EPong p) s
  else (s, true).

(** ws.h:536-589 processDataFrame; false when an exception escapes (the reassembly buffer is then left as it is) *)
Definition process_data (op : N) (fin : bool) (p : list N) (s : ws) : ws * bool :=
  let s :=
    if negb (op =? 0) then
      if negb (w_dop s =? 0) then fail 1002 (str "Received new data message before previous was complete") s
      else set_data [] (set_dop op s)
    else if w_dop s =? 0 then fail 1002 (str "Received continuation frame without initial data frame") s
    else s in
  if w_ok s then
    if (0 <? max) && ((max <? N.of_nat (length (w_data s))) || (max - N.of_nat (length (w_data s)) <? N.of_nat (length p))) then
      (fail 1009 (str "Payload size exceeds configured limit") s, true)
    else
      let s := set_data (w_data s ++ p) s in
      if fin then
        if w_dop s =? 0 then (fail 1002 (str "Received final continuation frame with no initial data frame") s, true)
        else
          let '(s, okb) :=
            if (w_dop s =? 1) && negb (is_utf8 (w_data s)) then (fail 1007 (str "Invalid UTF-8 in text message") s, true)
            else report (EMsg (w_dop s) (w_data s)) (set_masked (negb server) s) in
          if okb then (set_dop 0 (set_data [] s), true) else (s, false)
      else (s, true)
  else (s, true).

(** ws.h:622-724 getMessageSize: the new state and the size.  [fail_at] is return fail_connection(...). *)
Definition fail_at (status : N) (reason : list N) (size : N) (s : ws) : ws * N := (fail status reason s, size).
Definition message_size (buf : list N) (s : ws) : ws * N :=
  if negb (w_ok s) then (s, 0)
  else
    let size := N.of_nat (length buf) in
    let b0 := nth 0 buf 0 in
    let b1 := nth 1 buf 0 in
    let second (s : ws) : ws * N :=
      let whole (s : ws) : ws * N :=
        let full := w_exp s + w_parsed s + (if w_masked s then 4 else 0) in
        if size <? full then (s, 0) else (s, full) in
      if w_exp s =? 0 then
        let ind := N.land b1 127 in
        let control := 8 <=? N.land (w_fro s) 15 in
        if control && (125 <? ind) then fail_at 1002 (str "Control frame payload cannot exceed 125 bytes") size s
        else
          let num := if ind =? 126 then 2%nat else if ind =? 127 then 8%nat else 0%nat in
          let finish (length : N) (s : ws) : ws * N :=
            if (ind =? 126) && (length <? 126) then fail_at 1002 (str "Non-minimal payload length encoding") size s
            else if (ind =? 127) && (length <=? 65535) then fail_at 1002 (str "Non-minimal payload length encoding") size s
            else
              let s := set_exp length s in
              if negb control && (0 <? max) && (max <? length) then fail_at 1009 (str "Payload size exceeds configured limit") size s
              else whole (set_parsed (w_parsed s + N.of_nat num) s) in
          if (num =? 0)%nat then finish ind s
          else if control then fail_at 1002 (str "Control frame cannot have extended payload length") size s
          else if size <? N.of_nat num + 2 then (s, 0)
          else
            let lb := skipn 2 buf in
            let length := sum_length num lb in
            if (ind =? 127) && negb (N.land (nth 0 lb 0) 128 =? 0) then fail_at 1002 (str "Most significant bit of 64-bit payload length must be 0") size s
            else finish length s
      else whole s in
    if w_parsed s =? 0 then
      if size <? 2 then (s, 0)
      else
        let s := set_fro b0 s in
        let op := N.land b0 15 in
        if negb (is_valid_frame_opcode op) then fail_at 1002 (str "Reserved or unknown opcode") size s
        else if negb (N.land b0 112 =? 0) then fail_at 1002 (str "RSV bits must be 0") size s
        else if (8 <=? op) && (N.land b0 128 =? 0) then fail_at 1002 (str "Control frame cannot be fragmented") size s
        else
          let s := set_masked (negb (N.land b1 128 =? 0)) s in
          if server && negb (w_masked s) then fail_at 1002 (str "Message from client not masked") size s
          else if negb server && w_masked s then fail_at 1002 (str "Message from server must not be masked") size s
          else second (set_parsed 2 s)
    else second s.

(** ws.h:755-756: begin_data[i] = begin_buffer_data[i] ^ mask[i % 4] *)
Fixpoint unmask (m : list N) (i : nat) (d : list N) : list N :=
  match d with [] => [] | b :: r => N.lxor b (nth (i mod 4) m 0) :: unmask m (S i) r end.

(** ws.h:726-777 onMessage *)
Definition on_message (buf : list N) (s : ws) : ws :=
  if negb (w_ok s) then s
  else
    let op := N.land (w_fro s) 15 in
    let fin := negb (N.land (w_fro s) 128 =? 0) in
    let at_ := skipn (N.to_nat (w_parsed s)) buf in
    let payload := if w_masked s then unmask (firstn 4 at_) 0 (firstn (N.to_nat (w_exp s)) (skipn 4 at_)) else firstn (N.to_nat (w_exp s)) at_ in
    let '(s, okb) := if 8 <=? op then process_control op payload s else process_data op fin payload s in
    let s := if okb then s else set_ok false s in
    set_fro 0 (set_parsed 0 (set_exp 0 s)).

(** The qb-io loop (not in this repository): while getMessageSize() is positive, onMessage then drop that many octets. *)
Fixpoint ws_drive_n (fuel : nat) (s : ws) (buf : list N) : ws * list N :=
  match fuel with
  | O => (s, buf)
  | S k =>
      let '(s, n) := message_size buf s in
      if n =? 0 then (s, buf) else ws_drive_n k (on_message buf s) (skipn (N.to_nat n) buf)
  end.
Definition ws_drive (s : ws) (buf : list N) : ws * list N := ws_drive_n (S (length buf)) s buf.
(** Octets arriving in chunks *)
Fixpoint ws_feed (s : ws) (pend : list N) (chunks : list (list N)) : ws * list N :=
  match chunks with
  | [] => (s, pend)
  | c :: cs => let '(s, pend) := ws_drive s (pend ++ c) in ws_feed s pend cs
  end.
End WS.
