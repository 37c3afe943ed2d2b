(** Model of HeaderValidator (2/protocol/base.cpp:106-303) and of the stream state and window helpers
    (2/protocol/stream.h:64-272, stream.cpp).  A header field is a (name, value) pair of byte strings. *)
From Verif Require Import Base UtilModel.
Local Open Scope N_scope.

Notation field := (list N * list N)%type.

(** ** HeaderValidator *)
(** base.h:283-285 is_pseudo_header *)
Definition is_pseudo (name : list N) : bool := match name with 58 :: _ => true | _ => false end.

(** base.cpp:106-117 is_forbidden_header *)
Definition forbidden_names : list (list N) :=
  [str "connection"; str "upgrade"; str "http2-settings"; str "te"; str "transfer-encoding"; str "proxy-connection"; str "keep-alive"; str "host"].
Definition is_forbidden_header (name : list N) : bool :=
  if beq name (str "te") then false else existsb (beq name) forbidden_names.

(** base.cpp:119-143 is_valid_request_te_value; fuel bounds the number of commas. *)
Fixpoint te_loop (fuel : nat) (remaining : list N) (saw : bool) : bool :=
  match fuel with
  | O => false
  | S k =>
    match remaining with
    | [] => saw
    | _ =>
      let comma := find_char 44 remaining in
      let token := trim_http_whitespace (match comma with None => remaining | Some i => firstn i remaining end) in
      match token with
      | [] => match comma with None => saw | Some i => te_loop k (skipn (i + 1) remaining) saw end
      | _ => if iequals token (str "trailers")
             then match comma with None => true | Some i => te_loop k (skipn (i + 1) remaining) true end
             else false
      end
    end
  end.
Definition is_valid_request_te_value (value : list N) : bool := te_loop (S (length value)) value false.

(** base.cpp:164-176 is_valid_header_value *)
Definition value_byte_ok (c : N) : bool :=
  if (c =? 0) || (c =? 13) || (c =? 10) then false
  else negb (((c <? 32) && negb (c =? 9)) || (c =? 127)).
Definition is_valid_header_value (value : list N) : bool := forallb value_byte_ok value.

(** base.cpp:145-162 is_valid_header_field *)
Definition name_byte_ok (c : N) : bool :=
  if (c =? 0) || (c =? 13) || (c =? 10) || ((65 <=? c) && (c <=? 90)) then false
  else ((97 <=? c) && (c <=? 122)) || ((48 <=? c) && (c <=? 57)) || existsb (N.eqb c) [33; 35; 36; 37; 38; 39; 42; 43; 45; 46; 94; 95; 96; 124; 126].
Definition is_valid_header_field (name value : list N) : bool :=
  match name with
  | [] => false
  | _ => forallb name_byte_ok name && is_valid_header_value value
  end.

(** base.cpp:178-193 validate_pseudo_header_order *)
Fixpoint pseudo_order_loop (seen : bool) (hs : list field) : bool :=
  match hs with
  | [] => true
  | h :: r => if is_pseudo (fst h) then if seen then false else pseudo_order_loop seen r else pseudo_order_loop true r
  end.
Definition validate_pseudo_header_order (hs : list field) : bool := pseudo_order_loop false hs.

(** base.cpp:195-213 parse_content_length, uint64_t arithmetic *)
Fixpoint pcl_loop (parsed : N) (s : list N) : option N :=
  match s with
  | [] => Some parsed
  | c :: r => if (c <? 48) || (57 <? c) then None
              else let digit := c - 48 in
                   if (18446744073709551615 - digit) / 10 <? parsed then None
                   else pcl_loop ((parsed * 10 + digit) mod 2 ^ 64) r
  end.
Definition parse_content_length (value : list N) : option N :=
  match trim_http_whitespace value with [] => None | v => pcl_loop 0 v end.

(** base.cpp:215-263 validate_request_pseudo_headers: the four has_ flags; None is PROTOCOL_ERROR *)
Record seen4 := mk_seen4 { s_method : bool; s_path : bool; s_scheme : bool; s_authority : bool }.
Definition is_nil (l : list N) : bool := match l with [] => true | _ => false end.
Fixpoint req_pseudo_loop (f : seen4) (hs : list field) : option seen4 :=
  match hs with
  | [] => Some f
  | (n, v) :: r =>
    if negb (is_pseudo n) then req_pseudo_loop f r
    else if beq n (str ":method") then
      if s_method f then None else if is_nil v then None else req_pseudo_loop (mk_seen4 true (s_path f) (s_scheme f) (s_authority f)) r
    else if beq n (str ":path") then
      if s_path f then None else if is_nil v then None else req_pseudo_loop (mk_seen4 (s_method f) true (s_scheme f) (s_authority f)) r
    else if beq n (str ":scheme") then
      if s_scheme f then None else if is_nil v then None else req_pseudo_loop (mk_seen4 (s_method f) (s_path f) true (s_authority f)) r
    else if beq n (str ":authority") then
      if s_authority f then None else if is_nil v then None else req_pseudo_loop (mk_seen4 (s_method f) (s_path f) (s_scheme f) true) r
    else None
  end.
Definition validate_request_pseudo_headers (hs : list field) : bool :=
  match req_pseudo_loop (mk_seen4 false false false false) hs with
  | None => false
  | Some f => s_method f && s_path f && s_scheme f && s_authority f
  end.

(** base.cpp:265-303 validate_response_pseudo_headers.  The digit test compares a signed char. *)
Fixpoint resp_pseudo_loop (has : bool) (hs : list field) : option bool :=
  match hs with
  | [] => Some has
  | (n, v) :: r =>
    if negb (is_pseudo n) then resp_pseudo_loop has r
    else if beq n (str ":status") then
      if has then None
      else if is_nil v || negb (length v =? 3)%nat then None
      else if forallb (fun c => negb ((schar c <? 48) || (57 <? schar c))%Z) v then resp_pseudo_loop true r else None
    else None
  end.
Definition validate_response_pseudo_headers (hs : list field) : bool :=
  match resp_pseudo_loop false hs with Some true => true | _ => false end.

(** ** Stream state: stream.h:46-54, 181-200, stream.cpp:32-78 *)
Inductive sstate := IDLE | OPEN | RESERVED_LOCAL | RESERVED_REMOTE | HALF_CLOSED_LOCAL | HALF_CLOSED_REMOTE | CLOSED.
Record sbase := mk_sbase { sb_state : sstate; sb_end_sent : bool; sb_end_recv : bool; sb_rst_sent : bool; sb_rst_recv : bool }.

(** stream.cpp:32-65 transition_state *)
Definition transition_state (s : sbase) (end_stream is_sending : bool) : sbase :=
  if negb end_stream then s
  else if is_sending then
    mk_sbase (match sb_state s with OPEN => HALF_CLOSED_LOCAL | HALF_CLOSED_REMOTE => CLOSED | x => x end)
             true (sb_end_recv s) (sb_rst_sent s) (sb_rst_recv s)
  else
    mk_sbase (match sb_state s with OPEN => HALF_CLOSED_REMOTE | HALF_CLOSED_LOCAL => CLOSED | x => x end)
             (sb_end_sent s) true (sb_rst_sent s) (sb_rst_recv s).

(** stream.cpp:67-78 mark_reset *)
Definition mark_reset (s : sbase) (is_sending : bool) : sbase :=
  if is_sending then mk_sbase CLOSED (sb_end_sent s) (sb_end_recv s) true (sb_rst_recv s)
  else mk_sbase CLOSED (sb_end_sent s) (sb_end_recv s) (sb_rst_sent s) true.

(** stream.h:181, 189, 198 *)
Definition is_closed (s : sbase) : bool := (match sb_state s with CLOSED => true | _ => false end) || sb_rst_recv s || sb_rst_sent s.
Definition can_send_data (s : sbase) : bool := match sb_state s with OPEN | HALF_CLOSED_REMOTE => true | _ => false end.
Definition can_receive_data (s : sbase) : bool := match sb_state s with OPEN | HALF_CLOSED_LOCAL => true | _ => false end.

(** ** Windows: int64_t values are Z (every sum below stays far inside int64_t) *)
(** stream.h:73-80 update_window_safe *)
Definition update_window_safe (current increment max_window : Z) : Z :=
  (let new_window := current + increment in if max_window <? new_window then -1 else new_window)%Z.

(** stream.cpp:18-30 update_peer_window_size: the returned bool and the new peer_window_size *)
Definition update_peer_window_size (peer_window new_initial old_initial : Z) : bool * Z :=
  (let delta := new_initial - old_initial in
   let new_window := update_window_safe peer_window (Z.abs delta) 2147483647 in
   if new_window =? -1 then (false, peer_window)
   else let w := if 0 <=? delta then new_window else peer_window + delta in (0 <=? w, w))%Z.

(** stream.h:88-105 *)
Definition should_send_window_update (processed threshold : N) : bool := (threshold <=? processed) && (0 <? threshold).
Definition calculate_window_threshold (initial : Z) : N :=
  if (initial <=? 0)%Z then 1 else let t := Z.to_N (initial / 2) mod 2 ^ 32 in if t =? 0 then 1 else t.
