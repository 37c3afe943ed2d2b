(** HTTP/1.1 receiving side: 1.1/protocol/base.h (Parser callbacks, getMessageSize, flush_eof), server.h and
    client.h onMessage, and the read loop that drives them.

    llhttp itself is not in the repository (only its header).  It is an arbitrary incremental machine over
    octets: [step] consumes one octet and yields the data llhttp reports for it plus what happens next; all
    theorems quantify over the machine.  What [http_execute] adds is modelled exactly: data of one kind that
    is contiguous within one call is handed to the callback as one fragment, a fragment ends with the call. *)
From Verif Require Import Base UtilModel StaticModel DateModel Http1Model.
Local Open Scope N_scope.

(** base.h:54-60 *)
Definition MAX_HEADERS_COUNT : N := 100.
Definition MAX_CHUNK_SIZE : N := 16777216.
(** llhttp: content_length before any Content-Length field *)
Definition ULLONG_MAX : N := 18446744073709551615.

(** The fields of http_t (llhttp__internal_s) the callbacks read when the header section ends. *)
Record meta := { mt_method : N; mt_status : N; mt_major : N; mt_minor : N;
                 mt_upgrade : bool; mt_keep_alive : bool; mt_length : N; mt_needs_eof : bool }.

(** Data callbacks.  [DCut] ends the current fragment without a callback of ours (llhttp closes a span). *)
Inductive dat := DUrl (s : list N) | DField (s : list N) | DValue (s : list N) | DBody (s : list N) | DCut.

(** What follows the data of an octet: nothing, on_headers_complete, on_message_complete, a parse error. *)
Inductive stop := Go | Heads (m : meta) | Done | Bad.

Record machine := { mL : Type; m_init : mL;
                    m_wake : mL -> mL * stop;                  (* http_resume, before the next octet *)
                    m_step : mL -> N -> mL * list dat * stop }.

(** A received Request / Response: the parts the parser sets.  [m_ct] is the text content_type() was parsed from. *)
Record msg := { m_url : list N; m_meta : option meta; m_headers : headers_map; m_ct : list N; m_body : list N }.
(** headers.h:154 default_content_type *)
Definition msg0 : msg := {| m_url := []; m_meta := None; m_headers := []; m_ct := str "application/octet-stream"; m_body := [] |}.

(** headers()[key].push_back(value): icase_unordered_map (qb core); a present key keeps its spelling. *)
Fixpoint add_value (key value : list N) (h : headers_map) : headers_map :=
  match h with
  | [] => [(key, [value])]
  | (k, vs) :: r => if iequals k key then (k, vs ++ [value]) :: r else (k, vs) :: add_value key value r
  end.
(** headers.h:437-446 set_header *)
Fixpoint set_value (key value : list N) (h : headers_map) : headers_map :=
  match h with
  | [] => [(key, [value])]
  | (k, vs) :: r => if iequals k key then (k, [value]) :: r else (k, vs) :: set_value key value r
  end.
(** headers.h:308-314 header(name) *)
Definition header (name : list N) (h : headers_map) : list N :=
  match find_header name h with Some (v :: _) => v | _ => [] end.
(** headers.h:365-367 has_header *)
Definition has_header (name : list N) (h : headers_map) : bool :=
  match find_header name h with Some _ => true | None => false end.

Inductive token := TNone | TField | TValue.
Inductive run := Running | Paused | Resumed.

(** base.h:125-126, 429, 467-476 Parser *)
Record parser (M : machine) := mkp {
  p_l : mL M; p_run : run; p_msg : msg; p_key : list N; p_val : list N; p_url : list N; p_token : token;
  p_done : bool; p_chunked : list N; p_pairs : N; p_body : N; p_urln : N; p_length : N; p_needs_eof : bool }.
Arguments mkp {M}. Arguments p_l {M}. Arguments p_run {M}. Arguments p_msg {M}. Arguments p_key {M}.
Arguments p_val {M}. Arguments p_url {M}. Arguments p_token {M}. Arguments p_done {M}. Arguments p_chunked {M}.
Arguments p_pairs {M}. Arguments p_body {M}. Arguments p_urln {M}. Arguments p_length {M}. Arguments p_needs_eof {M}.

(** base.h:524-545 reset (and the constructor) *)
Definition reset (M : machine) : parser M :=
  mkp (m_init M) Running msg0 [] [] [] TNone false [] 0 0 0 ULLONG_MAX false.

Section Recv.
Variable M : machine.
(** MessageType::type == HTTP_REQUEST *)
Variable is_request : bool.

Definition with_l (p : parser M) (l : mL M) : parser M := mkp l (p_run p) (p_msg p) (p_key p) (p_val p) (p_url p) (p_token p) (p_done p)
  (p_chunked p) (p_pairs p) (p_body p) (p_urln p) (p_length p) (p_needs_eof p).
Definition with_run (p : parser M) (r : run) : parser M := mkp (p_l p) r (p_msg p) (p_key p) (p_val p) (p_url p) (p_token p) (p_done p)
  (p_chunked p) (p_pairs p) (p_body p) (p_urln p) (p_length p) (p_needs_eof p).
Definition with_msg (p : parser M) (m : msg) : parser M := mkp (p_l p) (p_run p) m (p_key p) (p_val p) (p_url p) (p_token p) (p_done p)
  (p_chunked p) (p_pairs p) (p_body p) (p_urln p) (p_length p) (p_needs_eof p).

(** base.h:198-220 on_url.  msg.uri() = _url_buffer is kept as text (qb::io::uri is not in the repository);
    the method is set from parser->method, here with the other fields of [meta] at the end of the section. *)
Definition on_url (p : parser M) (at_ : list N) : option (parser M) :=
  if is_request then
    let next := p_urln p + len at_ in
    if MAX_URL_LENGTH <? next then None
    else
      let buf := (if p_urln p =? 0 then [] else p_url p) ++ at_ in
      let m := p_msg p in
      Some (mkp (p_l p) (p_run p) {| m_url := buf; m_meta := m_meta m; m_headers := m_headers m; m_ct := m_ct m; m_body := m_body m |}
                (p_key p) (p_val p) buf (p_token p) (p_done p) (p_chunked p) (p_pairs p) (p_body p) next
                (p_length p) (p_needs_eof p))
  else Some p.

(** base.h:258-265 and 327-334: commit the completed pair; None is the failure *)
Definition commit (p : parser M) : option (parser M) :=
  match p_token p, p_key p with
  | TValue, _ :: _ =>
      if MAX_HEADER_VALUE_LENGTH <? len (p_val p) then None
      else
        let m := p_msg p in
        Some (mkp (p_l p) (p_run p)
                  {| m_url := m_url m; m_meta := m_meta m; m_headers := add_value (p_key p) (p_val p) (m_headers m);
                     m_ct := m_ct m; m_body := m_body m |}
                  [] [] (p_url p) (p_token p) (p_done p) (p_chunked p) (p_pairs p) (p_body p) (p_urln p) (p_length p) (p_needs_eof p))
  | _, _ => Some p
  end.

(** base.h:255-280 on_header_field *)
Definition on_header_field (p : parser M) (at_ : list N) : option (parser M) :=
  match commit p with
  | None => None
  | Some p =>
      match (match p_token p with
             | TField => Some (p_pairs p, p_key p)
             | _ => if MAX_HEADERS_COUNT <? p_pairs p + 1 then None else Some (p_pairs p + 1, [])
             end) with
      | None => None
      | Some (pairs, key) =>
          let key := key ++ at_ in
          if MAX_HEADER_NAME_LENGTH <? len key then None
          else Some (mkp (p_l p) (p_run p) (p_msg p) key (p_val p) (p_url p) TField (p_done p) (p_chunked p) pairs
                         (p_body p) (p_urln p) (p_length p) (p_needs_eof p))
      end
  end.

(** base.h:293-305 on_header_value *)
Definition on_header_value (p : parser M) (at_ : list N) : option (parser M) :=
  let val := (match p_token p with TValue => p_val p | _ => [] end) ++ at_ in
  if MAX_HEADER_VALUE_LENGTH <? len val then None
  else Some (mkp (p_l p) (p_run p) (p_msg p) (p_key p) val (p_url p) TValue (p_done p) (p_chunked p) (p_pairs p)
                 (p_body p) (p_urln p) (p_length p) (p_needs_eof p)).

(** base.h:393-407 on_body *)
Definition on_body (p : parser M) (at_ : list N) : option (parser M) :=
  if MAX_CHUNK_SIZE <? len at_ then None
  else
    let next := p_body p + len at_ in
    if MAX_BODY_SIZE <? next then None
    else Some (mkp (p_l p) (p_run p) (p_msg p) (p_key p) (p_val p) (p_url p) (p_token p) (p_done p) (p_chunked p ++ at_)
                   (p_pairs p) next (p_urln p) (p_length p) (p_needs_eof p)).

Definition callback (p : parser M) (d : dat) : option (parser M) :=
  match d with
  | DUrl s => on_url p s
  | DField s => on_header_field p s
  | DValue s => on_header_value p s
  | DBody s => on_body p s
  | DCut => Some p
  end.

(** base.h:136-154 is_supported_transfer_encoding *)
Definition is_supported_transfer_encoding (h : headers_map) : bool :=
  match transfer_encoding h with Some true => true | Some false => true | None => false end.

Definition bodyless (status : N) : bool :=
  ((100 <=? status) && (status <? 200)) || (status =? 204) || (status =? 304).

(** base.h:323-379 on_headers_complete; Some p is HPE_PAUSED, None is HPE_USER.  The reserve() is not modelled. *)
Definition on_headers_complete (p : parser M) (mt : meta) : option (parser M) :=
  match commit p with
  | None => None
  | Some p =>
      let h := m_headers (p_msg p) in
      if has_header (str "Transfer-Encoding") h &&
         (has_header (str "Content-Length") h || negb (is_supported_transfer_encoding h)) then None
      else
        let length :=
          if is_request then
            if (mt_length mt =? ULLONG_MAX) && negb (has_header (str "Transfer-Encoding") h) then 0 else mt_length mt
          else if bodyless (mt_status mt) then 0 else mt_length mt in
        if negb (length =? ULLONG_MAX) && (MAX_BODY_SIZE <? length) then None
        else
          let m := p_msg p in
          Some (mkp (p_l p) Paused
                    {| m_url := m_url m; m_meta := Some mt; m_headers := h; m_ct := m_ct m; m_body := m_body m |}
                    (p_key p) (p_val p) (p_url p) TNone true (p_chunked p) (p_pairs p) (p_body p) (p_urln p)
                    length (mt_needs_eof mt))
  end.

(** base.h:420-426 on_message_complete; headers.h:375-379 set_content_type *)
Definition on_message_complete (p : parser M) : parser M :=
  let m := p_msg p in
  let ct := header (str "Content-Type") (m_headers m) in
  mkp (p_l p) (p_run p)
      {| m_url := m_url m; m_meta := m_meta m; m_headers := set_value (str "Content-Type") ct (m_headers m);
         m_ct := ct; m_body := p_chunked p |}
      (p_key p) (p_val p) (p_url p) (p_token p) (p_done p) [] (p_pairs p) (p_body p) (p_urln p) (p_length p) (p_needs_eof p).

(** http_execute: the octets not consumed are the tail from error_pos on. *)
Inductive result := ExOk (p : parser M) | ExPaused (p : parser M) (rest : list N)
                  | ExDone (p : parser M) (rest : list N) | ExError.

(** the callback for the pending fragment *)
Definition flush (p : parser M) (pend : option dat) : option (parser M) :=
  match pend with None => Some p | Some d => callback p d end.

Definition glue (a b : dat) : option dat :=
  match a, b with
  | DUrl s, DUrl t => Some (DUrl (s ++ t))
  | DField s, DField t => Some (DField (s ++ t))
  | DValue s, DValue t => Some (DValue (s ++ t))
  | DBody s, DBody t => Some (DBody (s ++ t))
  | _, _ => None
  end.

(** one more piece of data: extend the pending fragment or hand it over and start another *)
Definition absorb (p : parser M) (pend : option dat) (d : dat) : option (parser M * option dat) :=
  match pend with
  | None => Some (p, Some d)
  | Some a =>
      match glue a d with
      | Some g => Some (p, Some g)
      | None => match callback p a with Some p' => Some (p', Some d) | None => None end
      end
  end.
Fixpoint absorb_all (p : parser M) (pend : option dat) (ds : list dat) : option (parser M * option dat) :=
  match ds with
  | [] => Some (p, pend)
  | d :: r => match absorb p pend d with Some (p', pend') => absorb_all p' pend' r | None => None end
  end.

Definition finish (p : parser M) (st : stop) (rest : list N) (continue : parser M -> result) : result :=
  match st with
  | Go => continue p
  | Heads mt => match on_headers_complete p mt with Some p' => ExPaused p' rest | None => ExError end
  | Done => ExDone (on_message_complete p) rest
  | Bad => ExError
  end.

Fixpoint exec_loop (p : parser M) (pend : option dat) (slice : list N) : result :=
  match slice with
  | [] => match flush p pend with Some p' => ExOk p' | None => ExError end
  | c :: r =>
      let '(l, ds, st) := m_step M (p_l p) c in
      match absorb_all (with_l p l) pend ds with
      | None => ExError
      | Some (p', pend') =>
          match st with
          | Go => exec_loop p' pend' r
          | _ => match flush p' pend' with Some p'' => finish p'' st r (fun p => ExOk p) | None => ExError end
          end
      end
  end.

(** base.h:505-508 parse; 562-565 resume.  A paused parser that has not been resumed stays paused. *)
Definition parse (p : parser M) (slice : list N) : result :=
  match p_run p with
  | Paused => ExError
  | Running => exec_loop p None slice
  | Resumed =>
      let '(l, st) := m_wake M (p_l p) in
      finish (with_run (with_l p l) Running) st slice (fun p => exec_loop p None slice)
  end.
Definition resume (p : parser M) : parser M :=
  match p_run p with Paused => with_run p Resumed | _ => p end.

(** _io.http1_response_body_forbidden() when the n-th message of the connection is being framed
    (1.1/http.h:733, 1.1/client.cpp:85); server handlers have no such function: constantly false. *)
Variable forbidden : nat -> bool.

(** base.h:625-642: the protocol object, its input buffer, and the messages given to _io.on *)
Record conn := mkc { c_in : list N; c_parser : parser M; c_body_offset : N; c_header_parsed : N;
                     c_close : bool; c_ok : bool; c_out : list msg }.
Definition fresh : conn := mkc [] (reset M) 0 0 false true [].

Definition from (n : N) (s : list N) : list N := skipn (N.to_nat n) s.
Definition take (n : N) (s : list N) : list N := firstn (N.to_nat n) s.

Definition not_ok (c : conn) : conn :=
  mkc (c_in c) (c_parser c) (c_body_offset c) (c_header_parsed c) (c_close c) false (c_out c).
Definition with_parser (c : conn) (p : parser M) (off hp : N) : conn :=
  mkc (c_in c) p off hp (c_close c) (c_ok c) (c_out c).
Definition set_body (p : parser M) (b : list N) : parser M :=
  let m := p_msg p in
  with_msg p {| m_url := m_url m; m_meta := m_meta m; m_headers := m_headers m; m_ct := m_ct m; m_body := b |}.

(** base.h:742-803 getMessageSize, from the completed header section on.  A response whose length is unknown
    and that does not run to the end of the connection cannot come from llhttp; the arithmetic there would
    wrap, here it is an error. *)
Definition body_size (c : conn) : N * conn :=
  let p := c_parser c in
  let off := c_body_offset c in
  let size := len (c_in c) in
  if negb is_request && forbidden (length (c_out c)) then (off, with_parser c p 0 (c_header_parsed c))
  else if has_header (str "Transfer-Encoding") (m_headers (p_msg p)) then
    let p := resume p in
    match parse p (from off (c_in c)) with
    | ExDone p' rest => (size - len rest, with_parser c p' 0 (c_header_parsed c))
    | ExOk p' => (0, with_parser c p' size (c_header_parsed c))
    | _ => (0, not_ok c)
    end
  else if negb is_request && p_needs_eof p then
    if MAX_BODY_SIZE <? size - off
    then (0, not_ok (mkc (c_in c) p off (c_header_parsed c) false (c_ok c) (c_out c)))
    else (0, mkc (c_in c) p off (c_header_parsed c) true (c_ok c) (c_out c))
  else if p_length p =? ULLONG_MAX then (0, not_ok c)
  else
    let full := off + p_length p in
    if size <? full then (0, c)
    else
      let p := if p_length p =? 0 then p else set_body p (take (p_length p) (from off (c_in c))) in
      (full, with_parser c p 0 (c_header_parsed c)).

(** base.h:679-740 getMessageSize *)
Definition get_message_size (c : conn) : N * conn :=
  if p_done (c_parser c) then body_size c
  else
    let total := len (c_in c) in
    if total <=? c_header_parsed c then (0, c)
    else
      match parse (c_parser c) (from (c_header_parsed c) (c_in c)) with
      | ExOk p' => (0, with_parser c p' (c_body_offset c) total)
      | ExPaused p' rest => body_size (with_parser c p' (total - len rest) 0)
      | _ => (0, not_ok c)
      end.

(** server.h:77-93, client.h:79-94 onMessage: hand over the message, reset the parser.  Reading the cookies
    out of it cannot fail (exceptions are swallowed) and is a function of the headers: see CookieModel. *)
Definition on_message (c : conn) : conn :=
  mkc (c_in c) (reset M) (c_body_offset c) (c_header_parsed c) (c_close c) (c_ok c)
      (c_out c ++ [p_msg (c_parser c)]).

(** The read loop of qb-io (not in the repository): while a message is complete, deliver it and drop its
    octets; stop at once when the protocol is not ok.  [fuel] is the number of octets buffered plus one. *)
Fixpoint drive (fuel : nat) (c : conn) : conn :=
  match fuel with
  | O => c
  | S f =>
      if negb (c_ok c) then c
      else
        let '(n, c') := get_message_size c in
        if n =? 0 then c'
        else
          let c'' := on_message c' in
          drive f (mkc (from n (c_in c'')) (c_parser c'') (c_body_offset c'') (c_header_parsed c'') (c_close c'')
                       (c_ok c'') (c_out c''))
  end.

(** one read: the octets are appended to the input buffer, then the loop runs *)
Definition read (c : conn) (slice : list N) : conn :=
  if negb (c_ok c) then c
  else
    let c := mkc (c_in c ++ slice) (c_parser c) (c_body_offset c) (c_header_parsed c) (c_close c) (c_ok c) (c_out c) in
    drive (S (length (c_in c))) c.

Definition feed (slices : list (list N)) : conn := fold_left read slices fresh.

(** base.h:813-831 flush_eof, called when the peer closes (1.1/client.cpp:168-179) *)
Definition flush_eof (c : conn) : conn :=
  if negb (c_close c) || negb (p_done (c_parser c)) || negb (c_ok c) then c
  else
    let p := c_parser c in
    let p := if c_body_offset c <? len (c_in c) then set_body p (from (c_body_offset c) (c_in c)) else p in
    on_message (mkc (c_in c) p 0 (c_header_parsed c) false (c_ok c) (c_out c)).

End Recv.
