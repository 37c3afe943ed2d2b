(** HTTP/1.1 serialization: request.cpp, response.cpp, body.cpp (chunks).
    pipe<char> (qb core) is a byte buffer: a list N to which octets are appended.  A put that throws leaves
    the buffer cleared (this->clear()) and reports false. *)
From Verif Require Import Base UtilModel StaticModel DateModel.
Local Open Scope N_scope.

(** 1.1/protocol/base.h:45-60 protocol_limits *)
Definition MAX_URL_LENGTH : N := 8192.
Definition MAX_HEADER_NAME_LENGTH : N := 1024.
Definition MAX_HEADER_VALUE_LENGTH : N := 8192.
Definition MAX_BODY_SIZE : N := 104857600.
(** request.cpp:233, response.cpp:301 *)
Definition MAX_SERIALIZED_SIZE : N := 115343360.

Definition len (s : list N) : N := N.of_nat (length s).

(** headers.h:52 headers_map: icase_unordered_map of name to its values, in iteration order. *)
Notation headers_map := (list (list N * list (list N)))%type.

(** types.h:713,721 *)
Definition endl : list N := [13; 10].
Definition sep : list N := [32].

(** request.cpp:41-45, response.cpp:93-97 *)
Definition is_header_name_char (c : N) : bool :=
  ((97 <=? c) && (c <=? 122)) || ((65 <=? c) && (c <=? 90)) || ((48 <=? c) && (c <=? 57)) ||
  (c =? 33) || (c =? 35) || (c =? 36) || (c =? 37) || (c =? 38) || (c =? 39) || (c =? 42) || (c =? 43) ||
  (c =? 45) || (c =? 46) || (c =? 94) || (c =? 95) || (c =? 96) || (c =? 124) || (c =? 126).

(** request.cpp:47-53, response.cpp:99-105 *)
Definition header_name_is_valid (name : list N) : bool :=
  if (len name =? 0) || (MAX_HEADER_NAME_LENGTH <? len name) then false
  else forallb is_header_name_char name.

(** request.cpp:55-64, response.cpp:107-116 *)
Definition header_value_is_valid (value : list N) : bool :=
  if MAX_HEADER_VALUE_LENGTH <? len value then false
  else forallb (fun c => (c =? 9) || ((32 <=? c) && negb (c =? 127))) value.

(** request.cpp:66-69 *)
Definition header_is_valid (name value : list N) : bool := header_name_is_valid name && header_value_is_valid value.

(** std::from_chars(begin, end, uint64_t) followed by ptr == end: all of the range is digits, at least one,
    and the value fits. *)
Definition from_chars_u64 (w : list N) : option N :=
  match w with
  | [] => None
  | _ => if forallb (fun c => (48 <=? c) && (c <=? 57)) w
         then let v := fold_left (fun a c => 10 * a + (c - 48)) w 0 in if v <? 2 ^ 64 then Some v else None
         else None
  end.

(** request.cpp:76-90, response.cpp:128-142 *)
Definition parse_content_length (value : list N) : option N :=
  let value := trim_http_whitespace value in
  match value with [] => None | _ => from_chars_u64 value end.

(** headers().find(name) *)
Definition find_header (name : list N) (h : headers_map) : option (list (list N)) :=
  match find (fun e => iequals (fst e) name) h with Some e => Some (snd e) | None => None end.

(** request.cpp:92-108, response.cpp:144-160: the loop over the values; None is the exception *)
Fixpoint content_length_loop (parsed_length : option N) (values : list (list N)) : option (option N) :=
  match values with
  | [] => Some parsed_length
  | raw :: r =>
      match parse_content_length raw with
      | None => None
      | Some parsed =>
          match parsed_length with
          | Some p => if p =? parsed then content_length_loop (Some parsed) r else None
          | None => content_length_loop (Some parsed) r
          end
      end
  end.
Definition declared_content_length (h : headers_map) : option (option N) :=
  match find_header (str "Content-Length") h with
  | None => Some None
  | Some values => content_length_loop None values
  end.

(** request.cpp:118-126: the non-empty trimmed tokens of all values.  split_string never runs out of fuel
    (UtilProofs.split_string_ok). *)
Definition te_tokens (values : list (list N)) : list (list N) :=
  flat_map (fun value =>
    filter (fun t => negb (len t =? 0))
      (map trim_http_whitespace (match split_string_set value (str ",") with Some l => l | None => [] end))) values.

(** request.cpp:110-136, response.cpp:162-188: None is ok = false, Some c is {true, chunked = c} *)
Definition transfer_encoding (h : headers_map) : option bool :=
  match find_header (str "Transfer-Encoding") h with
  | None => Some false
  | Some values =>
      match te_tokens values with
      | [] => None
      | [t] => if iequals t (str "chunked") then Some true else None
      | _ => None
      end
  end.

(** std::to_chars(hex, hex + 16, size, 16): lower-case digits, no prefix *)
Fixpoint hex_loop (fuel : nat) (n : N) (acc : list N) : list N :=
  match fuel with
  | O => acc
  | S f => let d := n mod 16 in
           let acc' := (if d <? 10 then 48 + d else 87 + d) :: acc in
           if n <? 16 then acc' else hex_loop f (n / 16) acc'
  end.
Definition to_hex (n : N) : list N := hex_loop (S (N.size_nat n)) n [].

(** body.cpp:41-60 put<Chunk> *)
Definition put_chunk (pipe : list N) (data : list N) : list N :=
  let pipe := match data with
              | [] => pipe ++ [48] ++ endl
              | _ => pipe ++ to_hex (len data) ++ endl ++ data
              end in
  pipe ++ endl.

(** request.cpp:214-228: None when a name or value is invalid, otherwise the contribution to estimated_size *)
Fixpoint values_cost (values : list (list N)) (estimated : N) : option N :=
  match values with
  | [] => Some estimated
  | v :: r => if header_value_is_valid v then values_cost r (estimated + (len v + 2)) else None
  end.
Fixpoint headers_cost (h : headers_map) (estimated : N) : option N :=
  match h with
  | [] => Some estimated
  | (name, values) :: r =>
      if header_name_is_valid name then
        match values_cost values (estimated + (len name + 2)) with
        | Some e => headers_cost r e
        | None => None
        end
      else None
  end.

(** request.cpp:250-258: the header lines; false when the repeated check fails *)
Fixpoint put_values (pipe name : list N) (values : list (list N)) : list N * bool :=
  match values with
  | [] => (pipe, true)
  | value :: r =>
      if header_is_valid name value then put_values (pipe ++ name ++ [58; 32] ++ value ++ endl) name r
      else ([], false)
  end.
Fixpoint put_headers (pipe : list N) (h : headers_map) : list N * bool :=
  match h with
  | [] => (pipe, true)
  | (name, values) :: r =>
      match put_values pipe name values with
      | (p, true) => put_headers p r
      | x => x
      end
  end.

(** What the serializer reads of a Request.  rq_method is http_method_name(r.method()) (llhttp), rq_path and
    rq_query are uri().path() and uri().encoded_queries() (qb core). *)
Record request := mkReq {
  rq_method : list N; rq_path : list N; rq_query : list N; rq_major : N; rq_minor : N;
  rq_headers : headers_map; rq_body : list N }.

Definition dec (n : N) : list N := to_string (Z.of_N n).

(** request.cpp:159-273 *)
Definition put_request (pipe : list N) (r : request) : list N * bool :=
  let path_size := len (rq_path r) in
  let query_size := len (rq_query r) in
  if MAX_URL_LENGTH <? path_size + query_size then ([], false) else
  let body_size := len (rq_body r) in
  if MAX_BODY_SIZE <? body_size then ([], false) else
  let length := body_size in
  match transfer_encoding (rq_headers r) with
  | None => ([], false)
  | Some chunked =>
    match declared_content_length (rq_headers r) with
    | None => ([], false)
    | Some content_length =>
      if chunked && (match content_length with Some _ => true | None => false end) then ([], false) else
      if negb chunked && (match content_length with Some n => negb (n =? length) | None => false end) then ([], false) else
      match headers_cost (rq_headers r) (64 + path_size + (query_size + 1)) with
      | None => ([], false)
      | Some e =>
        if MAX_SERIALIZED_SIZE <? e + 2 + body_size then ([], false) else
        let pipe := pipe ++ rq_method r ++ sep ++ rq_path r in
        let pipe := if negb (query_size =? 0) then pipe ++ [63] ++ rq_query r else pipe in
        let pipe := pipe ++ sep ++ str "HTTP/" ++ dec (rq_major r) ++ [46] ++ dec (rq_minor r) ++ endl in
        match put_headers pipe (rq_headers r) with
        | (_, false) => ([], false)
        | (pipe, true) =>
          if negb (length =? 0) then
            if chunked then (put_chunk (put_chunk (pipe ++ endl) (rq_body r)) [], true)
            else
              let pipe := match content_length with
                          | None => pipe ++ str "content-length: " ++ dec length ++ endl
                          | Some _ => pipe
                          end in
              (pipe ++ endl ++ rq_body r, true)
          else (pipe ++ endl, true)
        end
      end
    end
  end.

(** What the serializer reads of a Response; rs_reason is std::to_string(r.status()). *)
Record response := mkRes {
  rs_status : N; rs_reason : list N; rs_major : N; rs_minor : N;
  rs_headers : headers_map; rs_body : list N }.

(** response.cpp:190-194 *)
Definition response_must_not_carry_body (status : N) : bool :=
  ((100 <=? status) && (status <? 200)) || (status =? 204) || (status =? 304).
(** response.cpp:196-200 *)
Definition response_forbids_nonzero_content_length (status : N) : bool :=
  ((100 <=? status) && (status <? 200)) || (status =? 204).

(** response.cpp:226-348 *)
Definition put_response (pipe : list N) (r : response) : list N * bool :=
  let body_size := len (rs_body r) in
  if MAX_BODY_SIZE <? body_size then ([], false) else
  let length := body_size in
  if negb (length =? 0) && response_must_not_carry_body (rs_status r) then ([], false) else
  match transfer_encoding (rs_headers r) with
  | None => ([], false)
  | Some chunked =>
    if chunked && response_must_not_carry_body (rs_status r) then ([], false) else
    match declared_content_length (rs_headers r) with
    | None => ([], false)
    | Some content_length =>
      if chunked && (match content_length with Some _ => true | None => false end) then ([], false) else
      if response_forbids_nonzero_content_length (rs_status r)
         && (match content_length with Some n => negb (n =? 0) | None => false end) then ([], false) else
      if negb (length =? 0) && negb chunked
         && (match content_length with Some n => negb (n =? length) | None => false end) then ([], false) else
      match headers_cost (rs_headers r) (32 + len (dec (rs_status r)) + 32) with
      | None => ([], false)
      | Some e =>
        if MAX_SERIALIZED_SIZE <? e + 2 + body_size then ([], false) else
        let pipe := pipe ++ str "HTTP/" ++ dec (rs_major r) ++ [46] ++ dec (rs_minor r) ++ sep ++
                    dec (rs_status r) ++ sep ++ rs_reason r ++ endl in
        match put_headers pipe (rs_headers r) with
        | (_, false) => ([], false)
        | (pipe, true) =>
          if negb (length =? 0) then
            if chunked then (put_chunk (put_chunk (pipe ++ endl) (rs_body r)) [], true)
            else
              let pipe := match content_length with
                          | None => pipe ++ str "content-length: " ++ dec length ++ endl
                          | Some _ => pipe
                          end in
              (pipe ++ endl ++ rs_body r, true)
          else
            let pipe := if negb chunked && (match content_length with Some _ => false | None => true end)
                           && negb (response_must_not_carry_body (rs_status r))
                        then pipe ++ str "content-length: 0" ++ endl else pipe in
            (pipe ++ endl, true)
        end
      end
    end
  end.
