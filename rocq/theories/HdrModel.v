(** Model of headers.{h,cpp}: attribute lists, Content-Type, the header container, coding negotiation. *)
From Verif Require Import Base UtilModel StaticModel DateModel CookieModel Http1Model RecvModel.
Local Open Scope N_scope.

(** headers.h:37,43; headers.cpp:130 *)
Definition ATTRIBUTE_NAME_MAX : N := 1024.
Definition ATTRIBUTE_VALUE_MAX : N := 8192.
Definition MAX_HEADER_ATTRIBUTES_SIZE : N := 65536.

(** the local variables of parse_header_attributes (headers.cpp:138-151); quote 0 is the NUL *)
Record ast := mkA { a_dict : list (list N * list N); a_state : pstate; a_name : list N; a_value : list N;
                    a_quote : N; a_escape : bool }.

(** headers.cpp:153-253, one character; None: throws *)
Definition attr_step (s : ast) (c : N) : option ast :=
  match a_state s with
  | PName =>
      if c =? 61 then
        match trim_http_whitespace (a_name s) with
        | [] => None
        | _ => Some (mkA (a_dict s) PValue (a_name s) [] 0 (a_escape s))
        end
      else if (c =? 59) || (c =? 44) then
        match a_name s with
        | [] => Some s
        | n => Some (mkA (emplace (a_dict s) (trim_http_whitespace n) []) PName [] (a_value s) (a_quote s) (a_escape s))
        end
      else if negb (is_http_whitespace c) then
        if is_control c || (ATTRIBUTE_NAME_MAX <=? len (a_name s)) then None
        else Some (mkA (a_dict s) PName (a_name s ++ [c]) (a_value s) (a_quote s) (a_escape s))
      else Some s
  | PValue =>
      if a_quote s =? 0 then
        if (c =? 59) || (c =? 44) then
          Some (mkA (emplace (a_dict s) (trim_http_whitespace (a_name s)) (trim_http_whitespace (a_value s)))
                    PName [] [] (a_quote s) (a_escape s))
        else if (length (a_value s) =? 0)%nat && ((c =? 39) || (c =? 34)) then
          Some (mkA (a_dict s) PValue (a_name s) (a_value s) c (a_escape s))
        else if (c =? 32) || (c =? 9) then
          if negb (length (a_value s) =? 0)%nat then Some (mkA (a_dict s) PValue (a_name s) (a_value s ++ [c]) (a_quote s) (a_escape s))
          else Some s
        else if is_control c || (ATTRIBUTE_VALUE_MAX <=? len (a_value s)) then None
        else Some (mkA (a_dict s) PValue (a_name s) (a_value s ++ [c]) (a_quote s) (a_escape s))
      else if a_escape s then
        if is_control c && negb (c =? 9) then None
        else if ATTRIBUTE_VALUE_MAX <=? len (a_value s) then None
        else Some (mkA (a_dict s) PValue (a_name s) (a_value s ++ [c]) (a_quote s) false)
      else if c =? 92 then Some (mkA (a_dict s) PValue (a_name s) (a_value s) (a_quote s) true)
      else if c =? a_quote s then
        Some (mkA (emplace (a_dict s) (trim_http_whitespace (a_name s)) (a_value s)) PAfterQuoted [] [] 0 (a_escape s))
      else if ATTRIBUTE_VALUE_MAX <=? len (a_value s) then None
      else if is_control c && negb (c =? 9) then None
      else Some (mkA (a_dict s) PValue (a_name s) (a_value s ++ [c]) (a_quote s) (a_escape s))
  | PAfterQuoted =>
      if (c =? 59) || (c =? 44) then Some (mkA (a_dict s) PName (a_name s) (a_value s) (a_quote s) (a_escape s))
      else if negb (c =? 32) && negb (c =? 9) then None
      else Some s
  end.
Fixpoint attr_run (s : ast) (l : list N) : option ast :=
  match l with
  | [] => Some s
  | c :: r => match attr_step s c with None => None | Some s' => attr_run s' r end
  end.
(** headers.cpp:255-267 *)
Definition attr_finish (s : ast) : option (list (list N * list N)) :=
  match a_name s with
  | [] => Some (a_dict s)
  | n =>
      match a_state s with
      | PValue => if negb (a_quote s =? 0) || a_escape s then None
                  else Some (emplace (a_dict s) (trim_http_whitespace n) (trim_http_whitespace (a_value s)))
      | PName => Some (emplace (a_dict s) (trim_http_whitespace n) (trim_http_whitespace (a_value s)))
      | PAfterQuoted => Some (a_dict s)
      end
  end.
(** headers.cpp:127-295 parse_header_attributes; None: throws.  The null-pointer check is not modelled. *)
Definition parse_header_attributes (s : list N) : option (list (list N * list N)) :=
  if MAX_HEADER_ATTRIBUTES_SIZE <? len s then None
  else match attr_run (mkA [] PName [] [] 0 false) s with
       | None => None
       | Some st => attr_finish st
       end.

(** position of the first occurrence of d *)
Fixpoint before (d : N) (s : list N) : list N :=
  match s with [] => [] | c :: r => if c =? d then [] else c :: before d r end.
Fixpoint after (d : N) (s : list N) : option (list N) :=
  match s with [] => None | c :: r => if c =? d then Some r else after d r end.

(** headers.h:154,156; headers.cpp:429-454 ContentType::parse: (type, charset) *)
Definition default_content_type : list N := str "application/octet-stream".
Definition default_charset : list N := str "utf-8".
Definition content_type_parse (s : list N) : list N * list N :=
  match trim_http_whitespace (before 59 s) with
  | [] => (default_content_type, default_charset)
  | media_type =>
      (media_type,
       match after 59 s with
       | None => default_charset
       | Some params =>
           match parse_header_attributes params with
           | None => default_charset
           | Some attrs =>
               match cookie_get attrs (str "charset") with
               | Some [] | None => default_charset
               | Some cs => cs
               end
           end
       end)
  end.

(** headers.h:224-228 Headers: the map and the cached content type *)
Record hdrs := mkH { h_map : headers_map; h_ct : list N * list N }.
(** headers.h:242-255 *)
Definition hdrs_new : hdrs := mkH [] (content_type_parse default_content_type).
Definition is_content_type_header (name : list N) : bool := iequals name (str "Content-Type").
(** headers.cpp:456-464 refresh_content_type *)
Definition refresh_content_type (h : hdrs) : hdrs :=
  mkH (h_map h)
      (match find_header (str "Content-Type") (h_map h) with
       | Some (v :: _) => content_type_parse v
       | _ => content_type_parse default_content_type
       end).
Definition hdrs_of (m : headers_map) : hdrs := refresh_content_type (mkH m (content_type_parse default_content_type)).
(** headers.h:398-408 add_header: the vector found (or made) by operator[] after the push *)
Definition add_header (h : hdrs) (name value : list N) : hdrs :=
  let m := add_value name value (h_map h) in
  mkH m (if is_content_type_header name then
           match find_header name m with Some [v] => content_type_parse v | _ => h_ct h end
         else h_ct h).
(** headers.h:437-446 set_header *)
Definition set_header (h : hdrs) (name value : list N) : hdrs :=
  mkH (set_value name value (h_map h)) (if is_content_type_header name then content_type_parse value else h_ct h).
(** headers.h:375-379 set_content_type *)
Definition set_content_type (h : hdrs) (value : list N) : hdrs :=
  set_header (mkH (h_map h) (content_type_parse value)) (str "Content-Type") value.
(** headers.h:417-424 remove_header *)
Definition remove_header (h : hdrs) (name : list N) : hdrs :=
  mkH (filter (fun e => negb (iequals (fst e) name)) (h_map h))
      (if is_content_type_header name then content_type_parse default_content_type else h_ct h).
(** headers.h:308-335 header, header_or *)
Definition header_at (h : hdrs) (name : list N) (index : nat) (fallback : list N) : list N :=
  match find_header name (h_map h) with
  | Some vs => match nth_error vs index with Some v => v | None => fallback end
  | None => fallback
  end.

(** headers.cpp:52-66, the digits after the point *)
Fixpoint qdigits (s : list N) (milli place : N) : option N :=
  match s with
  | [] => Some milli
  | c :: r => if (c <? 48) || (57 <? c) then None
              else if 0 <? place then qdigits r (milli + (c - 48) * place) (place / 10)
              else None
  end.
(** headers.cpp:33-68 parse_qvalue_milli.  Octets above 127 are negative chars, refused as below '0'. *)
Definition parse_qvalue_milli (raw : list N) : option N :=
  let q := trim_http_whitespace raw in
  if beq q (str "1") || beq q (str "1.0") || beq q (str "1.00") || beq q (str "1.000") then Some 1000
  else match q with
       | [] => None
       | 48 :: [] => Some 0
       | 48 :: 46 :: c :: r => qdigits (c :: r) 0 100
       | _ => None
       end.

(** headers.cpp:79-102: the parameters, already cut at the semicolons *)
Fixpoint q_of_params (params : list (list N)) : N :=
  match params with
  | [] => 1000
  | p :: r =>
      let param := trim_http_whitespace p in
      match after 61 param with
      | None => q_of_params r
      | Some value =>
          if iequals (trim_http_whitespace (before 61 param)) (str "q")
          then match parse_qvalue_milli (trim_http_whitespace value) with Some q => q | None => 0 end
          else q_of_params r
      end
  end.
(** pieces between separators; n separators give n + 1 pieces.  The loop of headers.cpp:80-100 stops when
    the rest is empty, which only skips a final empty piece, and an empty piece says nothing. *)
Fixpoint pieces (d : N) (s : list N) : list (list N) :=
  match s with
  | [] => [[]]
  | c :: r => if c =? d then [] :: pieces d r
              else match pieces d r with p :: ps => (c :: p) :: ps | [] => [[c]] end
  end.
(** headers.cpp:72-103 parse_accept_encoding_q *)
Definition parse_accept_encoding_q (token : list N) : N :=
  match after 59 token with None => 1000 | Some params => q_of_params (pieces 59 params) end.

(** headers.cpp:379-421, one round per element; [algos] are the names of the compressors in order *)
Fixpoint negotiate (algos : list (list N)) (disabled : list (list N)) (tokens : list (list N)) : list N :=
  match tokens with
  | [] => []
  | t :: r =>
      let full := trim_http_whitespace t in
      let q := parse_accept_encoding_q full in
      let name := match after 59 full with None => full | Some _ => trim_http_whitespace (before 59 full) end in
      if q =? 0 then negotiate algos (match name with [] => disabled | _ => if beq name (str "*") then disabled else disabled ++ [name] end) r
      else match name with
           | [] => negotiate algos disabled r
           | _ =>
               if beq name (str "*") then
                 match find (fun a => negb (existsb (fun n => iequals n a) disabled)) algos with
                 | Some a => a
                 | None => negotiate algos disabled r
                 end
               else
                 match find (fun a => iequals a name) algos with
                 | Some a => a
                 | None => negotiate algos disabled r
                 end
           end
  end.
(** headers.cpp:369-427 content_encoding; [] is the empty string (identity) *)
Definition content_encoding (algos : list (list N)) (accept : list N) : list N :=
  negotiate algos [] (match split_string_set accept (str ",") with Some l => l | None => [] end).
