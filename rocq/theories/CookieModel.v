(** Model of src/qbm/http/cookie.cpp and cookie.h. *)
From Verif Require Import Base UtilModel StaticModel DateModel.
Local Open Scope N_scope.

(** utility.h:53-56 is_control, on a char promoted to int (octets above 127 are negative: not control) *)
Definition is_control (c : N) : bool := (c <=? 31) || (c =? 127).

(** cookie.cpp:28-32 is_cookie_name_char *)
Definition is_cookie_name_char (c : N) : bool :=
  ((65 <=? c) && (c <=? 90)) || ((97 <=? c) && (c <=? 122)) || ((48 <=? c) && (c <=? 57))
  || (c =? 33) || (c =? 35) || (c =? 36) || (c =? 37) || (c =? 38) || (c =? 39) || (c =? 42) || (c =? 43) || (c =? 45)
  || (c =? 46) || (c =? 94) || (c =? 95) || (c =? 96) || (c =? 124) || (c =? 126).

(** cookie.cpp:34-42 is_set_cookie_value_char, is_set_cookie_attr_value_char *)
Definition is_set_cookie_value_char (c : N) : bool := negb (c =? 59) && negb (is_control c).

(** cookie.cpp:76-93 is_cookie_attribute *)
Definition is_cookie_attribute (name : list N) (set_cookie_header : bool) : bool :=
  match name with
  | [] => true
  | c :: _ =>
    if c =? 36 then true
    else set_cookie_header &&
         existsb (iequals name)
           [str "Comment"; str "Domain"; str "Max-Age"; str "Path"; str "Secure"; str "Version"; str "Expires";
            str "HttpOnly"; str "SameSite"]
  end.

(** qb::icase_unordered_map<std::string>: entries in order of insertion, keys compared without case *)
Definition cookie_get (d : list (list N * list N)) (k : list N) : option (list N) :=
  option_map snd (find (fun e => iequals k (fst e)) d).

(** emplace: an existing entry is kept *)
Definition emplace (d : list (list N * list N)) (k v : list N) : list (list N * list N) :=
  match find (fun e => iequals k (fst e)) d with
  | Some _ => d
  | None => d ++ [(k, v)]
  end.

Inductive pstate := PName | PValue | PAfterQuoted.

(** the local variables of parse_cookies (cookie.cpp:117, 134-140); quote 0 = not quoted *)
Record cst := mkC { c_dict : list (list N * list N); c_state : pstate; c_name : list N; c_value : list N;
                    c_quote : N; c_escape : bool }.

(** cookie.cpp:33, 42 of cookie.h and cookie.cpp:125 *)
Definition COOKIE_NAME_MAX : N := 1024.
Definition COOKIE_VALUE_MAX : N := 4096.
Definition MAX_COOKIE_HEADER_SIZE : N := 16384.
Definition len (s : list N) : N := N.of_nat (length s).

Definition store (set_cookie : bool) (d : list (list N * list N)) (n v : list N) : list (list N * list N) :=
  if is_cookie_attribute n set_cookie then d else emplace d n v.

(** cookie.cpp:143-239, one character; None: throws.  Strings grow at their end. *)
Definition cookie_step (sc : bool) (s : cst) (ch : N) : option cst :=
  match c_state s with
  | PName =>
    if ch =? 61 then Some (mkC (c_dict s) PValue (c_name s) [] 0 (c_escape s))
    else if (ch =? 59) || (sc && (ch =? 44)) then
      match c_name s with
      | [] => Some s
      | n => Some (mkC (store sc (c_dict s) n []) PName [] (c_value s) (c_quote s) (c_escape s))
      end
    else if negb (is_http_whitespace ch) then
      if is_control ch || (COOKIE_NAME_MAX <=? len (c_name s)) then None
      else Some (mkC (c_dict s) PName (c_name s ++ [ch]) (c_value s) (c_quote s) (c_escape s))
    else Some s
  | PValue =>
    if c_quote s =? 0 then
      if (ch =? 59) || (sc && (ch =? 44)) then
        Some (mkC (store sc (c_dict s) (c_name s) (c_value s)) PName [] [] (c_quote s) (c_escape s))
      else if ((ch =? 39) || (ch =? 34)) && (length (c_value s) =? 0)%nat then
        Some (mkC (c_dict s) PValue (c_name s) (c_value s) ch (c_escape s))
      else if negb (is_http_whitespace ch) || negb (length (c_value s) =? 0)%nat then
        if is_control ch || (COOKIE_VALUE_MAX <=? len (c_value s)) then None
        else Some (mkC (c_dict s) PValue (c_name s) (c_value s ++ [ch]) (c_quote s) (c_escape s))
      else Some s
    else if c_escape s then
      if (COOKIE_VALUE_MAX <=? len (c_value s)) then None
      else Some (mkC (c_dict s) PValue (c_name s) (c_value s ++ [ch]) (c_quote s) false)
    else if ch =? 92 then Some (mkC (c_dict s) PValue (c_name s) (c_value s) (c_quote s) true)
    else if ch =? c_quote s then
      Some (mkC (store sc (c_dict s) (c_name s) (c_value s)) PAfterQuoted [] [] 0 (c_escape s))
    else if is_control ch then None
    else if (COOKIE_VALUE_MAX <=? len (c_value s)) then None
    else Some (mkC (c_dict s) PValue (c_name s) (c_value s ++ [ch]) (c_quote s) (c_escape s))
  | PAfterQuoted =>
    if (ch =? 59) || (ch =? 44) then Some (mkC (c_dict s) PName (c_name s) (c_value s) (c_quote s) (c_escape s))
    else if negb (is_http_whitespace ch) then None
    else Some s
  end.

Fixpoint cookie_run (sc : bool) (s : cst) (l : list N) : option cst :=
  match l with
  | [] => Some s
  | ch :: r => match cookie_step sc s ch with None => None | Some s' => cookie_run sc s' r end
  end.

(** cookie.cpp:243-253, the last cookie *)
Definition cookie_finish (sc : bool) (s : cst) : option (list (list N * list N)) :=
  match c_state s with
  | PValue => if negb (c_quote s =? 0) || c_escape s then None else
              match c_name s with [] => Some (c_dict s) | n => Some (store sc (c_dict s) n (c_value s)) end
  | _ => match c_name s with [] => Some (c_dict s) | n => Some (store sc (c_dict s) n (c_value s)) end
  end.

Definition cookie_init : cst := mkC [] PName [] [] 0 false.

(** cookie.cpp:115-254 parse_cookies; None: throws *)
Definition parse_cookies (header : list N) (set_cookie_header : bool) : option (list (list N * list N)) :=
  if (length header =? 0)%nat then Some []
  else if MAX_COOKIE_HEADER_SIZE <? len header then None
  else match cookie_run set_cookie_header cookie_init header with
       | None => None
       | Some s => cookie_finish set_cookie_header s
       end.

(** cookie.h:50-55 SameSite; NOT_SET is the empty optional (setter, cookie.h:268-275) *)
Inductive same_site := SSNone | SSLax | SSStrict.

(** cookie.h:64-74 Cookie.  _expires in whole seconds, _max_age an int. *)
Record cookie := mkCookie {
  ck_name : list N; ck_value : list N; ck_expires : option Z; ck_max_age : option Z; ck_domain : list N;
  ck_path : list N; ck_secure : bool; ck_http_only : bool; ck_same_site : option same_site }.

(** cookie.cpp:486-504 the constructors *)
Definition new_cookie (n v : list N) : cookie := mkCookie n v None None [] (str "/") false false None.

(** cookie.cpp:44-60 validate_cookie_for_serialization *)
Definition validate_cookie (c : cookie) : bool :=
  negb (length (ck_name c) =? 0)%nat && forallb is_cookie_name_char (ck_name c)
  && forallb is_set_cookie_value_char (ck_value c)
  && forallb is_set_cookie_value_char (ck_domain c)
  && forallb is_set_cookie_value_char (ck_path c).

(** cookie.cpp:391-476 Cookie::to_header; None: throws *)
Definition to_header (c : cookie) : option (list N) :=
  if negb (validate_cookie c) then None
  else Some (
    ck_name c ++ [61] ++ ck_value c
    ++ match ck_expires c with Some t => str "; Expires=" ++ format_http_date t | None => [] end
    ++ match ck_max_age c with Some n => str "; Max-Age=" ++ to_string n | None => [] end
    ++ match ck_domain c with [] => [] | d => str "; Domain=" ++ d end
    ++ match ck_path c with [] => [] | p => str "; Path=" ++ p end
    ++ (if ck_secure c then str "; Secure" else [])
    ++ (if ck_http_only c then str "; HttpOnly" else [])
    ++ match ck_same_site c with
       | Some SSStrict => str "; SameSite=Strict"
       | Some SSLax => str "; SameSite=Lax"
       | Some SSNone => str "; SameSite=None"
       | None => []
       end).

(** cookie.cpp:308-310, 332-334: strip one pair of double quotes *)
Definition unquote (v : list N) : list N :=
  match v with
  | c :: r =>
    match rev r with
    | e :: m => if (c =? 34) && (e =? 34) then rev m else v
    | [] => v
    end
  | [] => v
  end.

(** qb::to_number<int> (qb core), as described at cookie.cpp:342-347: the whole text is an optional minus
    and decimal digits, the value fits an int *)
Definition to_number_int (w : list N) : option Z :=
  let '(neg, ds) := match w with c :: r => if c =? 45 then (true, r) else (false, w) | [] => (false, w) end in
  if (length ds =? 0)%nat then None
  else if negb (forallb (fun c => (48 <=? c) && (c <=? 57)) ds) then None
  else let v := (if neg then - digits_value ds else digits_value ds)%Z in
       if ((v <? -2147483648) || (2147483647 <? v))%Z then None else Some v.

Definition set_expires c t := mkCookie (ck_name c) (ck_value c) (Some t) (ck_max_age c) (ck_domain c) (ck_path c) (ck_secure c) (ck_http_only c) (ck_same_site c).
Definition set_max_age c n := mkCookie (ck_name c) (ck_value c) (ck_expires c) (Some n) (ck_domain c) (ck_path c) (ck_secure c) (ck_http_only c) (ck_same_site c).
Definition set_domain c d := mkCookie (ck_name c) (ck_value c) (ck_expires c) (ck_max_age c) d (ck_path c) (ck_secure c) (ck_http_only c) (ck_same_site c).
Definition set_path c p := mkCookie (ck_name c) (ck_value c) (ck_expires c) (ck_max_age c) (ck_domain c) p (ck_secure c) (ck_http_only c) (ck_same_site c).
Definition set_secure c := mkCookie (ck_name c) (ck_value c) (ck_expires c) (ck_max_age c) (ck_domain c) (ck_path c) true (ck_http_only c) (ck_same_site c).
Definition set_http_only c := mkCookie (ck_name c) (ck_value c) (ck_expires c) (ck_max_age c) (ck_domain c) (ck_path c) (ck_secure c) true (ck_same_site c).
Definition set_same_site c s := mkCookie (ck_name c) (ck_value c) (ck_expires c) (ck_max_age c) (ck_domain c) (ck_path c) (ck_secure c) (ck_http_only c) (Some s).

(** cookie.cpp:318-370, one attribute (the text between two semicolons) *)
Definition apply_attribute (c : cookie) (text : list N) : cookie :=
  let pair := trim_http_whitespace text in
  if (length pair =? 0)%nat then c
  else
    let '(name, value) :=
      match find_char 61 pair with
      | None => (pair, [])
      | Some i => (trim_http_whitespace (firstn i pair), unquote (trim_http_whitespace (skipn (S i) pair)))
      end in
    if iequals name (str "Expires") then match parse_http_date value with Ok t => set_expires c t | _ => c end
    else if iequals name (str "Max-Age") then
      if (length value =? 0)%nat then c
      else match to_number_int value with Some n => set_max_age c n | None => c end
    else if iequals name (str "Domain") then set_domain c value
    else if iequals name (str "Path") then set_path c value
    else if iequals name (str "Secure") then set_secure c
    else if iequals name (str "HttpOnly") then set_http_only c
    else if iequals name (str "SameSite") then
      if iequals value (str "Strict") then set_same_site c SSStrict
      else if iequals value (str "Lax") then set_same_site c SSLax
      else if iequals value (str "None") then set_same_site c SSNone
      else c
    else c.

(** cookie.cpp:315-376 the attribute loop; each round removes at least one character or stops *)
Fixpoint attributes_loop (fuel : nat) (c : cookie) (rest : list N) : cookie :=
  match fuel with
  | O => c
  | S f =>
    match rest with
    | [] => c
    | _ =>
      match find_char 59 rest with
      | None => apply_attribute c rest
      | Some i => attributes_loop f (apply_attribute c (firstn i rest)) (skipn (S i) rest)
      end
    end
  end.

(** cookie.cpp:278-378 parse_set_cookie *)
Definition parse_set_cookie (header : list N) : option cookie :=
  match header with
  | [] => None
  | _ =>
    let '(pair0, attrs) :=
      match find_char 59 header with
      | None => (header, [])
      | Some i => (firstn i header, skipn (S i) header)
      end in
    let pair := trim_http_whitespace pair0 in
    match find_char 61 pair with
    | None => None
    | Some i =>
      if (i =? 0)%nat then None
      else
        let c := new_cookie (firstn i pair) (unquote (skipn (S i) pair)) in
        Some (attributes_loop (S (length attrs)) c attrs)
    end
  end.

(** cookie.h:314-326, 342-391 and cookie.cpp:506-515 CookieJar: an icase map from name to Cookie.
    operator[] = and the two-argument add replace the value of an existing key. *)
Definition jar := list (list N * cookie).
Definition jar_get (j : jar) (k : list N) : option cookie := option_map snd (find (fun e => iequals k (fst e)) j).
Fixpoint jar_put (j : jar) (k : list N) (c : cookie) : jar :=
  match j with
  | [] => [(k, c)]
  | e :: r => if iequals k (fst e) then (fst e, c) :: r else e :: jar_put r k c
  end.
Definition jar_add (j : jar) (c : cookie) : jar := jar_put j (ck_name c) c.
Definition jar_remove (j : jar) (k : list N) : jar := filter (fun e => negb (iequals k (fst e))) j.
