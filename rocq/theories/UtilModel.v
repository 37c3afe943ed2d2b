(** Model of src/qbm/http/utility.h and utility.cpp. *)
From Verif Require Import Base.
Local Open Scope N_scope.

(** utility.h:112-115 is_hex_digit *)
Definition is_hex_digit (c : N) : bool :=
  ((48 <=? c) && (c <=? 57)) || ((97 <=? c) && (c <=? 102)) || ((65 <=? c) && (c <=? 70)).

(** utility.h:122-131 hex_value *)
Definition hex_value (c : N) : N :=
  if (48 <=? c) && (c <=? 57) then c - 48
  else if (97 <=? c) && (c <=? 102) then 10 + c - 97
  else if (65 <=? c) && (c <=? 70) then 10 + c - 65
  else 0.

(** utility.cpp:21-38 decode_path_component.  The index loop is kept; every subscript goes through
    nth_error and an out-of-range subscript yields None (undefined behaviour), as does exhausting the
    fuel.  result is accumulated at its end (push_back). *)
Fixpoint decode_path_loop (fuel : nat) (input : list N) (i : nat) (result : list N) : option (list N) :=
  match fuel with
  | O => None
  | S fuel' =>
    if (i <? length input)%nat then
      match nth_error input i with
      | None => None
      | Some c =>
        (* c == '%' && i + 2 < size && hex && hex, evaluated left to right *)
        if (c =? 37) && (i + 2 <? length input)%nat then
          match nth_error input (i + 1), nth_error input (i + 2) with
          | Some c1, Some c2 =>
            if is_hex_digit c1 && is_hex_digit c2
            then decode_path_loop fuel' input (i + 2 + 1)
                   (result ++ [N.lor (N.shiftl (hex_value c1) 4) (hex_value c2) mod 256])
            else decode_path_loop fuel' input (i + 1) (result ++ [c])
          | _, _ => None
          end
        else decode_path_loop fuel' input (i + 1) (result ++ [c])
      end
    else Some result
  end.

Definition decode_path_component (input : list N) : option (list N) :=
  decode_path_loop (S (length input)) input 0 [].

(** utility.cpp:101 hex_digits table 0-9 A-F (out of range is impossible for a nibble) *)
Definition hex_digits : list N := [48;49;50;51;52;53;54;55;56;57;65;66;67;68;69;70].

(** utility.cpp:94-95 the unreserved test *)
Definition is_unreserved (c : N) : bool :=
  ((65 <=? c) && (c <=? 90)) || ((97 <=? c) && (c <=? 122)) || ((48 <=? c) && (c <=? 57))
  || (c =? 45) || (c =? 95) || (c =? 46) || (c =? 126).

(** utility.cpp:88-108 uri_encode_component *)
Definition uri_encode_byte (c : N) : list N :=
  if is_unreserved c then [c]
  else [37; nth (N.to_nat (N.shiftr c 4)) hex_digits 0; nth (N.to_nat (N.land c 15)) hex_digits 0].

Definition uri_encode_component (component : list N) : list N := flat_map uri_encode_byte component.

(** utility.cpp:58-86 escape_html *)
Definition escape_html_byte (c : N) : list N :=
  if c =? 38 then str "&amp;"
  else if c =? 34 then [38;113;117;111;116;59]            (* &quot; *)
  else if c =? 39 then str "&#39;"
  else if c =? 60 then str "&lt;"
  else if c =? 62 then str "&gt;"
  else [c].

Definition escape_html (text : list N) : list N := flat_map escape_html_byte text.

(** utility.h:157-161 ascii_to_lower: u | (is_upper << 5) *)
Definition ascii_to_lower (c : N) : N :=
  N.lor c (N.shiftl (if (65 <=? c) && (c <=? 90) then 1 else 0) 5).

(** utility.h:175-193 iequals *)
Fixpoint iequals_loop (a b : list N) : bool :=
  match a, b with
  | x :: a', y :: b' =>
    if x =? y then iequals_loop a' b'
    else if (negb (N.lxor x y =? 32)) || (N.lor x 32 <? 97) || (122 <? N.lor x 32) then false
    else iequals_loop a' b'
  | _, _ => true     (* the loop runs to the common length *)
  end.

Definition iequals (a b : list N) : bool :=
  if negb (length a =? length b)%nat then false else iequals_loop a b.

(** utility.h:203-205 is_http_whitespace *)
Definition is_http_whitespace (c : N) : bool := (c =? 32) || (c =? 9).

(** utility.h:214-227 trim_http_whitespace: the two pointer loops *)
Fixpoint drop_ws (s : list N) : list N :=
  match s with
  | [] => []
  | c :: r => if is_http_whitespace c then drop_ws r else s
  end.

Definition trim_http_whitespace (s : list N) : list N := rev (drop_ws (rev (drop_ws s))).

(** utility.cpp:40-56 split_and_trim_header_list.  Fuel bounds the number of delimiters; running out
    gives None. *)
Fixpoint split_and_trim_loop (fuel : nat) (delimiter : N) (remaining : list N) (result : list (list N))
  : option (list (list N)) :=
  match fuel with
  | O => None
  | S fuel' =>
    match find_char delimiter remaining with
    | Some pos =>
      let token := trim_http_whitespace (firstn pos remaining) in
      let result := match token with [] => result | _ => result ++ [token] end in
      split_and_trim_loop fuel' delimiter (skipn (pos + 1) remaining) result
    | None =>
      let token := trim_http_whitespace remaining in
      Some (match token with [] => result | _ => result ++ [token] end)
    end
  end.

Definition split_and_trim_header_list (header_value : list N) (delimiter : N) : option (list (list N)) :=
  split_and_trim_loop (S (length header_value)) delimiter header_value [].

(** utility.h:261-300 split_string (delimiter set) and 323-360 (predicate): same loop, the delimiter
    test abstracted as a boolean predicate.  first is kept as the remaining suffix.  The reserve logic
    has no observable effect and is dropped. *)
Fixpoint split_string_loop (fuel : nat) (is_delim : N -> bool) (first : list N) (result : list (list N))
  : option (list (list N)) :=
  match fuel with
  | O => None
  | S fuel' =>
    match first with
    | [] => Some result
    | _ =>
      match find_if is_delim first with
      | None => Some (result ++ [first])          (* second == end, first != second *)
      | Some k =>
        let result := if (k =? 0)%nat then result else result ++ [firstn k first] in
        split_string_loop fuel' is_delim (skipn (k + 1) first) result
      end
    end
  end.

Definition split_string (s : list N) (is_delim : N -> bool) : option (list (list N)) :=
  split_string_loop (S (length s)) is_delim s [].

(** The delimiter-set overload: std::find_first_of over the delimiter characters. *)
Definition split_string_set (s delimiters : list N) : option (list (list N)) :=
  split_string s (fun c => existsb (fun d => c =? d) delimiters).

(** utility.h:387-450 split_string_by.  The pre-count used only for reserve is dropped. *)
Fixpoint split_by_loop (fuel : nat) (s boundary : list N) (current_pos : nat) (result : list (list N))
  : option (list (list N)) :=
  match fuel with
  | O => None
  | S fuel' =>
    if (current_pos <=? length s)%nat then
      match find_sub boundary (skipn current_pos s) with
      | None => Some (result ++ [skipn current_pos s])
      | Some k =>
        split_by_loop fuel' s boundary (current_pos + k + length boundary)
                      (result ++ [firstn k (skipn current_pos s)])
      end
    else Some result
  end.

Definition split_string_by (s boundary : list N) : option (list (list N)) :=
  match boundary with
  | [] => Some (match s with [] => [] | _ => [s] end)
  | _ => split_by_loop (S (length s)) s boundary 0 []
  end.

(** utility.h:474-568 split_view: the iterator state and advance() (535-550). *)
Record sv_iter := { sv_current : list N; sv_cursor : nat; sv_done : bool }.

Definition sv_advance (haystack : list N) (delimiter : N) (it : sv_iter) : sv_iter :=
  if (length haystack <? sv_cursor it)%nat
  then {| sv_current := []; sv_cursor := sv_cursor it; sv_done := true |}
  else
    let start := sv_cursor it in
    match find_char delimiter (skipn start haystack) with
    | None => {| sv_current := skipn start haystack; sv_cursor := length haystack + 1; sv_done := sv_done it |}
    | Some k => {| sv_current := firstn k (skipn start haystack); sv_cursor := start + k + 1; sv_done := sv_done it |}
    end.

(** The range-for loop: begin() constructs an iterator (cursor 0) and advances it once (489-493); the
    loop yields the current view until the iterator compares equal to the sentinel (done). *)
Fixpoint sv_collect (fuel : nat) (haystack : list N) (delimiter : N) (it : sv_iter) : option (list (list N)) :=
  match fuel with
  | O => None
  | S fuel' =>
    if sv_done it then Some []
    else option_map (cons (sv_current it)) (sv_collect fuel' haystack delimiter (sv_advance haystack delimiter it))
  end.

Definition split_view (haystack : list N) (delimiter : N) : option (list (list N)) :=
  sv_collect (S (S (length haystack))) haystack delimiter
    (sv_advance haystack delimiter {| sv_current := []; sv_cursor := 0; sv_done := false |}).

(** utility.h:582-613 join *)
Definition join (strings : list (list N)) (delimiter : list N) : list N :=
  match strings with
  | [] => []
  | s0 :: rest => fold_left (fun acc s => acc ++ delimiter ++ s) rest s0
  end.
