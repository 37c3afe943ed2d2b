(** Model of src/qbm/http/date.cpp.

    A std::chrono::system_clock::time_point is its number of whole seconds since 1970-01-01 00:00:00 UTC
    (to_time_t/from_time_t; the sub-second part, which the code drops when formatting, is not modelled).
    qb::safe_timegm and qb::safe_gmtime belong to the qb core library, outside /repo; they are modelled as
    the proleptic Gregorian calendar in UTC without leap seconds, which is what POSIX specifies for
    timegm/gmtime_r, and as never failing. *)
From Verif Require Import Base UtilModel StaticModel.
Local Open Scope Z_scope.

(** A parse step reads outside the string (undefined behaviour), rejects, or goes on. *)
Inductive res (A : Type) : Type := UB | Reject | Ok (a : A).
Arguments UB {A}. Arguments Reject {A}. Arguments Ok {A} a.

Definition bind {A B} (x : res A) (f : A -> res B) : res B :=
  match x with UB => UB | Reject => Reject | Ok a => f a end.

(** date.cpp:28-33 MONTH_NAMES, MONTH_NAMES_LONG, DAY_NAMES *)
Definition MONTH_NAMES : list (list N) :=
  [str "Jan"; str "Feb"; str "Mar"; str "Apr"; str "May"; str "Jun"; str "Jul"; str "Aug"; str "Sep"; str "Oct";
   str "Nov"; str "Dec"].
Definition MONTH_NAMES_LONG : list (list N) :=
  [str "January"; str "February"; str "March"; str "April"; str "May"; str "June"; str "July"; str "August";
   str "September"; str "October"; str "November"; str "December"].
Definition DAY_NAMES : list (list N) :=
  [str "Sun"; str "Mon"; str "Tue"; str "Wed"; str "Thu"; str "Fri"; str "Sat"].

Fixpoint index_of (m : list N) (l : list (list N)) (i : Z) : Z :=
  match l with
  | [] => -1
  | x :: r => if beq m x then i else index_of m r (i + 1)
  end.

(** date.cpp:44-60 month_to_num *)
Definition month_to_num (m : list N) : Z :=
  let i := index_of m MONTH_NAMES 0 in
  if i <? 0 then index_of m MONTH_NAMES_LONG 0 else i.

(** struct tm, the fields the code reads *)
Record tm := mkTm { tm_year : Z; tm_mon : Z; tm_mday : Z; tm_hour : Z; tm_min : Z; tm_sec : Z; tm_wday : Z }.

Definition is_leap (y : Z) : bool := (y mod 4 =? 0) && (negb (y mod 100 =? 0) || (y mod 400 =? 0)).

(** days before month m (0..11) in a year *)
Definition month_start (leap : bool) (m : Z) : Z :=
  let l := if leap then 1 else 0 in
  if m <=? 0 then 0 else if m =? 1 then 31 else if m =? 2 then 59 + l else if m =? 3 then 90 + l
  else if m =? 4 then 120 + l else if m =? 5 then 151 + l else if m =? 6 then 181 + l else if m =? 7 then 212 + l
  else if m =? 8 then 243 + l else if m =? 9 then 273 + l else if m =? 10 then 304 + l else 334 + l.

(** qb::safe_timegm (qb core): seconds of the broken-down UTC time, an out-of-range tm_mday carrying over *)
Definition safe_timegm (t : tm) : Z :=
  let y := tm_year t + 1900 in
  let y1 := y - 1 in
  let days := 365 * y1 + y1 / 4 - y1 / 100 + y1 / 400 + month_start (is_leap y) (tm_mon t) + tm_mday t - 1 - 719162 in
  86400 * days + 3600 * tm_hour t + 60 * tm_min t + tm_sec t.

(** month containing day-of-year doy (0-based) *)
Definition month_of (leap : bool) (doy : Z) : Z :=
  if doy <? month_start leap 1 then 0 else if doy <? month_start leap 2 then 1 else if doy <? month_start leap 3 then 2
  else if doy <? month_start leap 4 then 3 else if doy <? month_start leap 5 then 4 else if doy <? month_start leap 6 then 5
  else if doy <? month_start leap 7 then 6 else if doy <? month_start leap 8 then 7 else if doy <? month_start leap 9 then 8
  else if doy <? month_start leap 10 then 9 else if doy <? month_start leap 11 then 10 else 11.

(** qb::safe_gmtime (qb core) *)
Definition safe_gmtime (t : Z) : tm :=
  let days := t / 86400 in
  let secs := t mod 86400 in
  let z := days + 719162 in
  let n400 := z / 146097 in
  let r := z mod 146097 in
  let n100 := Z.min (r / 36524) 3 in
  let r1 := r - 36524 * n100 in
  let n4 := r1 / 1461 in
  let r2 := r1 - 1461 * n4 in
  let n1 := Z.min (r2 / 365) 3 in
  let doy := r2 - 365 * n1 in
  let y := 400 * n400 + 100 * n100 + 4 * n4 + n1 + 1 in
  let m := month_of (is_leap y) doy in
  {| tm_year := y - 1900; tm_mon := m; tm_mday := doy - month_start (is_leap y) m + 1;
     tm_hour := secs / 3600; tm_min := secs mod 3600 / 60; tm_sec := secs mod 60;
     tm_wday := (days + 4) mod 7 |}.

(** date.cpp:72-113 make_time_point_utc; month is 0-based *)
Definition make_time_point_utc (year month day hour minute second : Z) : res Z :=
  if (year <? 1) || (9999 <? year) || (month <? 0) || (11 <? month) || (day <? 1) || (31 <? day)
     || (hour <? 0) || (23 <? hour) || (minute <? 0) || (59 <? minute) || (second <? 0) || (59 <? second)
  then Reject
  else
    let time_value :=
      safe_timegm {| tm_year := year - 1900; tm_mon := month; tm_mday := day; tm_hour := hour; tm_min := minute;
                     tm_sec := second; tm_wday := 0 |} in
    let n := safe_gmtime time_value in
    if negb (tm_year n =? year - 1900) || negb (tm_mon n =? month) || negb (tm_mday n =? day)
       || negb (tm_hour n =? hour) || negb (tm_min n =? minute) || negb (tm_sec n =? second)
    then Reject
    else Ok time_value.

(** (x < 10 ? "0" : "") << x *)
Definition pad2 (x : Z) : list N := (if x <? 10 then str "0" else []) ++ to_string x.

(** date.cpp:120-135 format_http_date (and 142-146 format_cookie_date) *)
Definition format_http_date (t : Z) : list N :=
  let v := safe_gmtime t in
  nth (Z.to_nat (tm_wday v)) DAY_NAMES [] ++ str ", " ++ pad2 (tm_mday v) ++ str " "
  ++ nth (Z.to_nat (tm_mon v)) MONTH_NAMES [] ++ str " " ++ to_string (tm_year v + 1900) ++ str " "
  ++ pad2 (tm_hour v) ++ str ":" ++ pad2 (tm_min v) ++ str ":" ++ pad2 (tm_sec v) ++ str " " ++ str "GMT".

(** str[i]: reading at or past size() is undefined *)
Definition at_ (s : list N) (i : nat) : res N :=
  match nth_error s i with Some c => Ok c | None => UB end.

(** a guard: if (cond) return std::nullopt; *)
Definition guard (reject : bool) : res unit := if reject then Reject else Ok tt.

(** "str[i] != c" as a reason to reject *)
Definition expect (s : list N) (i : nat) (c : N) : res unit :=
  bind (at_ s i) (fun x => guard (negb (x =? c)%N)).

Fixpoint take_digits (s : list N) : list N :=
  match s with
  | c :: r => if ((48 <=? c) && (c <=? 57))%N then c :: take_digits r else []
  | [] => []
  end.

Definition digits_value (s : list N) : Z := fold_left (fun a c => 10 * a + (Z.of_N c - 48)) s 0.

(** std::from_chars(first, last, int) with last - first <= 4: an optional minus, then as many digits as
    there are; at least one digit, otherwise invalid_argument.  The rest of the range may stay unread. *)
Definition from_chars (w : list N) : option Z :=
  match w with
  | c :: r =>
    if (c =? 45)%N then match take_digits r with [] => None | ds => Some (- digits_value ds) end
    else match take_digits w with [] => None | ds => Some (digits_value ds) end
  | [] => None
  end.

(** from_chars(str.data()+i, str.data()+i+n): the range must lie inside the string *)
Definition num (s : list N) (i n : nat) : res Z :=
  if (i + n <=? length s)%nat
  then match from_chars (firstn n (skipn i s)) with Some v => Ok v | None => Reject end
  else UB.

(** str.substr(i, n) *)
Definition substr (s : list N) (i n : nat) : list N := firstn n (skipn i s).

(** the "HH:MM:SS" block shared by the three parsers (date.cpp:201-213, 276-288, 341-353) *)
Definition parse_time (s : list N) (pos : nat) : res (Z * Z * Z) :=
  bind (guard (length s <? pos + 8)%nat) (fun _ =>
  bind (num s pos 2) (fun hour =>
  bind (expect s (pos + 2) 58) (fun _ =>
  bind (num s (pos + 3) 2) (fun minute =>
  bind (expect s (pos + 5) 58) (fun _ =>
  bind (num s (pos + 6) 2) (fun second => Ok (hour, minute, second))))))).

(** month name of 3 characters at pos (date.cpp:180-185, 250-255, 312-317) *)
Definition parse_month (s : list N) (pos : nat) : res Z :=
  bind (guard (length s <? pos + 3)%nat) (fun _ =>
  let m := month_to_num (substr s pos 3) in
  bind (guard (m <? 0)) (fun _ => Ok m)).

(** "if (pos + k >= size || str[pos + k] != c) return nullopt" *)
Definition expect_in (s : list N) (i : nat) (c : N) : res unit :=
  bind (guard (length s <=? i)%nat) (fun _ => expect s i c).

(** date.cpp:153-220 parse_rfc1123_date *)
Definition parse_rfc1123_date (s : list N) : res Z :=
  bind (guard (negb (length s =? 29)%nat)) (fun _ =>
  match find_char 44 s with
  | None => Reject                            (* npos != 3 *)
  | Some p =>
    bind (guard (negb (p =? 3)%nat)) (fun _ =>
    bind (expect_in s (p + 1) 32) (fun _ =>
    let pos := (p + 2)%nat in
    bind (guard (length s <=? pos)%nat) (fun _ =>
    bind (guard (length s <? pos + 2)%nat) (fun _ =>
    bind (num s pos 2) (fun day =>
    bind (expect_in s (pos + 2) 32) (fun _ =>
    let pos := (pos + 3)%nat in
    bind (parse_month s pos) (fun month =>
    bind (expect_in s (pos + 3) 32) (fun _ =>
    let pos := (pos + 4)%nat in
    bind (guard (length s <? pos + 4)%nat) (fun _ =>
    bind (num s pos 4) (fun year =>
    bind (expect_in s (pos + 4) 32) (fun _ =>
    let pos := (pos + 5)%nat in
    bind (parse_time s pos) (fun hms =>
    let '(hour, minute, second) := hms in
    let pos := (pos + 8)%nat in
    bind (guard (negb (pos + 4 =? length s)%nat || negb (beq (substr s pos 4) (str " GMT")))) (fun _ =>
    make_time_point_utc year month day hour minute second)))))))))))))
  end).

(** date.cpp:227-295 parse_rfc850_date *)
Definition parse_rfc850_date (s : list N) : res Z :=
  match find_char 44 s with
  | None => Reject
  | Some p =>
    bind (expect_in s (p + 1) 32) (fun _ =>
    let pos := (p + 2)%nat in
    bind (guard (length s <=? pos)%nat) (fun _ =>
    bind (guard (length s <? pos + 2)%nat) (fun _ =>
    bind (num s pos 2) (fun day =>
    bind (expect_in s (pos + 2) 45) (fun _ =>
    let pos := (pos + 3)%nat in
    bind (parse_month s pos) (fun month =>
    bind (expect_in s (pos + 3) 45) (fun _ =>
    let pos := (pos + 4)%nat in
    bind (guard (length s <? pos + 2)%nat) (fun _ =>
    bind (num s pos 2) (fun year0 =>
    let year := if year0 <? 70 then year0 + 2000 else year0 + 1900 in
    bind (expect_in s (pos + 2) 32) (fun _ =>
    let pos := (pos + 3)%nat in
    bind (parse_time s pos) (fun hms =>
    let '(hour, minute, second) := hms in
    let pos := (pos + 8)%nat in
    bind (guard (negb (pos + 4 =? length s)%nat || negb (beq (substr s pos 4) (str " GMT")))) (fun _ =>
    make_time_point_utc year month day hour minute second))))))))))))
  end.

(** date.cpp:302-365 parse_asctime_date *)
Definition parse_asctime_date (s : list N) : res Z :=
  bind (guard (negb (length s =? 24)%nat)) (fun _ =>
  bind (expect s 3 32) (fun _ =>
  bind (expect s 7 32) (fun _ =>
  let pos := 4%nat in
  bind (parse_month s pos) (fun month =>
  let pos := (pos + 4)%nat in
  bind (at_ s pos) (fun c =>
  let pos := if (c =? 32)%N then (pos + 1)%nat else pos in
  let day_len := length (take_digits (skipn pos s)) in
  bind (guard ((day_len =? 0)%nat || (2 <? day_len)%nat)) (fun _ =>
  bind (num s pos day_len) (fun day =>
  bind (expect_in s (pos + day_len) 32) (fun _ =>
  let pos := (pos + (day_len + 1))%nat in
  bind (parse_time s pos) (fun hms =>
  let '(hour, minute, second) := hms in
  let pos := (pos + 9)%nat in
  bind (guard (negb (pos + 4 =? length s)%nat)) (fun _ =>
  bind (num s pos 4) (fun year =>
  make_time_point_utc year month day hour minute second))))))))))).

(** "if (result) return result;" falls through to the next attempt *)
Definition or_else (x y : res Z) : res Z := match x with Reject => y | _ => x end.

(** date.cpp:372-400 parse_http_date (and 417-423 parse_cookie_date) *)
Definition parse_http_date (s : list N) : res Z :=
  let has c := match find_char c s with Some _ => true | None => false end in
  or_else (if has 44%N && negb (has 45%N) then parse_rfc1123_date s else Reject)
  (or_else (if has 45%N then parse_rfc850_date s else Reject)
           (parse_asctime_date s)).
