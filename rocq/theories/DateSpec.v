(** Independent vocabulary for the HTTP-date properties: the Gregorian calendar, counted day by day from
    1970-01-01, and the three textual forms of RFC 9110 5.6.7. *)
From Verif Require Import Base.
Local Open Scope Z_scope.

(** A year is a leap year when divisible by 4, except centuries not divisible by 400. *)
Definition Leap (y : Z) : Prop := (4 | y) /\ (~ (100 | y) \/ (400 | y)).

(** Length of the months, 1 = January ... 12 = December. *)
Inductive MonthLength (y : Z) : Z -> Z -> Prop :=
| ml31 m : In m [1; 3; 5; 7; 8; 10; 12] -> MonthLength y m 31
| ml30 m : In m [4; 6; 9; 11] -> MonthLength y m 30
| ml28 : ~ Leap y -> MonthLength y 2 28
| ml29 : Leap y -> MonthLength y 2 29.

(** (year, month 1..12, day of month 1..) is a date of the calendar. *)
Definition Date (y m d : Z) : Prop := exists len, MonthLength y m len /\ 1 <= d <= len.

(** The day after a date. *)
Inductive NextDay : Z * Z * Z -> Z * Z * Z -> Prop :=
| nd_day y m d len : MonthLength y m len -> 1 <= d < len -> NextDay (y, m, d) (y, m, d + 1)
| nd_month y m len : MonthLength y m len -> m < 12 -> NextDay (y, m, len) (y, m + 1, 1)
| nd_year y : NextDay (y, 12, 31) (y + 1, 1, 1).

(** Number of days from 1970-01-01 to a date, by walking the calendar either way.  The second number is
    the day of the week, 0 = Sunday: 1970-01-01 was a Thursday. *)
Inductive DayNo : Z * Z * Z -> Z -> Z -> Prop :=
| dn_epoch : DayNo (1970, 1, 1) 0 4
| dn_next a b n w : DayNo a n w -> NextDay a b -> DayNo b (n + 1) (if w =? 6 then 0 else w + 1)
| dn_prev a b n w : DayNo b n w -> NextDay a b -> DayNo a (n - 1) (if w =? 0 then 6 else w - 1).

(** t is the number of seconds from the epoch to that civil time in UTC. *)
Definition Instant (y m d hh mm ss : Z) (t : Z) : Prop :=
  exists n w, DayNo (y, m, d) n w /\ t = 86400 * n + 3600 * hh + 60 * mm + ss.

Definition TimeOfDay (hh mm ss : Z) : Prop := 0 <= hh < 24 /\ 0 <= mm < 60 /\ 0 <= ss < 60.

(** Decimal digits, fixed width. *)
Definition dig (z : Z) : N := (48 + Z.to_N z)%N.
Definition d2 (z : Z) : list N := [dig (z / 10); dig (z mod 10)].
Definition d4 (z : Z) : list N := [dig (z / 1000); dig (z / 100 mod 10); dig (z / 10 mod 10); dig (z mod 10)].

Definition mon_name (m : Z) : list N :=
  nth (Z.to_nat (m - 1))
    [str "Jan"; str "Feb"; str "Mar"; str "Apr"; str "May"; str "Jun"; str "Jul"; str "Aug"; str "Sep"; str "Oct";
     str "Nov"; str "Dec"] [].
Definition day_name (w : Z) : list N :=
  nth (Z.to_nat w) [str "Sun"; str "Mon"; str "Tue"; str "Wed"; str "Thu"; str "Fri"; str "Sat"] [].
Definition long_day_name (w : Z) : list N :=
  nth (Z.to_nat w)
    [str "Sunday"; str "Monday"; str "Tuesday"; str "Wednesday"; str "Thursday"; str "Friday"; str "Saturday"] [].

Definition hms (hh mm ss : Z) : list N := d2 hh ++ str ":" ++ d2 mm ++ str ":" ++ d2 ss.

(** IMF-fixdate: Sun, 06 Nov 1994 08:49:37 GMT *)
Definition imf (w y m d hh mm ss : Z) : list N :=
  day_name w ++ str ", " ++ d2 d ++ str " " ++ mon_name m ++ str " " ++ d4 y ++ str " " ++ hms hh mm ss ++ str " GMT".

(** RFC 850: Sunday, 06-Nov-94 08:49:37 GMT *)
Definition rfc850 (w yy m d hh mm ss : Z) : list N :=
  long_day_name w ++ str ", " ++ d2 d ++ str "-" ++ mon_name m ++ str "-" ++ d2 yy ++ str " " ++ hms hh mm ss
  ++ str " GMT".

(** asctime: Sun Nov  6 08:49:37 1994, the day padded with a space *)
Definition asctime (w y m d hh mm ss : Z) : list N :=
  day_name w ++ str " " ++ mon_name m ++ str " "
  ++ (if d <? 10 then [32%N; dig d] else d2 d) ++ str " " ++ hms hh mm ss ++ str " " ++ d4 y.
