(** Proofs about the calendar and the date parsers. *)
From Verif Require Import Base UtilModel StaticModel DateModel DateSpec.
Local Open Scope Z_scope.

(** * The calendar *)

Definition b2z (b : bool) : Z := if b then 1 else 0.

Definition year_start (y : Z) : Z := 365 * (y - 1) + (y - 1) / 4 - (y - 1) / 100 + (y - 1) / 400.

Definition mlen (leap : bool) (m : Z) : Z :=
  if m =? 2 then 28 + b2z leap else if (m =? 4) || (m =? 6) || (m =? 9) || (m =? 11) then 30 else 31.

Definition dayno (a : Z * Z * Z) : Z :=
  let '(y, m, d) := a in year_start y + month_start (is_leap y) (m - 1) + d - 1 - 719162.

Definition civil (n : Z) : Z * Z * Z :=
  let v := safe_gmtime (86400 * n) in (tm_year v + 1900, tm_mon v + 1, tm_mday v).

Lemma leap_iff y : Leap y <-> is_leap y = true.
Proof.
  unfold Leap, is_leap.
  rewrite andb_true_iff, orb_true_iff, negb_true_iff, Z.eqb_eq, Z.eqb_neq, Z.eqb_eq.
  rewrite (Z.mod_divide y 4), (Z.mod_divide y 100), (Z.mod_divide y 400) by lia. reflexivity.
Qed.

Lemma leap_step y : (y / 4 - y / 100 + y / 400) - ((y - 1) / 4 - (y - 1) / 100 + (y - 1) / 400) = b2z (is_leap y).
Proof.
  unfold is_leap, b2z.
  destruct (Z.eqb_spec (y mod 4) 0); destruct (Z.eqb_spec (y mod 100) 0); destruct (Z.eqb_spec (y mod 400) 0);
    cbn [andb orb negb]; Z.to_euclidean_division_equations; lia.
Qed.

Lemma year_step y : year_start (y + 1) = year_start y + 365 + b2z (is_leap y).
Proof.
  unfold year_start. replace (y + 1 - 1) with y by lia. pose proof (leap_step y). lia.
Qed.

Lemma monthlength_iff y m len : MonthLength y m len <-> (1 <= m <= 12 /\ len = mlen (is_leap y) m).
Proof.
  unfold mlen. split.
  - intros [k Hk | k Hk | Hl | Hl].
    + cbn [In] in Hk. assert (D : k = 1 \/ k = 3 \/ k = 5 \/ k = 7 \/ k = 8 \/ k = 10 \/ k = 12) by lia.
      clear Hk. destruct D as [-> | [-> | [-> | [-> | [-> | [-> | ->]]]]]]; cbn; lia.
    + cbn [In] in Hk. assert (D : k = 4 \/ k = 6 \/ k = 9 \/ k = 11) by lia.
      clear Hk. destruct D as [-> | [-> | [-> | ->]]]; cbn; lia.
    + destruct (is_leap y) eqn:E; [exfalso; apply Hl; now apply leap_iff | cbn; lia].
    + apply leap_iff in Hl. rewrite Hl. cbn. lia.
  - intros [Hm ->].
    assert (D : m = 1 \/ m = 2 \/ m = 3 \/ m = 4 \/ m = 5 \/ m = 6 \/ m = 7 \/ m = 8 \/ m = 9 \/ m = 10 \/ m = 11 \/ m = 12) by lia.
    destruct D as [-> | [-> | [-> | [-> | [-> | [-> | [-> | [-> | [-> | [-> | [-> | ->]]]]]]]]]]];
      cbn [Z.eqb Pos.eqb orb]; try (apply ml31; cbn; tauto); try (apply ml30; cbn; tauto).
    destruct (is_leap y) eqn:E; cbn [b2z Z.add Pos.add].
    + apply ml29. now apply leap_iff.
    + apply ml28. intros H. apply leap_iff in H. congruence.
Qed.

Lemma date_iff y m d : Date y m d <-> (1 <= m <= 12 /\ 1 <= d <= mlen (is_leap y) m).
Proof.
  unfold Date. split.
  - intros (len & Hl & Hd). apply monthlength_iff in Hl as [Hm ->]. auto.
  - intros [Hm Hd]. exists (mlen (is_leap y) m). split; [now apply monthlength_iff | auto].
Qed.

Ltac month_cases m :=
  let D := fresh "D" in
  assert (D : m = 0 \/ m = 1 \/ m = 2 \/ m = 3 \/ m = 4 \/ m = 5 \/ m = 6 \/ m = 7 \/ m = 8 \/ m = 9 \/ m = 10 \/ m = 11) by lia;
  destruct D as [D | [D | [D | [D | [D | [D | [D | [D | [D | [D | [D | D]]]]]]]]]]]; subst m.

Lemma month_start_next l m : 0 <= m < 11 -> month_start l (m + 1) = month_start l m + mlen l (m + 1).
Proof. intros H. assert (m <> 11) by lia. month_cases m; try lia; destruct l; reflexivity. Qed.

Lemma month_start_end l : month_start l 11 + mlen l 12 = 365 + b2z l.
Proof. destruct l; reflexivity. Qed.

Lemma month_of_spec l doy : 0 <= doy < 365 + b2z l ->
  let m := month_of l doy in 0 <= m <= 11 /\ month_start l m <= doy < month_start l m + mlen l (m + 1).
Proof.
  intros H. unfold month_of.
  repeat match goal with |- context [if doy <? ?x then _ else _] => destruct (Z.ltb_spec doy x) end;
    destruct l; cbn in *; lia.
Qed.

Lemma month_of_unique l m doy : 0 <= m <= 11 -> month_start l m <= doy < month_start l m + mlen l (m + 1) ->
  month_of l doy = m.
Proof.
  intros Hm Hd. unfold month_of.
  month_cases m; destruct l; cbn in Hd;
    repeat match goal with |- context [doy <? month_start ?l ?k] =>
      let v := eval cbn in (month_start l k) in change (month_start l k) with v end;
    repeat match goal with |- context [if doy <? ?x then _ else _] => destruct (Z.ltb_spec doy x) end; lia.
Qed.

Lemma doy_bound l m d : 0 <= m <= 11 -> 1 <= d <= mlen l (m + 1) ->
  0 <= month_start l m + d - 1 < 365 + b2z l.
Proof.
  intros Hm Hd.
  assert (0 <= month_start l m /\ month_start l m + mlen l (m + 1) <= 365 + b2z l).
  { clear Hd. month_cases m; destruct l; vm_compute; split; discriminate. }
  lia.
Qed.

(** year and day of year of a day number counted from 0001-01-01 *)
Definition split_year (z : Z) : Z * Z :=
  let n400 := z / 146097 in
  let r := z mod 146097 in
  let n100 := Z.min (r / 36524) 3 in
  let r1 := r - 36524 * n100 in
  let n4 := r1 / 1461 in
  let r2 := r1 - 1461 * n4 in
  let n1 := Z.min (r2 / 365) 3 in
  (400 * n400 + 100 * n100 + 4 * n4 + n1 + 1, r2 - 365 * n1).

Lemma year_digits y : exists a b c e, y - 1 = 400 * a + 100 * b + 4 * c + e /\ 0 <= b < 4 /\ 0 <= c < 25 /\ 0 <= e < 4.
Proof.
  exists ((y - 1) / 400), ((y - 1) mod 400 / 100), ((y - 1) mod 100 / 4), ((y - 1) mod 4).
  Z.to_euclidean_division_equations; lia.
Qed.

Lemma year_start_digits y a b c e : y - 1 = 400 * a + 100 * b + 4 * c + e -> 0 <= b < 4 -> 0 <= c < 25 -> 0 <= e < 4 ->
  year_start y = 146097 * a + 36524 * b + 1461 * c + 365 * e /\
  (is_leap y = true <-> (e = 3 /\ (c <> 24 \/ b = 3))).
Proof.
  intros E Hb Hc He. split.
  - unfold year_start. rewrite E.
    replace ((400 * a + 100 * b + 4 * c + e) / 4) with (100 * a + 25 * b + c) by (Z.to_euclidean_division_equations; lia).
    replace ((400 * a + 100 * b + 4 * c + e) / 100) with (4 * a + b) by (Z.to_euclidean_division_equations; lia).
    replace ((400 * a + 100 * b + 4 * c + e) / 400) with a by (Z.to_euclidean_division_equations; lia).
    lia.
  - unfold is_leap. assert (Ey : y = 400 * a + 100 * b + 4 * c + e + 1) by lia. clear E. subst y.
    rewrite andb_true_iff, orb_true_iff, negb_true_iff, Z.eqb_eq, Z.eqb_neq, Z.eqb_eq.
    Z.to_euclidean_division_equations; lia.
Qed.

Lemma split_year_of y doy : 0 <= doy < 365 + b2z (is_leap y) -> split_year (year_start y + doy) = (y, doy).
Proof.
  intros Hd. destruct (year_digits y) as (a & b & c & e & E & Hb & Hc & He).
  destruct (year_start_digits y a b c e E Hb Hc He) as [Ey El]. rewrite Ey.
  unfold split_year.
  assert (L : doy < 365 \/ (e = 3 /\ (c <> 24 \/ b = 3) /\ doy = 365)).
  { destruct (is_leap y); cbn in Hd; [|lia].
    destruct (proj1 El eq_refl). lia. }
  clear El.
  assert (Q1 : (146097 * a + 36524 * b + 1461 * c + 365 * e + doy) / 146097 = a) by (Z.to_euclidean_division_equations; lia).
  assert (Q2 : (146097 * a + 36524 * b + 1461 * c + 365 * e + doy) mod 146097 = 36524 * b + 1461 * c + 365 * e + doy)
    by (Z.to_euclidean_division_equations; lia).
  cbv zeta. rewrite Q1, Q2.
  assert (Q3 : Z.min ((36524 * b + 1461 * c + 365 * e + doy) / 36524) 3 = b) by (Z.to_euclidean_division_equations; lia).
  rewrite Q3.
  replace (36524 * b + 1461 * c + 365 * e + doy - 36524 * b) with (1461 * c + 365 * e + doy) by lia.
  assert (Q4 : (1461 * c + 365 * e + doy) / 1461 = c) by (Z.to_euclidean_division_equations; lia).
  rewrite Q4.
  replace (1461 * c + 365 * e + doy - 1461 * c) with (365 * e + doy) by lia.
  assert (Q5 : Z.min ((365 * e + doy) / 365) 3 = e) by (Z.to_euclidean_division_equations; lia).
  rewrite Q5. f_equal; lia.
Qed.

Lemma split_year_inv z : let '(y, doy) := split_year z in
  z = year_start y + doy /\ 0 <= doy < 365 + b2z (is_leap y).
Proof.
  unfold split_year. cbv zeta.
  set (a := z / 146097). set (r := z mod 146097).
  assert (Hz : z = 146097 * a + r /\ 0 <= r < 146097) by (subst a r; Z.to_euclidean_division_equations; lia).
  set (b := Z.min (r / 36524) 3).
  assert (Hb : 0 <= b <= 3 /\ 36524 * b <= r /\ (b < 3 -> r < 36524 * b + 36524)) by (subst b; Z.to_euclidean_division_equations; lia).
  set (r1 := r - 36524 * b).
  assert (Hr1 : 0 <= r1 /\ (b < 3 -> r1 < 36524) /\ r1 < 36525) by lia.
  set (c := r1 / 1461).
  assert (Hc : 0 <= c <= 24 /\ 1461 * c <= r1 < 1461 * c + 1461) by (subst c; Z.to_euclidean_division_equations; lia).
  set (r2 := r1 - 1461 * c).
  assert (Hr2 : 0 <= r2 < 1461 /\ (c = 24 -> b < 3 -> r2 < 1460)) by lia.
  set (e := Z.min (r2 / 365) 3).
  assert (He : 0 <= e <= 3 /\ 365 * e <= r2 /\ (e < 3 -> r2 < 365 * e + 365)) by (subst e; Z.to_euclidean_division_equations; lia).
  set (y := 400 * a + 100 * b + 4 * c + e + 1).
  assert (Ey : y - 1 = 400 * a + 100 * b + 4 * c + e) by (subst y; lia).
  destruct (year_start_digits y a b c e Ey ltac:(lia) ltac:(lia) ltac:(lia)) as [Es El].
  rewrite Es. split; [lia|].
  destruct (is_leap y) eqn:L; cbn [b2z].
  - destruct (proj1 El eq_refl). lia.
  - assert (~ (e = 3 /\ (c <> 24 \/ b = 3))) by (intros X; apply El in X; discriminate). lia.
Qed.

Lemma gmtime_split t : safe_gmtime t =
  let '(y, doy) := split_year (t / 86400 + 719162) in
  let m := month_of (is_leap y) doy in
  {| tm_year := y - 1900; tm_mon := m; tm_mday := doy - month_start (is_leap y) m + 1;
     tm_hour := t mod 86400 / 3600; tm_min := t mod 86400 mod 3600 / 60; tm_sec := t mod 86400 mod 60;
     tm_wday := (t / 86400 + 4) mod 7 |}.
Proof. reflexivity. Qed.

Lemma civil_split n : civil n =
  let '(y, doy) := split_year (n + 719162) in
  (y, month_of (is_leap y) doy + 1, doy - month_start (is_leap y) (month_of (is_leap y) doy) + 1).
Proof.
  unfold civil. rewrite gmtime_split. replace (86400 * n / 86400) with n by (Z.to_euclidean_division_equations; lia).
  destruct (split_year (n + 719162)) as [y doy]. cbn. f_equal; f_equal; lia.
Qed.

Lemma civil_dayno y m d : Date y m d -> civil (dayno (y, m, d)) = (y, m, d).
Proof.
  intros H. apply date_iff in H as [Hm Hd]. rewrite civil_split.
  unfold dayno.
  replace (year_start y + month_start (is_leap y) (m - 1) + d - 1 - 719162 + 719162)
    with (year_start y + (month_start (is_leap y) (m - 1) + d - 1)) by lia.
  pose proof (doy_bound (is_leap y) (m - 1) d ltac:(lia)) as B.
  replace (m - 1 + 1) with m in B by lia. specialize (B Hd).
  rewrite split_year_of by lia.
  rewrite (month_of_unique _ (m - 1)); [|lia | replace (m - 1 + 1) with m by lia; lia].
  f_equal; [f_equal|]; lia.
Qed.

Lemma civil_spec n : let '(y, m, d) := civil n in Date y m d /\ dayno (y, m, d) = n.
Proof.
  rewrite civil_split. pose proof (split_year_inv (n + 719162)) as H.
  destruct (split_year (n + 719162)) as [y doy]. destruct H as [Hn Hd].
  pose proof (month_of_spec (is_leap y) doy Hd) as M. cbv zeta in M.
  set (m := month_of (is_leap y) doy) in *.
  split.
  - apply date_iff. lia.
  - unfold dayno. replace (m + 1 - 1) with m by lia. lia.
Qed.

Lemma next_dayno a b : NextDay a b -> dayno b = dayno a + 1.
Proof.
  intros [y m d len Hl Hd | y m len Hl Hm | y]; unfold dayno.
  - lia.
  - apply monthlength_iff in Hl as [H1 ->].
    replace (m + 1 - 1) with (m - 1 + 1) by lia. rewrite month_start_next by lia.
    replace (m - 1 + 1) with m by lia. lia.
  - rewrite year_step. cbn [Z.sub Z.add Z.opp Z.pos_sub Pos.pred_double].
    pose proof (month_start_end (is_leap y)).
    change (mlen (is_leap y) 12) with 31 in H. change (12 - 1) with 11. change (1 - 1) with 0.
    change (month_start (is_leap (y + 1)) 0) with 0. lia.
Qed.

Lemma next_exists y m d : Date y m d -> exists y' m' d', NextDay (y, m, d) (y', m', d') /\ Date y' m' d'.
Proof.
  intros H. pose proof H as H0. apply date_iff in H as [Hm Hd].
  assert (Hl : MonthLength y m (mlen (is_leap y) m)) by (apply monthlength_iff; auto).
  destruct (Z.eq_dec d (mlen (is_leap y) m)) as [E|E].
  - destruct (Z.eq_dec m 12) as [-> | E12].
    + change (mlen (is_leap y) 12) with 31 in E. subst d. exists (y + 1), 1, 1. split; [constructor|].
      apply date_iff. cbn. lia.
    + exists y, (m + 1), 1. split; [subst d; apply nd_month; [auto|lia]|].
      apply date_iff. split; [lia|]. unfold mlen. destruct (is_leap y); cbn; repeat match goal with |- context [if ?x then _ else _] => destruct x end; lia.
  - exists y, m, (d + 1). split; [eapply nd_day; eauto; lia|]. apply date_iff. lia.
Qed.

Lemma civil_next n : NextDay (civil n) (civil (n + 1)).
Proof.
  pose proof (civil_spec n) as H. destruct (civil n) as [[y m] d]. destruct H as [HD Hn].
  destruct (next_exists y m d HD) as (y' & m' & d' & N & HD').
  pose proof (next_dayno _ _ N) as E. rewrite Hn in E. rewrite <- E. now rewrite civil_dayno.
Qed.

Lemma wday_next n : (if (n + 4) mod 7 =? 6 then 0 else (n + 4) mod 7 + 1) = (n + 1 + 4) mod 7.
Proof. destruct (Z.eqb_spec ((n + 4) mod 7) 6); Z.to_euclidean_division_equations; lia. Qed.
Lemma wday_prev n : (if (n + 4) mod 7 =? 0 then 6 else (n + 4) mod 7 - 1) = (n - 1 + 4) mod 7.
Proof. destruct (Z.eqb_spec ((n + 4) mod 7) 0); Z.to_euclidean_division_equations; lia. Qed.

Lemma DayNo_civil n : DayNo (civil n) n ((n + 4) mod 7).
Proof.
  assert (Up : forall k, DayNo (civil (Z.of_nat k)) (Z.of_nat k) ((Z.of_nat k + 4) mod 7)).
  { induction k as [|k IH]; [apply dn_epoch|].
    replace (Z.of_nat (S k)) with (Z.of_nat k + 1) by lia. rewrite <- wday_next.
    eapply dn_next; [exact IH | apply civil_next]. }
  assert (Dn : forall k, DayNo (civil (- Z.of_nat k)) (- Z.of_nat k) ((- Z.of_nat k + 4) mod 7)).
  { induction k as [|k IH]; [apply dn_epoch|].
    replace (- Z.of_nat (S k)) with (- Z.of_nat k - 1) by lia. rewrite <- wday_prev.
    eapply dn_prev; [exact IH |]. replace (- Z.of_nat k) with (- Z.of_nat k - 1 + 1) at 2 by lia. apply civil_next. }
  destruct (Z_le_gt_dec 0 n).
  - replace n with (Z.of_nat (Z.to_nat n)) by lia. apply Up.
  - replace n with (- Z.of_nat (Z.to_nat (- n))) by lia. apply Dn.
Qed.

Lemma NextDay_dates a b : NextDay a b ->
  (let '(y, m, d) := a in Date y m d) /\ (let '(y, m, d) := b in Date y m d).
Proof.
  intros [y m d len Hl Hd | y m len Hl Hm | y].
  - split; exists len; split; auto; lia.
  - split.
    + exists len. split; auto. apply monthlength_iff in Hl as [H1 ->]. unfold mlen.
      destruct (is_leap y); cbn; repeat match goal with |- context [if ?x then _ else _] => destruct x end; lia.
    + apply monthlength_iff in Hl as [H1 ->]. apply date_iff. split; [lia|]. unfold mlen.
      destruct (is_leap y); cbn; repeat match goal with |- context [if ?x then _ else _] => destruct x end; lia.
  - split; apply date_iff; cbn; lia.
Qed.

Lemma DayNo_inv a n w : DayNo a n w -> n = dayno a /\ w = (n + 4) mod 7 /\ (let '(y, m, d) := a in Date y m d).
Proof.
  induction 1 as [|a b n w D IH N | a b n w D IH N].
  - refine (conj eq_refl (conj eq_refl _)). apply date_iff. cbn. lia.
  - destruct IH as (En & Ew & Ed). rewrite (next_dayno _ _ N).
    refine (conj _ (conj _ _)); [lia | subst w; apply wday_next | apply (NextDay_dates _ _ N)].
  - destruct IH as (En & Ew & Ed). pose proof (next_dayno _ _ N).
    refine (conj _ (conj _ _)); [lia | subst w; apply wday_prev | apply (NextDay_dates _ _ N)].
Qed.

Lemma DayNo_iff y m d n w : DayNo (y, m, d) n w <-> Date y m d /\ n = dayno (y, m, d) /\ w = (n + 4) mod 7.
Proof.
  split.
  - intros H. apply DayNo_inv in H as (En & Ew & Ed). auto.
  - intros (Ed & -> & ->). pose proof (DayNo_civil (dayno (y, m, d))) as H. now rewrite civil_dayno in H.
Qed.

(** * make_time_point_utc *)

Lemma timegm_eq y m d hh mm ss w :
  safe_timegm {| tm_year := y - 1900; tm_mon := m - 1; tm_mday := d; tm_hour := hh; tm_min := mm; tm_sec := ss; tm_wday := w |}
  = 86400 * dayno (y, m, d) + 3600 * hh + 60 * mm + ss.
Proof.
  unfold safe_timegm, dayno, year_start. cbn [tm_year tm_mon tm_mday tm_hour tm_min tm_sec].
  replace (y - 1900 + 1900) with y by lia. lia.
Qed.

Lemma gmtime_fields n hh mm ss : TimeOfDay hh mm ss ->
  let v := safe_gmtime (86400 * n + 3600 * hh + 60 * mm + ss) in
  (tm_year v + 1900, tm_mon v + 1, tm_mday v) = civil n /\ tm_hour v = hh /\ tm_min v = mm /\ tm_sec v = ss
  /\ tm_wday v = (n + 4) mod 7.
Proof.
  intros (H1 & H2 & H3). cbv zeta. rewrite civil_split, gmtime_split.
  replace ((86400 * n + 3600 * hh + 60 * mm + ss) / 86400) with n by (Z.to_euclidean_division_equations; lia).
  replace ((86400 * n + 3600 * hh + 60 * mm + ss) mod 86400) with (3600 * hh + 60 * mm + ss) by (Z.to_euclidean_division_equations; lia).
  destruct (split_year (n + 719162)) as [y doy]. cbn [tm_year tm_mon tm_mday tm_hour tm_min tm_sec tm_wday].
  refine (conj _ (conj _ (conj _ (conj _ _)))).
  - f_equal; f_equal; lia.
  - Z.to_euclidean_division_equations; lia.
  - Z.to_euclidean_division_equations; lia.
  - Z.to_euclidean_division_equations; lia.
  - reflexivity.
Qed.

Lemma seconds_split t : exists n hh mm ss, TimeOfDay hh mm ss /\ t = 86400 * n + 3600 * hh + 60 * mm + ss.
Proof.
  exists (t / 86400), (t mod 86400 / 3600), (t mod 3600 / 60), (t mod 60). unfold TimeOfDay.
  Z.to_euclidean_division_equations; lia.
Qed.

Lemma make_ok y m d hh mm ss t :
  make_time_point_utc y (m - 1) d hh mm ss = Ok t <->
  1 <= y <= 9999 /\ TimeOfDay hh mm ss /\ Instant y m d hh mm ss t.
Proof.
  unfold make_time_point_utc. rewrite timegm_eq. set (t0 := 86400 * dayno (y, m, d) + 3600 * hh + 60 * mm + ss).
  match goal with |- (if ?c then _ else _) = _ <-> _ => destruct c eqn:G end.
  - split; [discriminate|]. intros (Hy & (T1 & T2 & T3) & (n & w & D & _)). exfalso.
    apply DayNo_iff in D as (D & _). apply date_iff in D as [Hm Hd].
    assert (mlen (is_leap y) m <= 31) by (unfold mlen; destruct (is_leap y); cbn; repeat match goal with |- context [if ?x then _ else _] => destruct x end; lia).
    repeat (apply orb_true_iff in G as [G|G]); lia.
  - assert (R : 1 <= y <= 9999 /\ 1 <= m <= 12 /\ 1 <= d <= 31 /\ TimeOfDay hh mm ss).
    { repeat (apply orb_false_iff in G; destruct G as [G ?]). unfold TimeOfDay. lia. }
    destruct R as (Hy & Hm & Hd & HT).
    pose proof (gmtime_fields (dayno (y, m, d)) hh mm ss HT) as F. cbv zeta in F. fold t0 in F.
    destruct F as (F1 & F2 & F3 & F4 & _).
    cbv zeta. set (v := safe_gmtime t0) in *. clearbody v. rewrite F2, F3, F4, !Z.eqb_refl.
    pose proof (civil_spec (dayno (y, m, d))) as C. rewrite <- F1 in C. destruct C as [CD CE].
    match goal with |- (if ?c then _ else _) = _ <-> _ => destruct c eqn:G2 end.
    + split; [discriminate|]. intros (_ & _ & (n & w & D & _)). exfalso.
      apply DayNo_iff in D as (D & _). rewrite civil_dayno in F1 by auto. injection F1 as E1 E2 E3.
      repeat (apply orb_true_iff in G2 as [G2|G2]); lia.
    + assert (E : (tm_year v + 1900) = y /\ tm_mon v + 1 = m /\ tm_mday v = d).
      { repeat (apply orb_false_iff in G2; destruct G2 as [G2 ?]). lia. }
      destruct E as (E1 & E2 & E3). rewrite E1, E2, E3 in CD.
      split.
      * intros X. injection X as <-. refine (conj Hy (conj HT _)).
        exists (dayno (y, m, d)), ((dayno (y, m, d) + 4) mod 7). split; [apply DayNo_iff; auto | reflexivity].
      * intros (_ & _ & (n & w & D & ->)). apply DayNo_iff in D as (_ & -> & _). reflexivity.
Qed.

Lemma make_no_ub y m d hh mm ss : make_time_point_utc y m d hh mm ss <> UB.
Proof.
  unfold make_time_point_utc.
  repeat match goal with |- context [if ?c then _ else _] => destruct c end; discriminate.
Qed.
