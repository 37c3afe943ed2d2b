(** HTTP dates: the theorems (C77, C78). *)
From Verif Require Import Base UtilModel StaticModel DateModel DateSpec DateProofs.
Local Open Scope Z_scope.

(** * Digits *)

Lemma dig_range z : 0 <= z <= 9 -> (48 <= dig z <= 57)%N.
Proof. unfold dig. lia. Qed.

Lemma dig_test z : 0 <= z <= 9 -> ((48 <=? dig z) && (dig z <=? 57))%N = true.
Proof. intros H. apply dig_range in H. lia. Qed.

Lemma dig_value z : 0 <= z -> Z.of_N (dig z) - 48 = z.
Proof. unfold dig. lia. Qed.

Lemma from_chars_d2 z : 0 <= z <= 99 -> from_chars (d2 z) = Some z.
Proof.
  intros H. unfold from_chars, d2.
  assert (A : 0 <= z / 10 <= 9) by (Z.to_euclidean_division_equations; lia).
  assert (B : 0 <= z mod 10 <= 9) by (Z.to_euclidean_division_equations; lia).
  replace (dig (z / 10) =? 45)%N with false by (apply dig_range in A; lia).
  cbn [take_digits]. rewrite (dig_test _ A), (dig_test _ B).
  unfold digits_value. cbn [fold_left]. rewrite !dig_value by lia. f_equal. Z.to_euclidean_division_equations; lia.
Qed.

Lemma from_chars_d1 z : 0 <= z <= 9 -> from_chars [dig z] = Some z.
Proof.
  intros A. unfold from_chars.
  replace (dig z =? 45)%N with false by (pose proof (dig_range _ A); lia).
  cbn [take_digits]. rewrite (dig_test _ A).
  unfold digits_value. cbn [fold_left]. rewrite !dig_value by lia. f_equal. 
Qed.

Lemma from_chars_d4 z : 0 <= z <= 9999 -> from_chars (d4 z) = Some z.
Proof.
  intros H. unfold from_chars, d4.
  assert (A : 0 <= z / 1000 <= 9) by (Z.to_euclidean_division_equations; lia).
  assert (B : 0 <= z / 100 mod 10 <= 9) by (Z.to_euclidean_division_equations; lia).
  assert (C : 0 <= z / 10 mod 10 <= 9) by (Z.to_euclidean_division_equations; lia).
  assert (D : 0 <= z mod 10 <= 9) by (Z.to_euclidean_division_equations; lia).
  replace (dig (z / 1000) =? 45)%N with false by (apply dig_range in A; lia).
  cbn [take_digits]. rewrite (dig_test _ A), (dig_test _ B), (dig_test _ C), (dig_test _ D).
  unfold digits_value. cbn [fold_left]. rewrite !dig_value by lia. f_equal.
  Z.to_euclidean_division_equations; lia.
Qed.

(** * Reading rendered strings *)

Lemma num_at a w b v : from_chars w = Some v -> num (a ++ w ++ b) (length a) (length w) = Ok v.
Proof.
  intros H. unfold num. replace (length a + length w <=? length (a ++ w ++ b))%nat with true.
  2:{ symmetry. apply Nat.leb_le. rewrite !app_length. lia. }
  rewrite skipn_length_app, firstn_length_app. now rewrite H.
Qed.

Lemma expect_at a c b : expect (a ++ c :: b) (length a) c = Ok tt.
Proof.
  unfold expect, at_. rewrite nth_error_app2 by lia. rewrite Nat.sub_diag. cbn. now rewrite N.eqb_refl.
Qed.

Lemma guard_false b : b = false -> guard b = Ok tt.
Proof. intros ->. reflexivity. Qed.

Lemma expect_in_at a c b : expect_in (a ++ c :: b) (length a) c = Ok tt.
Proof.
  unfold expect_in. rewrite guard_false; [apply expect_at|]. apply Nat.leb_gt. rewrite app_length. cbn. lia.
Qed.

Lemma plainb s : forallb (fun c => negb (c =? 44)%N && negb (c =? 45)%N) s = true ->
  Forall (fun c => c <> 44%N /\ c <> 45%N) s.
Proof. intros H. apply Forall_forall. intros x Hx. rewrite forallb_forall in H. specialize (H x Hx). lia. Qed.

Lemma month_name_num m : 1 <= m <= 12 ->
  length (mon_name m) = 3%nat /\ month_to_num (mon_name m) = m - 1 /\
  Forall (fun c => c <> 44%N /\ c <> 45%N) (mon_name m).
Proof.
  intros H.
  assert (D : m = 1 \/ m = 2 \/ m = 3 \/ m = 4 \/ m = 5 \/ m = 6 \/ m = 7 \/ m = 8 \/ m = 9 \/ m = 10 \/ m = 11 \/ m = 12) by lia.
  destruct D as [-> | [-> | [-> | [-> | [-> | [-> | [-> | [-> | [-> | [-> | [-> | ->]]]]]]]]]]];
    (refine (conj eq_refl (conj eq_refl _)); apply plainb; reflexivity).
Qed.

Lemma parse_month_at a m b : 1 <= m <= 12 -> parse_month (a ++ mon_name m ++ b) (length a) = Ok (m - 1).
Proof.
  intros H. destruct (month_name_num m H) as (L & M & _). unfold parse_month.
  rewrite guard_false by (apply Nat.ltb_ge; rewrite !app_length; lia). cbn [bind].
  unfold substr. rewrite skipn_length_app. replace 3%nat with (length (mon_name m)) by auto.
  rewrite firstn_length_app, M. rewrite guard_false by lia. reflexivity.
Qed.

Definition two (z : Z) : Prop := 0 <= z <= 99.

Lemma parse_time_at a hh mm ss b : two hh -> two mm -> two ss ->
  parse_time (a ++ hms hh mm ss ++ b) (length a) = Ok (hh, mm, ss).
Proof.
  intros H1 H2 H3. unfold parse_time. rewrite guard_false by (apply Nat.ltb_ge; rewrite !app_length; cbn; lia).
  cbn [bind]. unfold hms.
  replace (a ++ (d2 hh ++ str ":" ++ d2 mm ++ str ":" ++ d2 ss) ++ b)
    with (a ++ d2 hh ++ (58%N :: d2 mm ++ 58%N :: d2 ss ++ b)) by (rewrite <- !app_assoc; reflexivity).
  rewrite (num_at a (d2 hh) _ hh (from_chars_d2 _ H1) : num _ (length a) 2 = _). cbn [bind].
  replace (a ++ d2 hh ++ 58%N :: d2 mm ++ 58%N :: d2 ss ++ b)
    with ((a ++ d2 hh) ++ 58%N :: (d2 mm ++ 58%N :: d2 ss ++ b)) by (rewrite <- !app_assoc; reflexivity).
  replace (length a + 2)%nat with (length (a ++ d2 hh)) by (rewrite app_length; reflexivity).
  rewrite expect_at. cbn [bind].
  replace ((a ++ d2 hh) ++ 58%N :: d2 mm ++ 58%N :: d2 ss ++ b)
    with ((a ++ d2 hh ++ [58%N]) ++ d2 mm ++ (58%N :: d2 ss ++ b)) by (rewrite <- !app_assoc; reflexivity).
  replace (length a + 3)%nat with (length (a ++ d2 hh ++ [58%N])) by (rewrite !app_length; reflexivity).
  rewrite (num_at _ (d2 mm) _ mm (from_chars_d2 _ H2) : num _ _ 2 = _). cbn [bind].
  replace ((a ++ d2 hh ++ [58%N]) ++ d2 mm ++ 58%N :: d2 ss ++ b)
    with ((a ++ d2 hh ++ [58%N] ++ d2 mm) ++ 58%N :: (d2 ss ++ b)) by (rewrite <- !app_assoc; reflexivity).
  replace (length a + 5)%nat with (length (a ++ d2 hh ++ [58%N] ++ d2 mm)) by (rewrite !app_length; reflexivity).
  rewrite expect_at. cbn [bind].
  replace ((a ++ d2 hh ++ [58%N] ++ d2 mm) ++ 58%N :: d2 ss ++ b)
    with ((a ++ d2 hh ++ [58%N] ++ d2 mm ++ [58%N]) ++ d2 ss ++ b) by (rewrite <- !app_assoc; reflexivity).
  replace (length a + 6)%nat with (length (a ++ d2 hh ++ [58%N] ++ d2 mm ++ [58%N])) by (rewrite !app_length; reflexivity).
  rewrite (num_at _ (d2 ss) _ ss (from_chars_d2 _ H3) : num _ _ 2 = _). reflexivity.
Qed.

Ltac fa := repeat match goal with |- Forall _ (_ ++ _) => apply Forall_app; split end.

Lemma d2_plain z : two z -> Forall (fun c => c <> 44%N /\ c <> 45%N) (d2 z).
Proof.
  intros H.
  assert (A : 0 <= z / 10 <= 9) by (unfold two in H; Z.to_euclidean_division_equations; lia).
  assert (B : 0 <= z mod 10 <= 9) by (Z.to_euclidean_division_equations; lia).
  apply dig_range in A, B. repeat constructor; lia.
Qed.

Lemma d4_plain z : 0 <= z <= 9999 -> Forall (fun c => c <> 44%N /\ c <> 45%N) (d4 z).
Proof.
  intros H.
  assert (A : 0 <= z / 1000 <= 9) by (Z.to_euclidean_division_equations; lia).
  assert (B : 0 <= z / 100 mod 10 <= 9) by (Z.to_euclidean_division_equations; lia).
  assert (C : 0 <= z / 10 mod 10 <= 9) by (Z.to_euclidean_division_equations; lia).
  assert (D : 0 <= z mod 10 <= 9) by (Z.to_euclidean_division_equations; lia).
  apply dig_range in A, B, C, D. repeat constructor; lia.
Qed.

Lemma hms_plain hh mm ss : two hh -> two mm -> two ss -> Forall (fun c => c <> 44%N /\ c <> 45%N) (hms hh mm ss).
Proof.
  intros H1 H2 H3. unfold hms. fa; try (now apply d2_plain); apply plainb; reflexivity.
Qed.

Lemma day_name_plain w : 0 <= w <= 6 ->
  length (day_name w) = 3%nat /\ Forall (fun c => c <> 44%N /\ c <> 45%N) (day_name w).
Proof.
  intros H. assert (D : w = 0 \/ w = 1 \/ w = 2 \/ w = 3 \/ w = 4 \/ w = 5 \/ w = 6) by lia.
  destruct D as [-> | [-> | [-> | [-> | [-> | [-> | ->]]]]]]; (split; [reflexivity | apply plainb; reflexivity]).
Qed.

Lemma long_day_name_plain w : 0 <= w <= 6 ->
  (6 <= length (long_day_name w))%nat /\ Forall (fun c => c <> 44%N /\ c <> 45%N) (long_day_name w).
Proof.
  intros H. assert (D : w = 0 \/ w = 1 \/ w = 2 \/ w = 3 \/ w = 4 \/ w = 5 \/ w = 6) by lia.
  destruct D as [-> | [-> | [-> | [-> | [-> | [-> | ->]]]]]]; (split; [apply Nat.leb_le; reflexivity | apply plainb; reflexivity]).
Qed.

Lemma find_char_at c pre post : Forall (fun x => x <> c) pre -> find_char c (pre ++ c :: post) = Some (length pre).
Proof.
  intros H. unfold find_char. apply find_if_app.
  - eapply Forall_impl; [|exact H]. cbn. intros x Hx. lia.
  - apply N.eqb_refl.
Qed.

Lemma find_char_absent c s : Forall (fun x => x <> c) s -> find_char c s = None.
Proof.
  intros H. unfold find_char. apply find_if_none. eapply Forall_impl; [|exact H]. cbn. intros x Hx. lia.
Qed.

Lemma plain_comma s : Forall (fun c => c <> 44%N /\ c <> 45%N) s -> Forall (fun x => x <> 44%N) s.
Proof. intros H. eapply Forall_impl; [|exact H]. cbn. tauto. Qed.
Lemma plain_dash s : Forall (fun c => c <> 44%N /\ c <> 45%N) s -> Forall (fun x => x <> 45%N) s.
Proof. intros H. eapply Forall_impl; [|exact H]. cbn. tauto. Qed.

(** the two field widths *)
Lemma num2 a z b i : two z -> i = length a -> num (a ++ d2 z ++ b) i 2 = Ok z.
Proof. intros H ->. exact (num_at a (d2 z) b z (from_chars_d2 z H)). Qed.
Lemma num4 a z b i : 0 <= z <= 9999 -> i = length a -> num (a ++ d4 z ++ b) i 4 = Ok z.
Proof. intros H ->. exact (num_at a (d4 z) b z (from_chars_d4 z H)). Qed.

Ltac len := repeat (rewrite app_length || cbn [length] || match goal with H : length _ = _ |- _ => rewrite H end); cbn; lia.

Lemma rfc1123_imf w y m d hh mm ss : 0 <= w <= 6 -> 0 <= y <= 9999 -> 1 <= m <= 12 -> two d -> two hh -> two mm -> two ss ->
  parse_rfc1123_date (imf w y m d hh mm ss) = make_time_point_utc y (m - 1) d hh mm ss.
Proof.
  intros Hw Hy Hm Hd H1 H2 H3. unfold imf.
  destruct (day_name_plain w Hw) as [L P]. set (W := day_name w) in *. clearbody W.
  destruct (month_name_num m Hm) as (LM & _ & _).
  set (s := W ++ str ", " ++ d2 d ++ str " " ++ mon_name m ++ str " " ++ d4 y ++ str " " ++ hms hh mm ss ++ str " GMT").
  assert (Ls : length s = 29%nat) by (subst s; len).
  unfold parse_rfc1123_date. rewrite Ls. cbn [Nat.eqb negb guard bind].
  assert (Ef : find_char 44 s = Some 3%nat) by (rewrite <- L; apply find_char_at; now apply plain_comma).
  rewrite Ef. cbn [Nat.eqb negb guard bind Nat.add].
  assert (E4 : expect_in s 4 32 = Ok tt).
  { replace s with ((W ++ [44%N]) ++ 32%N :: (d2 d ++ str " " ++ mon_name m ++ str " " ++ d4 y ++ str " " ++ hms hh mm ss ++ str " GMT"))
      by (subst s; rewrite <- app_assoc; reflexivity).
    replace 4%nat with (length (W ++ [44%N])) by len. apply expect_in_at. }
  rewrite E4. cbn [bind]. cbn [Nat.leb Nat.ltb guard bind Nat.add].
  assert (E5 : num s 5 2 = Ok d).
  { replace s with ((W ++ str ", ") ++ d2 d ++ (str " " ++ mon_name m ++ str " " ++ d4 y ++ str " " ++ hms hh mm ss ++ str " GMT"))
      by (subst s; rewrite <- app_assoc; reflexivity).
    apply num2; [auto | len]. }
  rewrite E5. cbn [bind].
  assert (E7 : expect_in s 7 32 = Ok tt).
  { replace s with ((W ++ str ", " ++ d2 d) ++ 32%N :: (mon_name m ++ str " " ++ d4 y ++ str " " ++ hms hh mm ss ++ str " GMT"))
      by (subst s; rewrite <- !app_assoc; reflexivity).
    replace 7%nat with (length (W ++ str ", " ++ d2 d)) by len. apply expect_in_at. }
  rewrite E7. cbn [bind].
  assert (E8 : parse_month s 8 = Ok (m - 1)).
  { replace s with ((W ++ str ", " ++ d2 d ++ str " ") ++ mon_name m ++ (str " " ++ d4 y ++ str " " ++ hms hh mm ss ++ str " GMT"))
      by (subst s; rewrite <- !app_assoc; reflexivity).
    replace 8%nat with (length (W ++ str ", " ++ d2 d ++ str " ")) by len. now apply parse_month_at. }
  rewrite E8. cbn [bind Nat.add].
  assert (E11 : expect_in s 11 32 = Ok tt).
  { replace s with ((W ++ str ", " ++ d2 d ++ str " " ++ mon_name m) ++ 32%N :: (d4 y ++ str " " ++ hms hh mm ss ++ str " GMT"))
      by (subst s; rewrite <- !app_assoc; reflexivity).
    replace 11%nat with (length (W ++ str ", " ++ d2 d ++ str " " ++ mon_name m)) by len. apply expect_in_at. }
  rewrite E11. cbn [bind Nat.ltb Nat.leb guard Nat.add].
  assert (E12 : num s 12 4 = Ok y).
  { replace s with ((W ++ str ", " ++ d2 d ++ str " " ++ mon_name m ++ str " ") ++ d4 y ++ (str " " ++ hms hh mm ss ++ str " GMT"))
      by (subst s; rewrite <- !app_assoc; reflexivity).
    apply num4; [auto | len]. }
  rewrite E12. cbn [bind].
  assert (E16 : expect_in s 16 32 = Ok tt).
  { replace s with ((W ++ str ", " ++ d2 d ++ str " " ++ mon_name m ++ str " " ++ d4 y) ++ 32%N :: (hms hh mm ss ++ str " GMT"))
      by (subst s; rewrite <- !app_assoc; reflexivity).
    replace 16%nat with (length (W ++ str ", " ++ d2 d ++ str " " ++ mon_name m ++ str " " ++ d4 y)) by len. apply expect_in_at. }
  rewrite E16. cbn [bind].
  assert (E17 : parse_time s 17 = Ok (hh, mm, ss)).
  { replace s with ((W ++ str ", " ++ d2 d ++ str " " ++ mon_name m ++ str " " ++ d4 y ++ str " ") ++ hms hh mm ss ++ str " GMT")
      by (subst s; rewrite <- !app_assoc; reflexivity).
    replace 17%nat with (length (W ++ str ", " ++ d2 d ++ str " " ++ mon_name m ++ str " " ++ d4 y ++ str " ")) by len.
    now apply parse_time_at. }
  rewrite E17. cbn [bind Nat.add Nat.eqb negb orb].
  assert (E25 : substr s 25 4 = str " GMT").
  { replace s with ((W ++ str ", " ++ d2 d ++ str " " ++ mon_name m ++ str " " ++ d4 y ++ str " " ++ hms hh mm ss) ++ str " GMT")
      by (subst s; rewrite <- !app_assoc; reflexivity).
    replace 25%nat with (length (W ++ str ", " ++ d2 d ++ str " " ++ mon_name m ++ str " " ++ d4 y ++ str " " ++ hms hh mm ss)) by len.
    unfold substr. rewrite skipn_length_app. reflexivity. }
  rewrite E25, beq_refl. reflexivity.
Qed.

Lemma rfc850_str w yy m d hh mm ss : 0 <= w <= 6 -> two yy -> 1 <= m <= 12 -> two d -> two hh -> two mm -> two ss ->
  parse_rfc850_date (rfc850 w yy m d hh mm ss)
  = make_time_point_utc (if yy <? 70 then yy + 2000 else yy + 1900) (m - 1) d hh mm ss.
Proof.
  intros Hw Hy Hm Hd H1 H2 H3. unfold rfc850.
  destruct (long_day_name_plain w Hw) as [L P]. set (W := long_day_name w) in *. clearbody W.
  destruct (month_name_num m Hm) as (LM & _ & _).
  set (s := W ++ str ", " ++ d2 d ++ str "-" ++ mon_name m ++ str "-" ++ d2 yy ++ str " " ++ hms hh mm ss ++ str " GMT").
  assert (Ls : length s = (length W + 24)%nat) by (subst s; len).
  unfold parse_rfc850_date.
  assert (Ef : find_char 44 s = Some (length W)) by (apply find_char_at; now apply plain_comma).
  rewrite Ef. set (k := length W) in *.
  assert (E4 : expect_in s (k + 1) 32 = Ok tt).
  { replace s with ((W ++ [44%N]) ++ 32%N :: (d2 d ++ str "-" ++ mon_name m ++ str "-" ++ d2 yy ++ str " " ++ hms hh mm ss ++ str " GMT"))
      by (subst s; rewrite <- app_assoc; reflexivity).
    replace (k + 1)%nat with (length (W ++ [44%N])) by (rewrite app_length; reflexivity). apply expect_in_at. }
  rewrite E4. cbn [bind]. rewrite (guard_false (length s <=? k + 2)%nat) by (apply Nat.leb_gt; lia). cbn [bind].
  rewrite (guard_false (length s <? k + 2 + 2)%nat) by (apply Nat.ltb_ge; lia). cbn [bind].
  assert (E5 : num s (k + 2) 2 = Ok d).
  { replace s with ((W ++ str ", ") ++ d2 d ++ (str "-" ++ mon_name m ++ str "-" ++ d2 yy ++ str " " ++ hms hh mm ss ++ str " GMT"))
      by (subst s; rewrite <- app_assoc; reflexivity).
    apply num2; [auto | rewrite app_length; reflexivity]. }
  rewrite E5. cbn [bind].
  assert (E7 : expect_in s (k + 2 + 2) 45 = Ok tt).
  { replace s with ((W ++ str ", " ++ d2 d) ++ 45%N :: (mon_name m ++ str "-" ++ d2 yy ++ str " " ++ hms hh mm ss ++ str " GMT"))
      by (subst s; rewrite <- !app_assoc; reflexivity).
    replace (k + 2 + 2)%nat with (length (W ++ str ", " ++ d2 d)) by (fold k; rewrite !app_length; cbn; lia). apply expect_in_at. }
  rewrite E7. cbn [bind].
  assert (E8 : parse_month s (k + 2 + 3) = Ok (m - 1)).
  { replace s with ((W ++ str ", " ++ d2 d ++ str "-") ++ mon_name m ++ (str "-" ++ d2 yy ++ str " " ++ hms hh mm ss ++ str " GMT"))
      by (subst s; rewrite <- !app_assoc; reflexivity).
    replace (k + 2 + 3)%nat with (length (W ++ str ", " ++ d2 d ++ str "-")) by (rewrite !app_length; cbn; lia). now apply parse_month_at. }
  rewrite E8. cbn [bind].
  assert (E11 : expect_in s (k + 2 + 3 + 3) 45 = Ok tt).
  { replace s with ((W ++ str ", " ++ d2 d ++ str "-" ++ mon_name m) ++ 45%N :: (d2 yy ++ str " " ++ hms hh mm ss ++ str " GMT"))
      by (subst s; rewrite <- !app_assoc; reflexivity).
    replace (k + 2 + 3 + 3)%nat with (length (W ++ str ", " ++ d2 d ++ str "-" ++ mon_name m)) by (rewrite !app_length, LM; cbn; lia). apply expect_in_at. }
  rewrite E11. cbn [bind].
  rewrite (guard_false (length s <? k + 2 + 3 + 4 + 2)%nat) by (apply Nat.ltb_ge; lia). cbn [bind].
  assert (E12 : num s (k + 2 + 3 + 4) 2 = Ok yy).
  { replace s with ((W ++ str ", " ++ d2 d ++ str "-" ++ mon_name m ++ str "-") ++ d2 yy ++ (str " " ++ hms hh mm ss ++ str " GMT"))
      by (subst s; rewrite <- !app_assoc; reflexivity).
    apply num2; [auto | rewrite !app_length, LM; cbn; lia]. }
  rewrite E12. cbn [bind].
  assert (E16 : expect_in s (k + 2 + 3 + 4 + 2) 32 = Ok tt).
  { replace s with ((W ++ str ", " ++ d2 d ++ str "-" ++ mon_name m ++ str "-" ++ d2 yy) ++ 32%N :: (hms hh mm ss ++ str " GMT"))
      by (subst s; rewrite <- !app_assoc; reflexivity).
    replace (k + 2 + 3 + 4 + 2)%nat with (length (W ++ str ", " ++ d2 d ++ str "-" ++ mon_name m ++ str "-" ++ d2 yy)) by (rewrite !app_length, LM; cbn; lia). apply expect_in_at. }
  rewrite E16. cbn [bind].
  assert (E17 : parse_time s (k + 2 + 3 + 4 + 3) = Ok (hh, mm, ss)).
  { replace s with ((W ++ str ", " ++ d2 d ++ str "-" ++ mon_name m ++ str "-" ++ d2 yy ++ str " ") ++ hms hh mm ss ++ str " GMT")
      by (subst s; rewrite <- !app_assoc; reflexivity).
    replace (k + 2 + 3 + 4 + 3)%nat with (length (W ++ str ", " ++ d2 d ++ str "-" ++ mon_name m ++ str "-" ++ d2 yy ++ str " ")) by (rewrite !app_length, LM; cbn; lia).
    now apply parse_time_at. }
  rewrite E17. cbn [bind].
  replace (k + 2 + 3 + 4 + 3 + 8 + 4 =? length s)%nat with true by (symmetry; apply Nat.eqb_eq; lia).
  assert (E25 : substr s (k + 2 + 3 + 4 + 3 + 8) 4 = str " GMT").
  { replace s with ((W ++ str ", " ++ d2 d ++ str "-" ++ mon_name m ++ str "-" ++ d2 yy ++ str " " ++ hms hh mm ss) ++ str " GMT")
      by (subst s; rewrite <- !app_assoc; reflexivity).
    replace (k + 2 + 3 + 4 + 3 + 8)%nat with (length (W ++ str ", " ++ d2 d ++ str "-" ++ mon_name m ++ str "-" ++ d2 yy ++ str " " ++ hms hh mm ss)) by (rewrite !app_length, LM; cbn; lia).
    unfold substr. rewrite skipn_length_app. reflexivity. }
  rewrite E25, beq_refl. reflexivity.
Qed.

Definition day_field (d : Z) : list N := if d <? 10 then [32%N; dig d] else d2 d.

Lemma asctime_str w y m d hh mm ss : 0 <= w <= 6 -> 0 <= y <= 9999 -> 1 <= m <= 12 -> two d -> two hh -> two mm -> two ss ->
  parse_asctime_date (asctime w y m d hh mm ss) = make_time_point_utc y (m - 1) d hh mm ss.
Proof.
  intros Hw Hy Hm Hd H1 H2 H3. unfold asctime. fold (day_field d).
  destruct (day_name_plain w Hw) as [L P]. set (W := day_name w) in *. clearbody W.
  destruct (month_name_num m Hm) as (LM & _ & _).
  assert (LD : length (day_field d) = 2%nat) by (unfold day_field; destruct (d <? 10); reflexivity).
  set (s := W ++ str " " ++ mon_name m ++ str " " ++ day_field d ++ str " " ++ hms hh mm ss ++ str " " ++ d4 y).
  assert (Ls : length s = 24%nat) by (subst s; len).
  unfold parse_asctime_date. rewrite Ls. cbn [Nat.eqb negb guard bind].
  assert (E3 : expect s 3 32 = Ok tt) by (rewrite <- L; apply expect_at).
  rewrite E3. cbn [bind].
  assert (E7 : expect s 7 32 = Ok tt).
  { replace s with ((W ++ str " " ++ mon_name m) ++ 32%N :: (day_field d ++ str " " ++ hms hh mm ss ++ str " " ++ d4 y))
      by (subst s; rewrite <- !app_assoc; reflexivity).
    replace 7%nat with (length (W ++ str " " ++ mon_name m)) by len. apply expect_at. }
  rewrite E7. cbn [bind].
  assert (E4 : parse_month s 4 = Ok (m - 1)).
  { replace s with ((W ++ str " ") ++ mon_name m ++ (str " " ++ day_field d ++ str " " ++ hms hh mm ss ++ str " " ++ d4 y))
      by (subst s; rewrite <- !app_assoc; reflexivity).
    replace 4%nat with (length (W ++ str " ")) by len. now apply parse_month_at. }
  rewrite E4. cbn [bind Nat.add].
  set (tl := str " " ++ hms hh mm ss ++ str " " ++ d4 y) in *.
  assert (Es : s = (W ++ str " " ++ mon_name m ++ str " ") ++ day_field d ++ tl)
      by (subst s; rewrite <- !app_assoc; reflexivity).
  set (pre := W ++ str " " ++ mon_name m ++ str " ") in *.
  assert (Lp : length pre = 8%nat) by (subst pre; len).
  assert (E8 : at_ s 8 = Ok (nth 0 (day_field d) 0%N)).
  { rewrite Es. unfold at_. rewrite nth_error_app2 by lia. rewrite Lp. cbn [Nat.sub].
    unfold day_field. destruct (d <? 10); reflexivity. }
  rewrite E8. cbn [bind].
  (* the position and the number of digits of the day *)
  assert (T : let pos := if (nth 0 (day_field d) 0 =? 32)%N then (8 + 1)%nat else 8%nat in
              let day_len := length (take_digits (skipn pos s)) in
              (day_len = 1 \/ day_len = 2)%nat /\ (pos + day_len = 10)%nat /\ num s pos day_len = Ok d).
  { unfold day_field in *. unfold two in Hd. destruct (Z.ltb_spec d 10) as [Hlt|Hge].
    - cbn [nth]. change (32 =? 32)%N with true. cbv iota zeta.
      assert (Es' : s = (pre ++ [32%N]) ++ [dig d] ++ tl) by (rewrite Es, <- app_assoc; reflexivity).
      assert (Lp' : length (pre ++ [32%N]) = 9%nat) by (rewrite app_length, Lp; reflexivity).
      assert (S9 : skipn 9 s = dig d :: tl) by (rewrite Es', <- Lp'; apply skipn_length_app).
      change (8 + 1)%nat with 9%nat. rewrite S9.
      assert (TD : take_digits (dig d :: tl) = [dig d]) by (cbn [take_digits]; rewrite dig_test by lia; reflexivity).
      rewrite TD. cbn [length]. refine (conj (or_introl eq_refl) (conj eq_refl _)).
      rewrite Es', <- Lp'. apply (num_at (pre ++ [32%N]) [dig d] tl). apply from_chars_d1. lia.
    - assert (A : 0 <= d / 10 <= 9) by (Z.to_euclidean_division_equations; lia).
      assert (B : 0 <= d mod 10 <= 9) by (Z.to_euclidean_division_equations; lia).
      replace (nth 0 (d2 d) 0 =? 32)%N with false by (unfold d2; cbn [nth]; apply dig_range in A; lia). cbv iota zeta.
      assert (S8 : skipn 8 s = d2 d ++ tl) by (rewrite Es, <- Lp; apply skipn_length_app).
      rewrite S8.
      assert (TD : take_digits (d2 d ++ tl) = d2 d) by (unfold d2; cbn [take_digits app]; rewrite !dig_test by lia; reflexivity).
      rewrite TD. refine (conj (or_intror eq_refl) (conj eq_refl _)).
      rewrite Es, <- Lp. apply (num_at pre (d2 d) tl). now apply from_chars_d2. }
  cbv zeta in T |- *. change (8 + 1)%nat with 9%nat in T.
  set (pos := if (nth 0 (day_field d) 0 =? 32)%N then 9%nat else 8%nat) in *.
  set (dl := length (take_digits (skipn pos s))) in *. destruct T as (T1 & T2 & T3). clearbody pos dl.
  rewrite guard_false by (destruct T1 as [-> | ->]; reflexivity). cbn [bind]. rewrite T3. cbn [bind].
  replace (pos + (dl + 1))%nat with 11%nat by lia. rewrite T2.
  assert (E10 : expect_in s 10 32 = Ok tt).
  { replace s with ((pre ++ day_field d) ++ 32%N :: (hms hh mm ss ++ str " " ++ d4 y))
      by (rewrite Es; rewrite <- !app_assoc; reflexivity).
    replace 10%nat with (length (pre ++ day_field d)) by (rewrite app_length; lia). apply expect_in_at. }
  rewrite E10. cbn [bind].
  assert (E11 : parse_time s 11 = Ok (hh, mm, ss)).
  { replace s with ((pre ++ day_field d ++ str " ") ++ hms hh mm ss ++ (str " " ++ d4 y))
      by (rewrite Es; rewrite <- !app_assoc; reflexivity).
    replace 11%nat with (length (pre ++ day_field d ++ str " ")) by (rewrite !app_length; cbn [length]; rewrite Lp, LD; reflexivity).
    now apply parse_time_at. }
  rewrite E11. cbn [bind Nat.add Nat.eqb negb guard].
  assert (E20 : num s 20 4 = Ok y).
  { replace s with ((pre ++ day_field d ++ str " " ++ hms hh mm ss ++ str " ") ++ d4 y ++ [])
      by (rewrite Es; rewrite <- !app_assoc, app_nil_r; reflexivity).
    apply num4; [auto | rewrite !app_length, Lp, LD; reflexivity]. }
  rewrite E20. reflexivity.
Qed.

(** * No read outside the string *)

Lemma guard_bind_ub b (f : unit -> res Z) : (b = false -> f tt <> UB) -> bind (guard b) f <> UB.
Proof. destruct b; cbn; [discriminate | auto]. Qed.

Lemma num_not_ub s i n : (i + n <= length s)%nat -> num s i n <> UB.
Proof.
  intros H. unfold num. replace (i + n <=? length s)%nat with true by (symmetry; now apply Nat.leb_le).
  destruct (from_chars _); discriminate.
Qed.

Lemma expect_not_ub s i c : (i < length s)%nat -> expect s i c <> UB.
Proof.
  intros H. unfold expect, at_. destruct (nth_error s i) eqn:E; [|apply nth_error_None in E; lia].
  cbn. destruct (negb _); discriminate.
Qed.

Lemma expect_in_not_ub s i c : expect_in s i c <> UB.
Proof.
  unfold expect_in, guard. destruct (Nat.leb_spec (length s) i); cbn; [discriminate | now apply expect_not_ub].
Qed.

Lemma expect_in_ok s i c : expect_in s i c = Ok tt -> (i < length s)%nat.
Proof. unfold expect_in, guard. destruct (Nat.leb_spec (length s) i); cbn; [discriminate | lia]. Qed.

Lemma parse_month_not_ub s p : parse_month s p <> UB.
Proof. unfold parse_month, guard. destruct (_ <? _)%nat; cbn; [discriminate|]. destruct (_ <? _); discriminate. Qed.

Lemma bind_ub {A B} (x : res A) (f : A -> res B) : x <> UB -> (forall a, x = Ok a -> f a <> UB) -> bind x f <> UB.
Proof. destruct x; cbn; [congruence | discriminate | auto]. Qed.

Lemma parse_time_not_ub s p : parse_time s p <> UB.
Proof.
  unfold parse_time, guard. destruct (Nat.ltb_spec (length s) (p + 8)); cbn [bind]; [discriminate|].
  apply bind_ub; [apply num_not_ub; lia|]. intros h _.
  apply bind_ub; [apply expect_not_ub; lia|]. intros _ _.
  apply bind_ub; [apply num_not_ub; lia|]. intros mi _.
  apply bind_ub; [apply expect_not_ub; lia|]. intros _ _.
  apply bind_ub; [apply num_not_ub; lia|]. intros se _. discriminate.
Qed.

Ltac no_ub :=
  repeat (
    lazymatch goal with
    | |- bind (guard ?b) _ <> UB => apply guard_bind_ub; let G := fresh "G" in intros G
    | |- bind (expect_in _ _ _) _ <> UB => apply bind_ub; [apply expect_in_not_ub | intros _ _]
    | |- bind (parse_month _ _) _ <> UB => apply bind_ub; [apply parse_month_not_ub | intros ? _]
    | |- bind (parse_time _ _) _ <> UB => apply bind_ub; [apply parse_time_not_ub | intros [[? ?] ?] _]
    | |- bind (num _ _ _) _ <> UB => apply bind_ub; [apply num_not_ub | intros ? _]
    | |- bind (expect _ _ _) _ <> UB => apply bind_ub; [apply expect_not_ub | intros _ _]
    | |- make_time_point_utc _ _ _ _ _ _ <> UB => apply make_no_ub
    end; cbv zeta).

Lemma rfc1123_not_ub s : parse_rfc1123_date s <> UB.
Proof.
  unfold parse_rfc1123_date. apply guard_bind_ub. intros L.
  destruct (find_char 44 s) as [p|]; [|discriminate]. no_ub; lia.
Qed.

Lemma rfc850_not_ub s : parse_rfc850_date s <> UB.
Proof.
  unfold parse_rfc850_date.
  destruct (find_char 44 s) as [p|]; [|discriminate]. no_ub; lia.
Qed.

Lemma asctime_not_ub s : parse_asctime_date s <> UB.
Proof.
  unfold parse_asctime_date. apply guard_bind_ub. intros L.
  assert (Ls : length s = 24%nat) by (apply negb_false_iff, Nat.eqb_eq in L; auto).
  no_ub; try lia.
  apply bind_ub. { unfold at_. destruct (nth_error s (4 + 4)) eqn:E; [discriminate|]. apply nth_error_None in E. lia. }
  intros c _. cbv zeta.
  set (pos := if (c =? 32)%N then (4 + 4 + 1)%nat else (4 + 4)%nat).
  assert (Hp : (pos <= 9)%nat) by (subst pos; destruct (c =? 32)%N; lia).
  no_ub; try lia.
Qed.

(** * Accepted dates are calendar dates *)

Definition in_calendar (t : Z) : Prop :=
  exists y m d hh mm ss, 1 <= y <= 9999 /\ TimeOfDay hh mm ss /\ Instant y m d hh mm ss t.

Lemma make_in y m d hh mm ss t : make_time_point_utc y m d hh mm ss = Ok t -> in_calendar t.
Proof.
  intros H. replace m with (m + 1 - 1) in H by lia. apply make_ok in H as (A & B & C).
  exists y, (m + 1), d, hh, mm, ss. auto.
Qed.

Lemma bind_ok {A B} (x : res A) (f : A -> res B) b : bind x f = Ok b -> exists a, x = Ok a /\ f a = Ok b.
Proof. destruct x; cbn; try discriminate. eauto. Qed.

Ltac peel :=
  repeat match goal with
  | H : bind _ _ = Ok _ |- _ => let a := fresh "a" in apply bind_ok in H as (a & _ & H); cbv zeta in H
  end.

Lemma rfc1123_in s t : parse_rfc1123_date s = Ok t -> in_calendar t.
Proof.
  unfold parse_rfc1123_date. intros H. apply bind_ok in H as (a & _ & H).
  destruct (find_char 44 s); [|discriminate]. peel.
  repeat match goal with x : (Z * Z * Z)%type |- _ => destruct x as [[? ?] ?] end. peel. eapply make_in; exact H.
Qed.
Lemma rfc850_in s t : parse_rfc850_date s = Ok t -> in_calendar t.
Proof.
  unfold parse_rfc850_date. intros H. 
  destruct (find_char 44 s); [|discriminate]. peel.
  repeat match goal with x : (Z * Z * Z)%type |- _ => destruct x as [[? ?] ?] end. peel. eapply make_in; exact H.
Qed.
Lemma asctime_in s t : parse_asctime_date s = Ok t -> in_calendar t.
Proof.
  unfold parse_asctime_date. intros H. peel.
  repeat match goal with x : (Z * Z * Z)%type |- _ => destruct x as [[? ?] ?] end. peel. eapply make_in; exact H.
Qed.

(** * The theorems *)

(** C78 (a): parse_http_date never reads outside the string it is given, whatever it contains. *)
Theorem date_parse_safe : forall s, parse_http_date s <> UB.
Proof.
  intros s. unfold parse_http_date. cbv zeta.
  assert (O : forall x y, x <> UB -> y <> UB -> or_else x y <> UB) by (intros [] y; cbn; congruence).
  apply O; [destruct (_ && _); [apply rfc1123_not_ub | discriminate]|].
  apply O; [destruct (find_char 45 s); [apply rfc850_not_ub | discriminate] | apply asctime_not_ub].
Qed.

(** C78 (b): whatever is accepted denotes a civil time of the years 1 to 9999. *)
Theorem date_parse_sound : forall s t, parse_http_date s = Ok t ->
  exists y m d hh mm ss, 1 <= y <= 9999 /\ TimeOfDay hh mm ss /\ Instant y m d hh mm ss t.
Proof.
  intros s t H. change (in_calendar t). unfold parse_http_date in H. cbv zeta in H.
  assert (O : forall x y, or_else x y = Ok t -> x = Ok t \/ y = Ok t) by (intros [] y; cbn; auto).
  apply O in H as [H|H]; [destruct (_ && _); [now apply rfc1123_in in H | discriminate]|].
  apply O in H as [H|H]; [destruct (find_char 45 s); [now apply rfc850_in in H | discriminate] | now apply asctime_in in H].
Qed.

Lemma imf_comma w y m d hh mm ss : 0 <= w <= 6 -> find_char 44 (imf w y m d hh mm ss) = Some 3%nat.
Proof.
  intros H. unfold imf. destruct (day_name_plain w H) as [L P]. rewrite <- L. apply find_char_at. now apply plain_comma.
Qed.

Lemma dashb s : forallb (fun c => negb (c =? 45)%N) s = true -> Forall (fun c => c <> 45%N) s.
Proof. intros H. apply Forall_forall. intros x Hx. rewrite forallb_forall in H. specialize (H x Hx). lia. Qed.

Lemma imf_no_dash w y m d hh mm ss : 0 <= w <= 6 -> 0 <= y <= 9999 -> 1 <= m <= 12 -> two d -> two hh -> two mm -> two ss ->
  find_char 45 (imf w y m d hh mm ss) = None.
Proof.
  intros Hw Hy Hm Hd H1 H2 H3. apply find_char_absent. unfold imf.
  pose proof (proj2 (day_name_plain w Hw)) as P. apply plain_dash in P.
  destruct (month_name_num m Hm) as (_ & _ & M). apply plain_dash in M.
  pose proof (plain_dash _ (d2_plain d Hd)). pose proof (plain_dash _ (d4_plain y Hy)).
  pose proof (plain_dash _ (hms_plain hh mm ss H1 H2 H3)).
  fa; auto; apply dashb; reflexivity.
Qed.

Lemma or_else_reject x : or_else x Reject = x.
Proof. destruct x; reflexivity. Qed.

Lemma asctime_len s : length s <> 24%nat -> parse_asctime_date s = Reject.
Proof.
  intros H. unfold parse_asctime_date. replace (length s =? 24)%nat with false by (symmetry; now apply Nat.eqb_neq). reflexivity.
Qed.

(** C78 (c): a date in the preferred form is accepted exactly when its fields are a time of the calendar,
    and then it denotes that time. *)
Theorem date_parse_imf : forall w y m d hh mm ss t,
  0 <= w <= 6 -> 0 <= y <= 9999 -> 1 <= m <= 12 -> 0 <= d <= 99 -> 0 <= hh <= 99 -> 0 <= mm <= 99 -> 0 <= ss <= 99 ->
  (parse_http_date (imf w y m d hh mm ss) = Ok t <->
   1 <= y /\ TimeOfDay hh mm ss /\ Instant y m d hh mm ss t).
Proof.
  intros w y m d hh mm ss t Hw Hy Hm Hd H1 H2 H3.
  unfold parse_http_date. cbv zeta. rewrite imf_comma, imf_no_dash, rfc1123_imf by auto. cbn [andb negb].
  rewrite asctime_len, !or_else_reject.
  2:{ unfold imf. destruct (day_name_plain w Hw) as [L _]. destruct (month_name_num m Hm) as (LM & _ & _).
      repeat rewrite app_length. rewrite L, LM. cbn. lia. }
  rewrite make_ok. intuition lia.
Qed.

(** C78 (d): the obsolete RFC 850 form, two-digit years 70..99 meaning 1970..1999 and 00..69 2000..2069. *)
Theorem date_parse_rfc850 : forall w yy m d hh mm ss t,
  0 <= w <= 6 -> 0 <= yy <= 99 -> 1 <= m <= 12 -> 0 <= d <= 99 -> 0 <= hh <= 99 -> 0 <= mm <= 99 -> 0 <= ss <= 99 ->
  (parse_http_date (rfc850 w yy m d hh mm ss) = Ok t <->
   exists y, (yy < 70 -> y = 2000 + yy) /\ (70 <= yy -> y = 1900 + yy) /\
             TimeOfDay hh mm ss /\ Instant y m d hh mm ss t).
Proof.
  intros w yy m d hh mm ss t Hw Hy Hm Hd H1 H2 H3.
  unfold parse_http_date. cbv zeta.
  assert (D : exists i, find_char 45 (rfc850 w yy m d hh mm ss) = Some i).
  { destruct (find_char 45 (rfc850 w yy m d hh mm ss)) eqn:E; [eauto|]. exfalso.
    unfold find_char in E. apply find_if_none in E. unfold rfc850 in E.
    apply Forall_app in E as [_ E]. apply Forall_app in E as [_ E]. apply Forall_app in E as [_ E].
    apply Forall_app in E as [E _]. inversion E. discriminate. }
  destruct D as [i D]. rewrite D, andb_false_r. cbn [or_else]. rewrite rfc850_str by auto.
  rewrite asctime_len, or_else_reject.
  2:{ unfold rfc850. destruct (long_day_name_plain w Hw) as [L _]. destruct (month_name_num m Hm) as (LM & _ & _).
      set (W := long_day_name w) in *. clearbody W. repeat rewrite app_length. rewrite LM. cbn. lia. }
  rewrite make_ok. split.
  - intros (A & B & C). eexists. refine (conj _ (conj _ (conj B C))); destruct (Z.ltb_spec yy 70); lia.
  - intros (y & Y1 & Y2 & B & C). assert (y = if yy <? 70 then yy + 2000 else yy + 1900) as -> by (destruct (Z.ltb_spec yy 70); lia).
    refine (conj _ (conj B C)). destruct (Z.ltb_spec yy 70); lia.
Qed.

(** C78 (e): the obsolete asctime form. *)
Theorem date_parse_asctime : forall w y m d hh mm ss t,
  0 <= w <= 6 -> 0 <= y <= 9999 -> 1 <= m <= 12 -> 0 <= d <= 99 -> 0 <= hh <= 99 -> 0 <= mm <= 99 -> 0 <= ss <= 99 ->
  (parse_http_date (asctime w y m d hh mm ss) = Ok t <->
   1 <= y /\ TimeOfDay hh mm ss /\ Instant y m d hh mm ss t).
Proof.
  intros w y m d hh mm ss t Hw Hy Hm Hd H1 H2 H3.
  unfold parse_http_date. cbv zeta.
  assert (Pl : Forall (fun c => c <> 44%N /\ c <> 45%N) (asctime w y m d hh mm ss)).
  { unfold asctime. pose proof (proj2 (day_name_plain w Hw)) as P.
    destruct (month_name_num m Hm) as (_ & _ & M). pose proof (d2_plain d Hd). pose proof (d4_plain y Hy).
    pose proof (hms_plain hh mm ss H1 H2 H3).
    assert (Forall (fun c => c <> 44%N /\ c <> 45%N) (if d <? 10 then [32%N; dig d] else d2 d)).
    { destruct (Z.ltb_spec d 10); auto. pose proof (dig_range d ltac:(lia)). repeat constructor; try discriminate; lia. }
    fa; auto; apply plainb; reflexivity. }
  rewrite (find_char_absent 44) by now apply plain_comma. rewrite (find_char_absent 45) by now apply plain_dash.
  cbn [andb or_else]. rewrite asctime_str by auto. rewrite make_ok. intuition lia.
Qed.

(** ** Formatting *)

Lemma digits_one f n acc : (n < 10)%N -> digits (S f) n acc = (48 + n)%N :: acc.
Proof.
  intros H. cbn [digits]. replace (n mod 10)%N with n by (symmetry; now apply N.mod_small).
  replace (n <? 10)%N with true by lia. reflexivity.
Qed.

Lemma digits_more f n acc : (10 <= n)%N -> digits (S f) n acc = digits f (n / 10) ((48 + n mod 10)%N :: acc).
Proof. intros H. cbn [digits]. replace (n <? 10)%N with false by lia. reflexivity. Qed.

Lemma size_ge n k : (2 ^ N.of_nat k <= n)%N -> (k < N.size_nat n)%nat.
Proof.
  intros H. destruct (N.eq_dec n 0) as [-> |Hn].
  - exfalso. assert (2 ^ N.of_nat k <> 0)%N by (apply N.pow_nonzero; lia). lia.
  - assert (E : N.size_nat n = N.to_nat (N.size n)).
    { destruct n; [lia|]. cbn. clear. induction p; cbn; rewrite ?IHp; lia. }
    rewrite E. pose proof (N.size_gt n) as G.
    assert (N.of_nat k < N.size n)%N; [|lia].
    apply (N.pow_lt_mono_r_iff 2); lia.
Qed.

Lemma to_string_1 z : 0 <= z <= 9 -> to_string z = [dig z].
Proof.
  intros H. unfold to_string. replace (z <? 0) with false by lia. rewrite digits_one by lia. reflexivity.
Qed.

Lemma pad2_d2 z : 0 <= z <= 99 -> pad2 z = d2 z.
Proof.
  intros H. unfold pad2, d2. destruct (Z.ltb_spec z 10).
  - rewrite to_string_1 by lia. replace (z / 10) with 0 by (Z.to_euclidean_division_equations; lia).
    replace (z mod 10) with z by (Z.to_euclidean_division_equations; lia). reflexivity.
  - cbn [app]. unfold to_string. replace (z <? 0) with false by lia.
    assert (Sz : (3 < N.size_nat (Z.to_N z))%nat) by (apply size_ge; cbn; lia).
    destruct (N.size_nat (Z.to_N z)) as [|f]; [lia|].
    rewrite digits_more by lia. rewrite digits_one by (Z.to_euclidean_division_equations; lia).
    unfold dig. f_equal; [|f_equal]; Z.to_euclidean_division_equations; lia.
Qed.

Lemma to_string_4 z : 1000 <= z <= 9999 -> to_string z = d4 z.
Proof.
  intros H. unfold to_string, d4. replace (z <? 0) with false by lia.
  assert (Sz : (9 < N.size_nat (Z.to_N z))%nat) by (apply size_ge; cbn; lia).
  destruct (N.size_nat (Z.to_N z)) as [|[|[|f]]]; try lia.
  assert (E1 : (Z.to_N z / 10 = Z.to_N (z / 10))%N) by (rewrite Z2N.inj_div; lia).
  assert (E2 : (Z.to_N z / 10 / 10 = Z.to_N (z / 100))%N) by (Z.to_euclidean_division_equations; lia).
  assert (E3 : (Z.to_N z / 10 / 10 / 10 = Z.to_N (z / 1000))%N) by (Z.to_euclidean_division_equations; lia).
  assert (100 <= z / 10 <= 999) by (Z.to_euclidean_division_equations; lia).
  assert (10 <= z / 100 <= 99) by (Z.to_euclidean_division_equations; lia).
  assert (1 <= z / 1000 <= 9) by (Z.to_euclidean_division_equations; lia).
  rewrite digits_more by lia. rewrite digits_more by lia. rewrite digits_more by lia. rewrite E3, E2, E1.
  rewrite digits_one by lia.
  unfold dig. repeat (rewrite Z2N.inj_mod by lia). reflexivity.
Qed.

(** C77 (a): the text produced for an instant of the years 1000 to 9999 is its IMF-fixdate: the right
    calendar date, the right day of the week, the right time of day. *)
Theorem date_format : forall y m d n w hh mm ss,
  DayNo (y, m, d) n w -> 1000 <= y <= 9999 -> TimeOfDay hh mm ss ->
  format_http_date (86400 * n + 3600 * hh + 60 * mm + ss) = imf w y m d hh mm ss.
Proof.
  intros y m d n w hh mm ss D Hy HT. pose proof (proj1 (DayNo_iff _ _ _ _ _) D) as (HD & En & Ew).
  pose proof (gmtime_fields n hh mm ss HT) as F. cbv zeta in F. destruct F as (F1 & F2 & F3 & F4 & F5).
  unfold format_http_date. set (v := safe_gmtime (86400 * n + 3600 * hh + 60 * mm + ss)) in *. clearbody v.
  rewrite En, civil_dayno in F1 by auto. injection F1 as G1 G2 G3.
  cbv zeta. rewrite F2, F3, F4, F5, G1, G3. replace (tm_mon v) with (m - 1) by lia. rewrite <- Ew.
  apply date_iff in HD as [Hm Hd].
  assert (mlen (is_leap y) m <= 31) by (unfold mlen; destruct (is_leap y); cbn; repeat match goal with |- context [if ?x then _ else _] => destruct x end; lia).
  destruct HT as (T1 & T2 & T3).
  rewrite !pad2_d2, to_string_4 by lia. unfold imf, hms. rewrite <- !app_assoc. reflexivity.
Qed.

(** C77 (b): formatting loses nothing: parsing the text gives the instant back. *)
Theorem date_roundtrip : forall t y m d n w hh mm ss,
  DayNo (y, m, d) n w -> TimeOfDay hh mm ss -> t = 86400 * n + 3600 * hh + 60 * mm + ss ->
  1000 <= y <= 9999 ->
  parse_http_date (format_http_date t) = Ok t.
Proof.
  intros t y m d n w hh mm ss D HT -> Hy. rewrite (date_format y m d n w) by auto.
  pose proof (proj1 (DayNo_iff _ _ _ _ _) D) as (HD & En & Ew). pose proof HT as (T1 & T2 & T3).
  apply date_iff in HD as [Hm Hd].
  assert (mlen (is_leap y) m <= 31) by (unfold mlen; destruct (is_leap y); cbn; repeat match goal with |- context [if ?x then _ else _] => destruct x end; lia).
  assert (0 <= w <= 6) by (subst w; Z.to_euclidean_division_equations; lia).
  apply date_parse_imf; try lia.
  refine (conj _ (conj HT _)); [lia|]. exists n, w. auto.
Qed.

(** Every instant is one of these: it has exactly one civil time. *)
Theorem date_total : forall t, exists y m d n w hh mm ss,
  DayNo (y, m, d) n w /\ TimeOfDay hh mm ss /\ t = 86400 * n + 3600 * hh + 60 * mm + ss.
Proof.
  intros t. destruct (seconds_split t) as (n & hh & mm & ss & HT & E).
  pose proof (DayNo_civil n) as D. destruct (civil n) as [[y m] d].
  exists y, m, d, n, ((n + 4) mod 7), hh, mm, ss. auto.
Qed.

Lemma dayno_unique a n n' w w' : DayNo a n w -> DayNo a n' w' -> n = n' /\ w = w'.
Proof.
  destruct a as [[y m] d]. intros H H'. apply DayNo_iff in H as (_ & -> & ->). apply DayNo_iff in H' as (_ & -> & ->). auto.
Qed.

Theorem date_unique : forall y m d hh mm ss t t',
  Instant y m d hh mm ss t -> Instant y m d hh mm ss t' -> t = t'.
Proof.
  intros y m d hh mm ss t t' (n & w & D & ->) (n' & w' & D' & ->).
  destruct (dayno_unique _ _ _ _ _ D D') as [-> _]. reflexivity.
Qed.

(** Limits of the two directions.  Years below 1000 are not padded to four digits, so the text produced is
    not an HTTP-date and does not parse back. *)
Theorem date_roundtrip_small_years_refuted :
  exists t, Instant 999 12 31 23 59 59 t /\ parse_http_date (format_http_date t) = Reject.
Proof.
  exists (86400 * dayno (999, 12, 31) + 3600 * 23 + 60 * 59 + 59). split; [|reflexivity].
  exists (dayno (999, 12, 31)), ((dayno (999, 12, 31) + 4) mod 7). split; [|reflexivity].
  apply DayNo_iff. refine (conj _ (conj eq_refl eq_refl)). apply date_iff. cbn. lia.
Qed.

(** The parser is lenient: a field may stop at its first non-digit and the weekday is not looked at, so
    some strings that are none of the three forms are accepted. *)
Theorem date_parse_strict_refuted :
  exists s t, parse_http_date s = Ok t /\
    (forall w y m d hh mm ss, 0 <= w <= 6 -> s <> imf w y m d hh mm ss).
Proof.
  exists (str "Xxx, 6x Nov 1994 08:49:37 GMT"), 784111777. split; [vm_compute; reflexivity|].
  intros w y m d hh mm ss Hw E.
  assert (D : w = 0 \/ w = 1 \/ w = 2 \/ w = 3 \/ w = 4 \/ w = 5 \/ w = 6) by lia.
  apply (f_equal (fun s => nth_error s 0)) in E.
  destruct D as [-> | [-> | [-> | [-> | [-> | [-> | ->]]]]]]; discriminate E.
Qed.

(** * Non-vacuity *)
Example ex_imf_text : imf 0 1994 11 6 8 49 37 = str "Sun, 06 Nov 1994 08:49:37 GMT".
Proof. reflexivity. Qed.
Example ex_rfc850_text : rfc850 0 94 11 6 8 49 37 = str "Sunday, 06-Nov-94 08:49:37 GMT".
Proof. reflexivity. Qed.
Example ex_asctime_text : asctime 0 1994 11 6 8 49 37 = str "Sun Nov  6 08:49:37 1994".
Proof. reflexivity. Qed.
Example ex_dayno : DayNo (1994, 11, 6) 9075 0.
Proof. apply DayNo_iff. refine (conj _ (conj eq_refl eq_refl)). apply date_iff. cbn. lia. Qed.
Example ex_format : format_http_date 784111777 = str "Sun, 06 Nov 1994 08:49:37 GMT".
Proof. exact (date_format 1994 11 6 9075 0 8 49 37 ex_dayno ltac:(lia) ltac:(unfold TimeOfDay; lia)). Qed.
Example ex_leap_day : exists t, parse_http_date (str "Thu, 29 Feb 2024 00:00:00 GMT") = Ok t.
Proof. eexists. vm_compute. reflexivity. Qed.
Example ex_no_leap_day : parse_http_date (str "Wed, 29 Feb 2023 00:00:00 GMT") = Reject.
Proof. vm_compute. reflexivity. Qed.
