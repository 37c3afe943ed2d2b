(** Whole numbers as IEEE doubles (the standard library's SpecFloat). *)
From Verif Require Import Base ValJson ReqModel.
From Coq Require Import SpecFloat.
Local Open Scope Z_scope.

(** [d] is exactly the whole number [z]. *)
Inductive Whole : spec_float -> Z -> Prop :=
| wh_zero s : Whole (S754_zero s) 0
| wh_up s m e : 0 <= e -> Whole (S754_finite s m e) ((if s then -1 else 1) * (Zpos m * 2 ^ e))
| wh_down s m e z : e < 0 -> 0 <= z -> Zpos m = z * 2 ^ (- e) -> Whole (S754_finite s m e) ((if s then -1 else 1) * z).
(** A finite double in the form the format prescribes. *)
Definition Double (d : spec_float) : Prop := valid_binary 53 1024 d = true.

Lemma digits_log p : Zpos (digits2_pos p) = Z.log2 (Zpos p) + 1.
Proof.
  assert (H : forall p, digits2_pos p = Pos.size p) by (induction p0; cbn; congruence). rewrite H.
  destruct p; cbn [Pos.size Z.log2]; lia.
Qed.
Lemma zdigits_log p : Zdigits2 (Zpos p) = Z.log2 (Zpos p) + 1.
Proof. apply digits_log. Qed.

Lemma double_parts s m e : Double (S754_finite s m e) -> e = Z.max (Z.log2 (Zpos m) + 1 + e - 53) (-1074) /\ Z.log2 (Zpos m) + 1 <= 53 /\ e <= 971.
Proof.
  unfold Double, valid_binary, bounded, canonical_mantissa, fexp, emin. rewrite digits_log. intros H. apply andb_prop in H as [H1 H2]. apply Z.leb_le in H2. apply Zeq_bool_eq in H1. lia.
Qed.

Fixpoint it {A} (k : nat) (f : A -> A) (x : A) : A := match k with O => x | S k => f (it k f x) end.
Lemma shr_exact : forall n m, 0 < m -> iter_pos shr_1 n (Build_shr_record (m * 2 ^ Zpos n) false false) = Build_shr_record m false false.
Proof.
  assert (H1 : forall m, 0 < m -> shr_1 (Build_shr_record (m * 2) false false) = Build_shr_record m false false).
  { intros m Hm. destruct m as [|m|m]; try lia. rewrite Z.mul_comm. reflexivity. }
  assert (HN : forall k m, 0 < m -> it k shr_1 (Build_shr_record (m * 2 ^ Z.of_nat k) false false) = Build_shr_record m false false).
  { induction k as [|k IH]; intros m Hm; [cbn; now rewrite Z.mul_1_r|]. cbn [it]. replace (m * 2 ^ Z.of_nat (S k)) with (m * 2 * 2 ^ Z.of_nat k) by (rewrite Nat2Z.inj_succ, Z.pow_succ_r by lia; lia).
    rewrite IH by lia. now apply H1. }
  assert (HI : forall n (x : shr_record), iter_pos shr_1 n x = it (Pos.to_nat n) shr_1 x).
  { induction n as [n IH|n IH|]; intros x; cbn [iter_pos].
    - rewrite IH, IH. rewrite Pos2Nat.inj_xI. cbn [it]. assert (HS : forall k (y : shr_record), it k shr_1 (shr_1 y) = shr_1 (it k shr_1 y)) by (induction k as [|k IHk]; intros y; cbn [it]; [reflexivity|now rewrite IHk]).
      rewrite !HS. f_equal. replace (2 * Pos.to_nat n)%nat with (Pos.to_nat n + Pos.to_nat n)%nat by lia. generalize (Pos.to_nat n). intros a. generalize a at 1 3 as b. induction b as [|b IHb]; cbn [it Nat.add]; [reflexivity|now rewrite IHb].
    - rewrite IH, IH. rewrite Pos2Nat.inj_xO. replace (2 * Pos.to_nat n)%nat with (Pos.to_nat n + Pos.to_nat n)%nat by lia. generalize (Pos.to_nat n). intros a. generalize a at 1 3 as b. induction b as [|b IHb]; cbn [it Nat.add]; [reflexivity|now rewrite IHb].
    - reflexivity. }
  intros n m Hm. rewrite HI. rewrite <- (HN (Pos.to_nat n) m Hm). now rewrite positive_nat_Z.
Qed.
Lemma log2_shift p k : 0 <= k -> Z.log2 (Zpos p * 2 ^ k) = Z.log2 (Zpos p) + k.
Proof. intros H. rewrite Z.log2_mul_pow2 by lia. lia. Qed.

(** a mantissa of 53 digits is kept *)
Lemma aux_full s m e : Z.log2 (Zpos m) = 52 -> -1074 <= e <= 971 -> binary_round_aux 53 1024 s (Zpos m) e loc_Exact = S754_finite s m e.
Proof.
  intros Hm He. unfold binary_round_aux, shr_fexp. rewrite zdigits_log, Hm. unfold fexp, emin.
  replace (Z.max (52 + 1 + e - 53) (3 - 1024 - 53) - e) with 0 by lia. cbn [shr shr_record_of_loc shr_m shr_r shr_s loc_of_shr_record round_nearest_even fst snd].
  rewrite zdigits_log, Hm. replace (Z.max (52 + 1 + e - 53) (3 - 1024 - 53) - e) with 0 by lia. cbn. destruct (Z.leb_spec e 971); [reflexivity|lia].
Qed.
Lemma normal_up s m e : Z.log2 (Zpos m) = 52 -> 0 <= e <= 971 -> forall p, Zpos p = Zpos m * 2 ^ e -> binary_round 53 1024 s p 0 = S754_finite s m e.
Proof.
  intros Hm He p Hp. unfold binary_round. rewrite digits_log, Hp, log2_shift, Hm by lia. unfold fexp, emin, shl_align.
  replace (Z.max (52 + e + 1 + 0 - 53) (3 - 1024 - 53) - 0) with e by lia.
  assert (HA : binary_round_aux 53 1024 s (Zpos p) 0 loc_Exact = S754_finite s m e).
  { unfold binary_round_aux, shr_fexp. rewrite zdigits_log, Hp, log2_shift, Hm by lia. unfold fexp, emin. replace (Z.max (52 + e + 1 + 0 - 53) (3 - 1024 - 53) - 0) with e by lia.
    assert (HS : shr (shr_record_of_loc (Zpos m * 2 ^ e) loc_Exact) 0 e = (Build_shr_record (Zpos m) false false, e)).
    { unfold shr. destruct e as [|n|n]; [rewrite Z.mul_1_r; reflexivity| |lia]. cbn [shr_record_of_loc]. rewrite shr_exact by lia. reflexivity. }
    rewrite HS. cbn [shr_m shr_r shr_s loc_of_shr_record round_nearest_even fst snd]. rewrite zdigits_log, Hm. replace (Z.max (52 + 1 + e - 53) (3 - 1024 - 53) - e) with 0 by lia.
    cbn. destruct (Z.leb_spec e 971); [reflexivity|lia]. }
  destruct e; try exact HA; lia.
Qed.
Lemma normal_down s q : Z.log2 (Zpos q) <= 52 -> exists m, Zpos m = Zpos q * 2 ^ (52 - Z.log2 (Zpos q)) /\ binary_round 53 1024 s q 0 = S754_finite s m (Z.log2 (Zpos q) - 52).
Proof.
  intros Hq. pose proof (Z.log2_nonneg (Zpos q)) as Hn. remember (52 - Z.log2 (Zpos q)) as k eqn:Ek.
  assert (exists m, Zpos m = Zpos q * 2 ^ k) as [m Hm].
  { assert (0 < Zpos q * 2 ^ k) by (apply Z.mul_pos_pos; [lia|apply Z.pow_pos_nonneg; lia]). destruct (Zpos q * 2 ^ k) as [|m|m]; try lia. now exists m. }
  exists m. split; [exact Hm|]. assert (Hl : Z.log2 (Zpos m) = 52) by (rewrite Hm, log2_shift by lia; lia).
  unfold binary_round. rewrite digits_log. unfold fexp, emin, shl_align.
  replace (Z.max (Z.log2 (Zpos q) + 1 + 0 - 53) (3 - 1024 - 53) - 0) with (- k) by lia. replace (Z.max (Z.log2 (Zpos q) + 1 + 0 - 53) (3 - 1024 - 53)) with (- k) by lia.
  replace (Z.log2 (Zpos q) - 52) with (- k) by lia.
  destruct k as [|k|k]; cbn [Z.opp].
  - rewrite Z.mul_1_r in Hm. injection Hm as <-. now apply aux_full.
  - replace (shift_pos k q) with m; [apply aux_full; [exact Hl|lia]|]. cut (Zpos m = Zpos (shift_pos k q)); [congruence|]. rewrite Hm, shift_pos_correct, Z.pow_pos_fold. lia.
  - lia.
Qed.

(** A double in range that converts to an integer and back unchanged is that integer, and conversely. *)
Theorem whole_iff d : Double d -> finite d = true -> - 2 ^ 63 <= trunc d <= 2 ^ 63 -> (SFeqb (double_of (trunc d)) d = true <-> Whole d (trunc d)).
Proof.
  intros HD HF HR. destruct d as [s| | |s m e]; try discriminate HF; [split; [intros _; constructor|reflexivity]|].
  apply double_parts in HD as (He & Hm & Hl). cbn [trunc] in *. set (sg := if s then -1 else 1).
  assert (HB : forall p, double_of ((if s then -1 else 1) * Zpos p) = binary_round 53 1024 s p 0) by (intros p; destruct s; reflexivity).
  destruct (Z.leb_spec 0 e) as [E|E].
  - assert (Hm52 : Z.log2 (Zpos m) = 52) by lia. assert (exists p, Zpos p = Zpos m * 2 ^ e) as [p Hp].
    { assert (0 < Zpos m * 2 ^ e) by (apply Z.mul_pos_pos; [lia|apply Z.pow_pos_nonneg; lia]). destruct (Zpos m * 2 ^ e) as [|p|p]; try lia. now exists p. }
    replace (if s then - (Zpos m * 2 ^ e) else Zpos m * 2 ^ e) with ((if s then -1 else 1) * (Zpos m * 2 ^ e)) by (destruct s; lia).
    split; [intros _; constructor; lia|]. intros _. rewrite <- Hp, HB. rewrite (normal_up s m e Hm52 ltac:(lia) p Hp). unfold SFeqb, SFcompare. rewrite Z.compare_refl, Pos.compare_refl. now destruct s.
  - set (q := Zpos m / 2 ^ (- e)). assert (Hpow : 0 < 2 ^ (- e)) by (apply Z.pow_pos_nonneg; lia). assert (Hq : 0 <= q) by (apply Z.div_pos; lia).
    replace (if s then - q else q) with ((if s then -1 else 1) * q) by (destruct s; lia).
    assert (HW : Whole (S754_finite s m e) ((if s then -1 else 1) * q) <-> Zpos m = q * 2 ^ (- e)).
    { split; [|intros; now constructor]. intros H. inversion H as [|? ? ? H1|? ? ? z H1 H2 H3]; subst; [lia|]. assert (z = q) by (destruct s; lia). now subst. }
    rewrite HW. clear HW. destruct q as [|q'|q'] eqn:EQ; [|subst q|lia].
    + split; [intros H; exfalso; revert H; destruct s; cbn; discriminate|lia].
    + assert (Hql : Z.log2 (Zpos q') <= 52) by (rewrite <- EQ; transitivity (Z.log2 (Zpos m)); [apply Z.log2_le_mono, Z.div_le_upper_bound; nia|lia]).
      rewrite HB. destruct (normal_down s q' Hql) as (m' & Hm' & ->).
      unfold SFeqb, SFcompare. split.
      * intros H. assert (Z.log2 (Zpos q') - 52 = e /\ m' = m) as [H1 ->].
        { destruct s; destruct (Z.compare_spec (Z.log2 (Zpos q') - 52) e); try discriminate H; (split; [assumption|]);
            change (Pos.compare_cont Eq m' m) with (Pos.compare m' m) in H; destruct (Pos.compare_spec m' m); try assumption; discriminate H. }
        rewrite Hm'. f_equal. f_equal. lia.
      * intros H. assert (HL : Z.log2 (Zpos m) = Z.log2 (Zpos q') - e) by (rewrite H, log2_shift by lia; lia).
        pose proof (Z.log2_nonneg (Zpos q')). assert (H1 : Z.log2 (Zpos q') - 52 = e) by lia. assert (m' = m) as -> by (replace (52 - Z.log2 (Zpos q')) with (- e) in Hm' by lia; congruence).
        rewrite H1, Z.compare_refl. change (Pos.compare_cont Eq m m) with (Pos.compare m m). rewrite Pos.compare_refl. now destruct s.
Qed.

Lemma whole_trunc d z : Whole d z -> z = trunc d.
Proof.
  destruct 1 as [s|s m e He|s m e z He Hz Hm]; cbn [trunc]; [reflexivity| |].
  - destruct (Z.leb_spec 0 e); [|lia]. destruct s; lia.
  - destruct (Z.leb_spec 0 e); [lia|]. assert (0 < 2 ^ (- e)) by (apply Z.pow_pos_nonneg; lia). rewrite Hm, Z.div_mul by lia. destruct s; lia.
Qed.
Lemma pos_le p q : Zpos p <= Zpos q -> (p <= q)%positive.
Proof. lia. Qed.
Definition in_range (d : spec_float) : bool := SFleb (double_of (-9223372036854775808)) d && SFltb d (double_of 9223372036854775808).
Lemma range_tests : double_of (-9223372036854775808) = S754_finite true 4503599627370496 11 /\ double_of 9223372036854775808 = S754_finite false 4503599627370496 11.
Proof. split; vm_compute; reflexivity. Qed.
Lemma range_finite s m e : in_range (S754_finite s m e) = (e <? 11) || (e =? 11) && (if s then Pos.leb m 4503599627370496 else Pos.ltb m 4503599627370496).
Proof.
  unfold in_range. destruct range_tests as [-> ->]. generalize 4503599627370496%positive as C. intros C. destruct s; unfold SFleb, SFltb, SFcompare.
  - rewrite andb_true_r. change (Pos.compare_cont Eq C m) with (Pos.compare C m). destruct (Z.compare_spec 11 e).
    + subst. cbn [Z.ltb Z.eqb Pos.compare Z.compare]. change (11 ?= 11) with Eq. cbv iota. destruct (Pos.compare_spec C m), (Pos.leb_spec m C); subst; try reflexivity; try lia.
    + destruct (Z.ltb_spec e 11); [lia|]. destruct (Z.eqb_spec e 11); [lia|reflexivity].
    + destruct (Z.ltb_spec e 11); [reflexivity|lia].
  - cbn [andb]. change (Pos.compare_cont Eq m C) with (Pos.compare m C). destruct (Z.compare_spec e 11).
    + subst. change (11 <? 11) with false. change (11 =? 11) with true. cbn [orb andb]. destruct (Pos.compare_spec m C), (Pos.ltb_spec m C); try reflexivity; try lia.
    + destruct (Z.ltb_spec e 11); [reflexivity|lia].
    + destruct (Z.ltb_spec e 11); [lia|]. destruct (Z.eqb_spec e 11); [lia|reflexivity].
Qed.
Lemma range_trunc d : Double d -> finite d = true -> in_range d = true -> - 2 ^ 63 <= trunc d < 2 ^ 63.
Proof.
  intros HD HF HR. destruct d as [s| | |s m e]; try discriminate HF; [cbn; lia|]. apply double_parts in HD as (He & Hm & Hl). rewrite range_finite in HR.
  assert (Hm2 : Zpos m < 2 ^ 53) by (apply Z.log2_lt_pow2; lia). cbn [trunc]. destruct (Z.leb_spec 0 e) as [E|E].
  - assert (Hm3 : 2 ^ 52 <= Zpos m) by (apply Z.log2_le_pow2; lia).
    destruct (Z.ltb_spec e 11).
    + assert (2 ^ e <= 2 ^ 10) by (apply Z.pow_le_mono_r; lia). assert (0 < 2 ^ e) by (apply Z.pow_pos_nonneg; lia). assert (Zpos m * 2 ^ e < 2 ^ 63) by (change (2 ^ 63) with (2 ^ 53 * 2 ^ 10); nia). destruct s; nia.
    + cbn [orb] in HR. apply andb_prop in HR as [HE HR]. apply Z.eqb_eq in HE. subst e. destruct s; [|apply Pos.ltb_lt, Pos2Z.pos_lt_pos in HR; change (2 ^ 52) with 4503599627370496 in Hm3; exfalso; revert Hm3 HR; generalize (Zpos m); intros; lia]. apply Pos.leb_le, Pos2Z.pos_le_pos in HR. change (2 ^ 11) with 2048. change (2 ^ 63) with 9223372036854775808. generalize dependent (Zpos m). intros; lia.
  - assert (1 <= 2 ^ (- e)) by (apply (Z.pow_le_mono_r 2 0); lia). assert (0 <= Zpos m / 2 ^ (- e) <= Zpos m) by (split; [apply Z.div_pos; lia|apply Z.div_le_upper_bound; nia]). destruct s; lia.
Qed.
Lemma whole_range d z : Double d -> Whole d z -> - 2 ^ 63 <= z < 2 ^ 63 -> in_range d = true.
Proof.
  intros HD HW HR. destruct d as [s| | |s m e]; [reflexivity|inversion HW|inversion HW|]. apply double_parts in HD as (He & Hm & Hl). rewrite range_finite.
  destruct (Z.ltb_spec e 11); [reflexivity|]. cbn [orb]. assert (Hm3 : 2 ^ 52 <= Zpos m) by (apply Z.log2_le_pow2; lia).
  inversion HW as [|? ? ? H1|? ? ? z' H1]; subst; [|lia].
  assert (2 ^ 11 <= 2 ^ e) by (apply Z.pow_le_mono_r; lia). destruct (Z.eqb_spec e 11) as [->|].
  - destruct s; [|change (2 ^ 11) with 2048 in *; change (2 ^ 63) with 9223372036854775808 in *; change (2 ^ 52) with 4503599627370496 in *; clear - HR Hm3; generalize dependent (Zpos m); intros; lia]. cbn [andb]. apply Pos.leb_le. assert (HX : Zpos m <= 4503599627370496) by (change (2 ^ 11) with 2048 in *; change (2 ^ 63) with 9223372036854775808 in *; clear - HR; generalize dependent (Zpos m); intros; lia). apply pos_le, HX.
  - assert (HX : 2 ^ 12 <= 2 ^ e) by (apply Z.pow_le_mono_r; lia). exfalso. clear - HX Hm3 HR. change (2 ^ 63) with 9223372036854775808 in *. change (2 ^ 52) with 4503599627370496 in *. change (2 ^ 12) with 4096 in *. revert HX Hm3 HR. generalize (Zpos m) (2 ^ e). intros; destruct s; nia.
Qed.
