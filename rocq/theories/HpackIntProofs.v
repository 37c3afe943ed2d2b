(** C08, C09: integers. *)
From Verif Require Import Base HpackTables HpackModel HpackSpec.
Local Open Scope N_scope.

Lemma shiftl1 n : N.shiftl 1 n = 2 ^ n.
Proof. rewrite N.shiftl_1_l. reflexivity. Qed.

Lemma mask_eq n : 1 <= n -> n <= 8 -> w8 (N.shiftl 1 n - 1) = 2 ^ n - 1.
Proof.
  intros H1 H2. unfold w8. rewrite shiftl1. apply N.mod_small.
  assert (2 ^ n <= 2 ^ 8) by (apply N.pow_le_mono_r; lia).
  assert (0 < 2 ^ n) by (apply N.neq_0_lt_0, N.pow_nonzero; lia).
  change (2 ^ 8) with 256 in H. lia.
Qed.

Lemma land_mask b n : N.land b (2 ^ n - 1) = b mod 2 ^ n.
Proof. rewrite N.sub_1_r, <- N.ones_equiv. apply N.land_ones. Qed.

Lemma byte_split b : b < 256 ->
  (N.land b 128 =? 0) = (b <? 128) /\ N.land b 127 = b mod 128.
Proof.
  intros H.
  pose (P := fun b => Bool.eqb (N.land b 128 =? 0) (b <? 128) && (N.land b 127 =? b mod 128)).
  assert (HP : P b = true) by (apply (byte_sweep P); [vm_compute; reflexivity | assumption]).
  unfold P in HP. apply andb_true_iff in HP as [A B]. apply eqb_prop in A. apply N.eqb_eq in B. auto.
Qed.

Lemma lor128 r : r < 128 -> w8 (N.lor r 128) = r + 128.
Proof.
  intros H. pose (P := fun b => implb (b <? 128) (w8 (N.lor b 128) =? b + 128)).
  assert (HP : P r = true) by (apply (byte_sweep P); [vm_compute; reflexivity | lia]).
  unfold P in HP. destruct (r <? 128) eqn:E; [|lia]. simpl in HP. now apply N.eqb_eq.
Qed.

Lemma pow64 : 2 ^ 64 = 18446744073709551616.
Proof. reflexivity. Qed.

(** The decoding loop is exact. *)
Lemma decode_int_tail_spec : forall s M value v rest,
  bytes_ok s -> value < 2 ^ 64 ->
  (decode_int_tail M value s = Some (v, rest) <->
   exists bs w, s = bs ++ rest /\ VarTail bs w /\ v = value + 2 ^ M * w /\ v < 2 ^ 64 /\
                M + 7 * (N.of_nat (length bs) - 1) < 64).
Proof.
  induction s as [|b r IH]; intros M value v rest Hok Hval.
  - simpl. split; [discriminate|]. intros (bs & w & E & Hb & _).
    destruct bs; [inversion Hb|discriminate].
  - inversion Hok as [|? ? Hb Hr]; subst.
    destruct (byte_split b Hb) as [Htop Hlow].
    cbn [decode_int_tail].
    destruct (64 <=? M) eqn:EM.
    { split; [discriminate|]. intros (bs & w & E & Hv & _ & _ & HM). destruct bs; simpl in HM; lia. }
    apply N.leb_gt in EM.
    assert (HpM : 0 < 2 ^ M) by (apply N.neq_0_lt_0, N.pow_nonzero; lia).
    assert (Hmax : UINT64_MAX = 2 ^ 64 - 1) by reflexivity.
    rewrite Hlow.
    assert (Hterm : b mod 128 < 128) by (apply N.mod_lt; lia).
    (* the shift test *)
    assert (Hsh : (0 <? M) && (N.shiftr UINT64_MAX M <? b mod 128) = false <-> b mod 128 * 2 ^ M < 2 ^ 64).
    { rewrite N.shiftr_div_pow2.
      destruct (0 <? M) eqn:E0.
      - rewrite andb_true_l, N.ltb_ge. rewrite Hmax. split; intros HH.
        + assert (2 ^ M * ((2 ^ 64 - 1) / 2 ^ M) <= 2 ^ 64 - 1) by (apply N.mul_div_le; lia).
          assert (2 ^ M * (b mod 128) <= 2 ^ M * ((2 ^ 64 - 1) / 2 ^ M)) by (apply N.mul_le_mono_l; auto).
          rewrite pow64 in *. lia.
        + apply N.div_le_lower_bound; [lia|]. rewrite pow64 in *. lia.
      - apply N.ltb_ge in E0. assert (M = 0) by lia. subst M. simpl. change (2 ^ 0) with 1.
        split; auto. intros _. rewrite pow64. lia. }
    (* membership of the spec side splits on the top bit *)
    assert (Hvt : forall bs w, VarTail bs w -> forall x y, b :: r = bs ++ rest -> x = value + 2 ^ M * w ->
              x < 2 ^ 64 -> y = tt -> b mod 128 * 2 ^ M < 2 ^ 64 /\ value + b mod 128 * 2 ^ M < 2 ^ 64).
    { intros bs w Hv x _ E Ex Hx _. inversion Hv as [b' Hb' E1 E2 | b' bs' w' Hlo Hhi Hv' E1 E2]; subst bs w; simpl in E;
        injection E as -> Er.
      - rewrite N.mod_small by lia. lia.
      - assert (Hm : b' mod 128 = b' - 128) by (symmetry; apply (N.mod_unique b' 128 1); lia).
        rewrite Hm. nia. }
    destruct ((0 <? M) && (N.shiftr UINT64_MAX M <? b mod 128)) eqn:E1.
    { split; [discriminate|]. intros (bs & w & E & Hv & Ev & Hlt & HM).
      destruct (Hvt bs w Hv v tt E Ev Hlt eq_refl) as [HA _]. apply Hsh in HA. discriminate. }
    assert (HS : b mod 128 * 2 ^ M < 2 ^ 64) by (apply Hsh; reflexivity).
    rewrite N.shiftl_mul_pow2. cbv zeta.
    replace (w64 (b mod 128 * 2 ^ M)) with (b mod 128 * 2 ^ M)
      by (unfold w64; rewrite <- pow64; symmetry; apply N.mod_small; assumption).
    destruct (UINT64_MAX - b mod 128 * 2 ^ M <? value) eqn:E2.
    { split; [discriminate|]. intros (bs & w & E & Hv & Ev & Hlt & HM).
      destruct (Hvt bs w Hv v tt E Ev Hlt eq_refl) as [HA HB]. apply N.ltb_lt in E2. rewrite Hmax, pow64 in *. lia. }
    apply N.ltb_ge in E2.
    assert (Hnv : value + b mod 128 * 2 ^ M < 2 ^ 64) by (rewrite Hmax, pow64 in *; lia).
    replace (w64 (value + b mod 128 * 2 ^ M)) with (value + b mod 128 * 2 ^ M)
      by (unfold w64; rewrite <- pow64; symmetry; apply N.mod_small; assumption).
    rewrite Htop. destruct (b <? 128) eqn:E3.
    + apply N.ltb_lt in E3. rewrite (N.mod_small b 128) in * by lia. split.
      * intros H. injection H as <- <-. exists [b], b. simpl.
        repeat split; auto; try lia. now constructor.
      * intros (bs & w & E & Hv & Ev & Hlt & HM).
        inversion Hv as [b' Hb' Ea Eb | b' bs' w' Hlo Hhi Hv' Ea Eb]; subst bs w; simpl in E; injection E as -> Er.
        -- subst. f_equal. f_equal. lia.
        -- lia.
    + apply N.ltb_ge in E3.
      assert (Hm : b mod 128 = b - 128).
      { symmetry. apply (N.mod_unique b 128 1); lia. }
      rewrite Hm in *. rewrite (IH (M + 7) (value + (b - 128) * 2 ^ M) v rest Hr Hnv).
      assert (Hp7 : 2 ^ (M + 7) = 2 ^ M * 128) by (rewrite N.pow_add_r; reflexivity).
      split.
      * intros (bs & w & -> & Hv & -> & Hlt & HM). exists (b :: bs), ((b - 128) + 128 * w).
        assert (1 <= N.of_nat (length bs)) by (destruct Hv; simpl; lia).
        repeat split; auto.
        -- now constructor.
        -- rewrite Hp7. nia.
        -- simpl. lia.
      * intros (bs & w & E & Hv & Ev & Hlt & HM).
        inversion Hv as [b' Hb' Ea Eb | b' bs' w' Hlo Hhi Hv' Ea Eb]; subst bs w; simpl in E; injection E as -> Er; [lia|].
        exists bs', w'. assert (1 <= N.of_nat (length bs')) by (destruct Hv'; simpl; lia). simpl in HM.
        repeat split; auto; try lia.
Qed.

Lemma VarTail_len bs v : VarTail bs v -> (1 <= length bs)%nat.
Proof. destruct 1; simpl; lia. Qed.

Theorem decode_integer_spec n s v rest :
  1 <= n -> n <= 8 -> bytes_ok s ->
  (decode_integer n s = Some (v, rest) <->
   exists bs, s = bs ++ rest /\ IntRepr n bs v /\ v < 2 ^ 64 /\ (length bs <= 11)%nat).
Proof.
  intros H1 H8 Hok.
  assert (Hp : 2 <= 2 ^ n) by (change 2 with (2 ^ 1) at 1; apply N.pow_le_mono_r; lia).
  assert (Hp8 : 2 ^ n <= 2 ^ 8) by (apply N.pow_le_mono_r; lia). change (2 ^ 8) with 256 in Hp8.
  assert (H64 : 256 < 2 ^ 64) by reflexivity.
  destruct s as [|b r].
  - simpl. split; [discriminate|]. intros (bs & E & HI & _). destruct bs; [inversion HI|discriminate].
  - inversion Hok as [|? ? Hb Hr]; subst.
    unfold decode_integer. rewrite mask_eq, land_mask by auto. 
    assert (Hlt : b mod 2 ^ n < 2 ^ n) by (apply N.mod_lt; lia).
    destruct (b mod 2 ^ n <? 2 ^ n - 1) eqn:E.
    + apply N.ltb_lt in E. split.
      * intros H. injection H as <- <-. exists [b]. simpl. repeat split; auto; try lia. now constructor.
      * intros (bs & Es & HI & _). inversion HI as [b' Hb' Hm E1 E2 | b' bs' w Hb' Hm Hv E1 E2]; subst; simpl in Es;
          injection Es as -> Er; subst; auto. lia.
    + apply N.ltb_ge in E. rewrite decode_int_tail_spec by (auto; lia).
      split.
      * intros (bs & w & -> & Hv & -> & Hlt2 & HM). exists (b :: bs).
        assert (Hm : b mod 2 ^ n = 2 ^ n - 1) by lia.
        pose proof (VarTail_len _ _ Hv). change (2 ^ 0) with 1. rewrite Hm, N.mul_1_l.
        split; [reflexivity|]. split; [constructor; auto|].
        change (2 ^ 0) with 1 in Hlt2. rewrite Hm, N.mul_1_l in Hlt2.
        split; [assumption|]. simpl. lia.
      * intros (bs & Es & HI & Hlt2 & Hlen).
        inversion HI as [b' Hb' Hm E1 E2 | b' bs' w Hb' Hm Hv E1 E2]; subst; simpl in Es; injection Es as -> Er; subst.
        -- lia.
        -- exists bs', w. pose proof (VarTail_len _ _ Hv). change (2 ^ 0) with 1. simpl in Hlen.
           repeat split; auto; lia.
Qed.

(** ** The encoder *)

Lemma encode_int_tail_repr : forall fuel v,
  v < 2 ^ N.of_nat (fuel - 1) -> (1 <= fuel)%nat -> VarTail (encode_int_tail fuel v) v.
Proof.
  induction fuel as [|fuel IH]; intros v Hv Hf; [lia|].
  cbn [encode_int_tail]. destruct (128 <=? v) eqn:E.
  - apply N.leb_le in E.
    assert (Hm : v mod 128 < 128) by (apply N.mod_lt; lia).
    rewrite lor128 by auto.
    pose proof (N.div_mod v 128) as HD.
    replace v with ((v mod 128 + 128 - 128) + 128 * (v / 128)) at 3 by lia.
    apply VT_more; try lia.
    assert (Hf2 : (1 <= fuel)%nat).
    { destruct fuel; [|lia]. simpl in Hv. change (2 ^ 0) with 1 in Hv. lia. }
    apply IH; [|assumption].
    apply N.div_lt_upper_bound; [lia|].
    replace (N.of_nat (S fuel - 1)) with (1 + N.of_nat (fuel - 1)) in Hv by lia.
    rewrite N.pow_add_r in Hv. change (2 ^ 1) with 2 in Hv. lia.
  - apply N.leb_gt in E. unfold w8. rewrite N.mod_small by lia. now constructor.
Qed.

Lemma size_nat_bound v : v < 2 ^ N.of_nat (S (N.size_nat v) - 1).
Proof.
  replace (N.of_nat (S (N.size_nat v) - 1)) with (N.size v).
  - apply N.size_gt.
  - destruct v as [|p]; simpl; [reflexivity|]. rewrite Nat.sub_0_r. induction p; simpl; try lia.
Qed.

(** [pattern] uses only bits above the [n]-bit prefix. *)
Definition high_pattern (n pattern : N) : Prop := pattern < 256 /\ pattern mod 2 ^ n = 0.

Lemma lor_high n p x : high_pattern n p -> x < 2 ^ n -> N.lor p x = p + x.
Proof.
  intros [Hp Hm] Hx. rewrite <- N.lxor_lor, N.add_nocarry_lxor; auto.
  - apply N.bits_inj. intros k. rewrite N.land_spec, N.bits_0.
    destruct (N.lt_ge_cases k n) as [Hk|Hk].
    + replace (N.testbit p k) with false; [reflexivity|].
      rewrite <- (N.mod_pow2_bits_low p n k Hk), Hm. now rewrite N.bits_0.
    + replace (N.testbit x k) with false; [apply andb_false_r|].
      symmetry. destruct (N.eq_dec x 0) as [->|Hx0]; [apply N.bits_0|].
      apply N.bits_above_log2. apply N.log2_lt_pow2 in Hx; lia.
  - apply N.bits_inj. intros k. rewrite N.land_spec, N.bits_0.
    destruct (N.lt_ge_cases k n) as [Hk|Hk].
    + replace (N.testbit p k) with false; [reflexivity|].
      rewrite <- (N.mod_pow2_bits_low p n k Hk), Hm. now rewrite N.bits_0.
    + replace (N.testbit x k) with false; [apply andb_false_r|].
      symmetry. destruct (N.eq_dec x 0) as [->|Hx0]; [apply N.bits_0|].
      apply N.bits_above_log2. apply N.log2_lt_pow2 in Hx; lia.
Qed.

Lemma high_add_lt n p x : n <= 8 -> high_pattern n p -> x < 2 ^ n -> p + x < 256.
Proof.
  intros Hn [Hp Hm] Hx.
  assert (HP : 2 ^ n <> 0) by (apply N.pow_nonzero; lia).
  pose proof (N.div_mod p (2 ^ n) HP) as HD.
  assert (H256 : 256 = 2 ^ n * 2 ^ (8 - n)) by (rewrite <- N.pow_add_r; replace (n + (8 - n)) with 8 by lia; reflexivity).
  assert (p / 2 ^ n < 2 ^ (8 - n)) by (apply N.div_lt_upper_bound; lia).
  nia.
Qed.

Lemma high_add_mod n p x : high_pattern n p -> x < 2 ^ n -> (p + x) mod 2 ^ n = x.
Proof.
  intros [_ Hm] Hx. assert (HP : 2 ^ n <> 0) by (apply N.pow_nonzero; lia).
  rewrite N.add_mod, Hm, N.add_0_l, N.mod_mod, N.mod_small; auto.
Qed.

Lemma encode_integer_repr n p v :
  1 <= n -> n <= 8 -> high_pattern n p -> IntRepr n (encode_integer p n v) v.
Proof.
  intros H1 H8 Hp. unfold encode_integer. rewrite mask_eq by auto.
  assert (H2 : 2 <= 2 ^ n) by (change 2 with (2 ^ 1) at 1; apply N.pow_le_mono_r; lia).
  assert (Hp8 : 2 ^ n <= 2 ^ 8) by (apply N.pow_le_mono_r; lia). change (2 ^ 8) with 256 in Hp8.
  destruct (v <? 2 ^ n - 1) eqn:E.
  - apply N.ltb_lt in E. unfold w8. rewrite N.mod_small by lia. rewrite (lor_high n) by (auto; lia).
    rewrite <- (high_add_mod n p v) at 2 by (auto; lia). apply IR_small.
    + apply (high_add_lt n); auto; lia.
    + rewrite high_add_mod; auto; lia.
  - apply N.ltb_ge in E. rewrite (lor_high n) by (auto; lia).
    replace v with (2 ^ n - 1 + (v - (2 ^ n - 1))) at 3 by lia.
    apply IR_big.
    + apply (high_add_lt n); auto; lia.
    + apply high_add_mod; auto; lia.
    + apply encode_int_tail_repr; [apply size_nat_bound|lia].
Qed.

Lemma VarTail_bytes bs v : VarTail bs v -> bytes_ok bs.
Proof. induction 1; constructor; auto; try lia. Qed.
Lemma IntRepr_bytes n bs v : IntRepr n bs v -> bytes_ok bs.
Proof. destruct 1; constructor; auto; try constructor. eapply VarTail_bytes; eauto. Qed.

Lemma encode_int_tail_len : forall fuel v k, v < 128 ^ N.of_nat k -> (1 <= k)%nat -> (length (encode_int_tail fuel v) <= k)%nat.
Proof.
  induction fuel as [|f IH]; intros v k Hv Hk; simpl; [lia|].
  destruct (128 <=? v) eqn:E; simpl; [|lia].
  apply N.leb_le in E. destruct k as [|[|k]]; [lia| |].
  - change (128 ^ N.of_nat 1) with 128 in Hv. lia.
  - apply le_n_S. apply IH; [|lia]. apply N.div_lt_upper_bound; [lia|].
    replace (N.of_nat (S (S k))) with (1 + N.of_nat (S k)) in Hv by lia. rewrite N.pow_add_r in Hv.
    change (128 ^ 1) with 128 in Hv. assumption.
Qed.

Lemma encode_integer_len n p v : v < 2 ^ 64 -> (length (encode_integer p n v) <= 11)%nat.
Proof.
  intros Hv. unfold encode_integer. destruct (v <? _); simpl; [lia|].
  apply le_n_S. apply (encode_int_tail_len (S _)); [|lia].
  eapply N.le_lt_trans; [apply N.le_sub_l|]. eapply N.lt_trans; [eassumption|]. reflexivity.
Qed.

Lemma encode_integer_nonempty p n v : exists b r, encode_integer p n v = b :: r.
Proof. unfold encode_integer. destruct (v <? _); eauto. Qed.

Theorem decode_encode_integer n p v rest :
  1 <= n -> n <= 8 -> high_pattern n p -> v < 2 ^ 64 -> bytes_ok rest ->
  decode_integer n (encode_integer p n v ++ rest) = Some (v, rest).
Proof.
  intros H1 H8 Hp Hv Hr. pose proof (encode_integer_repr n p v H1 H8 Hp) as HI.
  apply decode_integer_spec; auto.
  - apply Forall_app. split; [eapply IntRepr_bytes; eauto|assumption].
  - exists (encode_integer p n v). repeat split; auto. now apply encode_integer_len.
Qed.

(** The first byte carries the pattern. *)
Lemma encode_integer_first n p v : 1 <= n -> n <= 8 -> high_pattern n p ->
  exists b r, encode_integer p n v = b :: r /\ p <= b /\ b < p + 2 ^ n.
Proof.
  intros H1 H8 Hp. unfold encode_integer. rewrite mask_eq by auto.
  assert (H2 : 2 <= 2 ^ n) by (change 2 with (2 ^ 1) at 1; apply N.pow_le_mono_r; lia).
  assert (Hp8 : 2 ^ n <= 2 ^ 8) by (apply N.pow_le_mono_r; lia). change (2 ^ 8) with 256 in Hp8.
  destruct (v <? 2 ^ n - 1) eqn:E.
  - apply N.ltb_lt in E. unfold w8. rewrite N.mod_small by lia. rewrite (lor_high n) by (auto; lia).
    exists (p + v), []. repeat split; lia.
  - rewrite (lor_high n) by (auto; lia). eexists _, _. split; [reflexivity|]. lia.
Qed.

(** Representations are unique up to length and trailing zero groups; a decoder therefore needs
    determinism of reading only. *)
Lemma VarTail_det : forall bs v rest bs' v' rest',
  VarTail bs v -> VarTail bs' v' -> bs ++ rest = bs' ++ rest' -> bs = bs' /\ v = v' /\ rest = rest'.
Proof.
  intros bs v rest bs' v' rest' H; revert rest bs' v' rest'. induction H as [b Hb|b bs v Hlo Hhi H IH];
    intros rest bs' v' rest' H' E; inversion H' as [b' Hb' E1 E2|b' bs2 v2 Hlo' Hhi' H2 E1 E2]; subst; simpl in E;
    injection E as -> E; try lia.
  - auto.
  - destruct (IH _ _ _ _ H2 E) as (-> & -> & ->). auto.
Qed.

Lemma IntRepr_det n : forall bs v rest bs' v' rest',
  IntRepr n bs v -> IntRepr n bs' v' -> bs ++ rest = bs' ++ rest' -> bs = bs' /\ v = v' /\ rest = rest'.
Proof.
  intros bs v rest bs' v' rest' H H' E.
  destruct H as [b Hb Hm|b bs v Hb Hm Hv]; destruct H' as [b' Hb' Hm'|b' bs2 v2 Hb' Hm' Hv']; simpl in E; injection E as -> E; try lia.
  - auto.
  - destruct (VarTail_det _ _ _ _ _ _ Hv Hv' E) as (-> & -> & ->). auto.
Qed.
