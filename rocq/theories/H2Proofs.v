(** Lemmas about the HTTP/2 frame layer. *)
From Verif Require Import Base H2Model H2Spec.
Local Open Scope N_scope.

(** ** Octets *)
Lemma octet_eq v k : octet v k = v / 256 ^ k mod 256.
Proof.
  unfold octet. change 255 with (N.ones 8). rewrite N.land_ones, N.shiftr_div_pow2, N.pow_mul_r. reflexivity.
Qed.

Lemma octet_lt v k : octet v k < 256.
Proof. rewrite octet_eq. apply N.mod_lt. discriminate. Qed.

Lemma lor_shift a b k : a < 2 ^ k -> N.lor (N.shiftl b k) a = b * 2 ^ k + a.
Proof.
  intros H. rewrite N.shiftl_mul_pow2. rewrite <- N.lxor_lor, <- N.add_nocarry_lxor; auto.
  - apply N.bits_inj_iff. intros i. rewrite N.land_spec, N.bits_0.
    destruct (N.lt_ge_cases i k) as [L|G].
    + rewrite N.mul_pow2_bits_low by auto. reflexivity.
    + destruct (N.eq_dec a 0) as [->|Ha]; [rewrite N.bits_0; apply andb_false_r|].
      rewrite (N.bits_above_log2 a i); [apply andb_false_r|].
      apply N.lt_le_trans with k; auto. apply N.log2_lt_pow2; lia.
  - apply N.bits_inj_iff. intros i. rewrite N.land_spec, N.bits_0.
    destruct (N.lt_ge_cases i k) as [L|G].
    + rewrite N.mul_pow2_bits_low by auto. reflexivity.
    + destruct (N.eq_dec a 0) as [->|Ha]; [rewrite N.bits_0; apply andb_false_r|].
      rewrite (N.bits_above_log2 a i); [apply andb_false_r|].
      apply N.lt_le_trans with k; auto. apply N.log2_lt_pow2; lia.
Qed.

Lemma val16 a b : a < 256 -> b < 256 -> N.lor (N.shiftl a 8) b = be_val [a; b].
Proof. intros. rewrite lor_shift by (cbn; lia). cbn. lia. Qed.

Lemma val24 a b c : a < 256 -> b < 256 -> c < 256 ->
  N.lor (N.lor (N.shiftl a 16) (N.shiftl b 8)) c = be_val [a; b; c].
Proof.
  intros. rewrite <- N.lor_assoc, (lor_shift c b 8) by (cbn; lia). rewrite lor_shift by (cbn; lia). cbn. lia.
Qed.

Lemma val32 a b c d : a < 256 -> b < 256 -> c < 256 -> d < 256 ->
  N.lor (N.lor (N.lor (N.shiftl a 24) (N.shiftl b 16)) (N.shiftl c 8)) d = be_val [a; b; c; d].
Proof.
  intros. rewrite <- !N.lor_assoc, (lor_shift d c 8) by (cbn; lia). rewrite (lor_shift _ b 16) by (cbn; lia).
  rewrite lor_shift by (cbn; lia). cbn. lia.
Qed.

Lemma val31 a b c d : a < 256 -> b < 256 -> c < 256 -> d < 256 ->
  N.lor (N.lor (N.lor (N.shiftl (N.land a 127) 24) (N.shiftl b 16)) (N.shiftl c 8)) d = be_val [a; b; c; d] mod 2 ^ 31.
Proof.
  intros. change 127 with (N.ones 7). rewrite N.land_ones. change (2 ^ 7) with 128.
  assert (a mod 128 < 128) by (apply N.mod_lt; discriminate).
  rewrite val32 by lia. cbn. rewrite (N.div_mod a 128) at 2 by discriminate.
  generalize (a / 128) (a mod 128) H3. intros q r Hr.
  change (256 ^ N.of_nat 3) with 16777216. change (256 ^ N.of_nat 2) with 65536.
  change (256 ^ N.of_nat 1) with 256. change (256 ^ N.of_nat 0) with 1. change (2 ^ 31) with 2147483648.
  apply (N.mod_unique _ _ q); lia.
Qed.

Lemma be32_len v : length (be32 v) = 4%nat. Proof. reflexivity. Qed.

Lemma be32_bytes v : bytes_ok (be32 v).
Proof. repeat constructor; apply octet_lt. Qed.

Lemma split_octets v : v = 256 * (v / 256) + v mod 256.
Proof. apply N.div_mod. discriminate. Qed.

Lemma be32_val v : v < 2 ^ 32 -> be_val (be32 v) = v.
Proof.
  intros H. change (2 ^ 32) with 4294967296 in H. unfold be32. rewrite !octet_eq. cbn [be_val length].
  change (256 ^ 0) with 1. change (256 ^ N.of_nat 3) with 16777216. change (256 ^ N.of_nat 2) with 65536.
  change (256 ^ N.of_nat 1) with 256. change (256 ^ N.of_nat 0) with 1.
  change (256 ^ 3) with (256 * 256 * 256). change (256 ^ 2) with (256 * 256). change (256 ^ 1) with 256.
  rewrite <- !N.div_div by discriminate. rewrite N.div_1_r.
  pose proof (split_octets v) as E0. pose proof (split_octets (v / 256)) as E1. pose proof (split_octets (v / 256 / 256)) as E2.
  pose proof (split_octets (v / 256 / 256 / 256)) as E3.
  generalize dependent (v mod 256). intros m0 E0. generalize dependent (v / 256). intros q0.
  generalize (q0 mod 256). intros m1. generalize (q0 / 256). intros q1. generalize (q1 mod 256). intros m2.
  generalize (q1 / 256). intros q2. generalize (q2 mod 256). intros m3. generalize (q2 / 256). intros. lia.
Qed.

Lemma be16_val v : v < 2 ^ 16 -> be_val (be16 v) = v.
Proof.
  intros H. change (2 ^ 16) with 65536 in H. unfold be16. rewrite !octet_eq. cbn [be_val length].
  change (256 ^ N.of_nat 1) with 256. change (256 ^ N.of_nat 0) with 1. change (256 ^ 1) with 256. change (256 ^ 0) with 1.
  rewrite N.div_1_r. pose proof (split_octets v) as E0. pose proof (split_octets (v / 256)) as E1.
  generalize dependent (v mod 256). intros m0 E0. generalize dependent (v / 256). intros q0.
  generalize (q0 mod 256). intros m1. generalize (q0 / 256). intros. lia.
Qed.

Lemma land31 v : v < 2 ^ 31 -> N.land v 2147483647 = v.
Proof. intros. change 2147483647 with (N.ones 31). rewrite N.land_ones. now apply N.mod_small. Qed.

Lemma be_val_lt l : bytes_ok l -> be_val l < 256 ^ N.of_nat (length l).
Proof.
  induction 1 as [|b l Hb _ IH]; [reflexivity|]. cbn [be_val length]. rewrite Nat2N.inj_succ, N.pow_succ_r'.
  set (p := 256 ^ N.of_nat (length l)) in *. nia.
Qed.

Lemma app_inj_len {A} (a b c d : list A) : a ++ b = c ++ d -> length a = length c -> a = c /\ b = d.
Proof.
  revert c; induction a as [|x a IH]; intros [|y c] E L; try discriminate; auto.
  simpl in *. injection E as -> E. injection L as L. destruct (IH c E L) as [-> ->]. auto.
Qed.

(** ** Flags *)
Lemma testbit_flag fl k : has_flag fl (2 ^ k) = N.testbit fl k.
Proof.
  unfold has_flag. destruct (N.testbit fl k) eqn:E.
  - apply negb_true_iff, N.eqb_neq. intros H. apply N.bits_inj_iff in H. specialize (H k).
    rewrite N.land_spec, N.pow2_bits_true, N.bits_0, E in H. discriminate.
  - apply negb_false_iff, N.eqb_eq. apply N.bits_inj_iff. intros i. rewrite N.land_spec, N.bits_0.
    destruct (N.eq_dec i k) as [->|Hne]; [rewrite E; reflexivity|]. rewrite N.pow2_bits_false by congruence. apply andb_false_r.
Qed.
Lemma flag_ack fl : has_flag fl FLAG_ACK = N.testbit fl 0. Proof. apply (testbit_flag fl 0). Qed.
Lemma flag_end_headers fl : has_flag fl FLAG_END_HEADERS = N.testbit fl 2. Proof. apply (testbit_flag fl 2). Qed.
Lemma flag_padded fl : has_flag fl FLAG_PADDED = N.testbit fl 3. Proof. apply (testbit_flag fl 3). Qed.
Lemma flag_priority fl : has_flag fl FLAG_PRIORITY = N.testbit fl 5. Proof. apply (testbit_flag fl 5). Qed.

(** ** Reads *)
Lemma bytes_nth l i b : bytes_ok l -> nth_error l i = Some b -> b < 256.
Proof. intros H E. apply nth_error_In in E. unfold bytes_ok in H. rewrite Forall_forall in H. auto. Qed.

Lemma slice_some l off n : off + n <= N.of_nat (length l) ->
  exists a m b, l = a ++ m ++ b /\ slice l off n = Some m /\ N.of_nat (length a) = off /\ N.of_nat (length m) = n.
Proof.
  intros H. unfold slice. assert (off + n <=? N.of_nat (length l) = true) as -> by (apply N.leb_le; lia).
  exists (firstn (N.to_nat off) l), (firstn (N.to_nat n) (skipn (N.to_nat off) l)), (skipn (N.to_nat n) (skipn (N.to_nat off) l)).
  rewrite !firstn_skipn. repeat split; [rewrite firstn_length|rewrite firstn_length, skipn_length]; lia.
Qed.

Lemma slice_none l off n : slice l off n = None <-> N.of_nat (length l) < off + n.
Proof.
  unfold slice. destruct (_ <=? _) eqn:E; [apply N.leb_le in E|apply N.leb_gt in E]; split; intros; try discriminate; auto; lia.
Qed.

(** Parsing a list as four octets plus a rest at an offset. *)
Lemma rd_at a x r : rd (a ++ x :: r) (N.of_nat (length a)) = Some x.
Proof. unfold rd. rewrite Nat2N.id, nth_error_app2, Nat.sub_diag by lia. reflexivity. Qed.

Lemma rd_plus a l k : rd (a ++ l) (N.of_nat (length a) + k) = rd l k.
Proof. unfold rd. rewrite nth_error_app2 by lia. f_equal. lia. Qed.
Lemma rd_plus0 a l : rd (a ++ l) (N.of_nat (length a)) = rd l 0.
Proof. rewrite <- (rd_plus a l 0). f_equal. lia. Qed.

Lemma rd32_plus a l : rd32 (a ++ l) (N.of_nat (length a)) = rd32 l 0.
Proof. unfold rd32. rewrite !rd_plus, rd_plus0. reflexivity. Qed.
Lemma rd31_plus a l : rd31 (a ++ l) (N.of_nat (length a)) = rd31 l 0.
Proof. unfold rd31. rewrite !rd_plus, rd_plus0. reflexivity. Qed.
Lemma rd16_plus a l : rd16 (a ++ l) (N.of_nat (length a)) = rd16 l 0.
Proof. unfold rd16. rewrite !rd_plus, rd_plus0. reflexivity. Qed.

Ltac inv4 H := let H1 := fresh "I1" in let H2 := fresh "I2" in let H3 := fresh "I3" in
  inversion H as [|? ? ? H1]; subst; inversion H1 as [|? ? ? H2]; subst; inversion H2 as [|? ? ? H3]; subst; inversion H3; subst.

Lemma rd32_at a w x y z r : bytes_ok [w; x; y; z] -> rd32 (a ++ w :: x :: y :: z :: r) (N.of_nat (length a)) = Some (be_val [w; x; y; z]).
Proof. intros H. inv4 H. rewrite rd32_plus. unfold rd32, rd. cbn [nth_error N.add N.to_nat Pos.to_nat Pos.iter_op Nat.add].
  change (N.to_nat 0) with 0%nat. change (N.to_nat (0 + 1)) with 1%nat. change (N.to_nat (0 + 2)) with 2%nat. change (N.to_nat (0 + 3)) with 3%nat.
  cbn [nth_error]. now rewrite val32. Qed.

Lemma rd31_at a w x y z r : bytes_ok [w; x; y; z] -> rd31 (a ++ w :: x :: y :: z :: r) (N.of_nat (length a)) = Some (be_val [w; x; y; z] mod 2 ^ 31).
Proof. intros H. inv4 H. rewrite rd31_plus. unfold rd31, rd.
  change (N.to_nat 0) with 0%nat. change (N.to_nat (0 + 1)) with 1%nat. change (N.to_nat (0 + 2)) with 2%nat. change (N.to_nat (0 + 3)) with 3%nat.
  cbn [nth_error]. now rewrite val31. Qed.

Lemma rd16_at a w x r : bytes_ok [w; x] -> rd16 (a ++ w :: x :: r) (N.of_nat (length a)) = Some (be_val [w; x]).
Proof.
  intros H. inversion H as [|? ? Hw H1]; subst. inversion H1 as [|? ? Hx _]; subst. rewrite rd16_plus. unfold rd16, rd.
  change (N.to_nat 0) with 0%nat. change (N.to_nat (0 + 1)) with 1%nat. cbn [nth_error]. now rewrite val16.
Qed.

Lemma len4 {A} (l : list A) : length l = 4%nat -> exists a b c d, l = [a; b; c; d].
Proof. destruct l as [|a [|b [|c [|d [|e r]]]]]; try discriminate. eauto. Qed.
Lemma len2 {A} (l : list A) : length l = 2%nat -> exists a b, l = [a; b].
Proof. destruct l as [|a [|b [|e r]]]; try discriminate. eauto. Qed.
Lemma len3 {A} (l : list A) : length l = 3%nat -> exists a b c, l = [a; b; c].
Proof. destruct l as [|a [|b [|c [|e r]]]]; try discriminate. eauto. Qed.

Lemma szsub_small a b : b <= a -> a < 2 ^ 64 -> szsub a b = a - b.
Proof.
  intros H Ha. unfold szsub. replace (a + 2 ^ 64 - b) with (a - b + 1 * 2 ^ 64) by lia.
  rewrite N.mod_add by (cbn; discriminate). apply N.mod_small. lia.
Qed.

Lemma split_at {A} (l : list A) n : (n <= length l)%nat -> exists a b, l = a ++ b /\ length a = n.
Proof. intros H. exists (firstn n l), (skipn n l). now rewrite firstn_skipn, firstn_length_le. Qed.

Lemma split_end {A} (l : list A) n : (n <= length l)%nat -> exists a b, l = a ++ b /\ length b = n.
Proof. intros H. exists (firstn (length l - n) l), (skipn (length l - n) l). rewrite firstn_skipn, skipn_length. split; [auto|lia]. Qed.

(** Slices computed on an explicit decomposition. *)
Lemma slice_app a m b : slice (a ++ m ++ b) (N.of_nat (length a)) (N.of_nat (length m)) = Some m.
Proof.
  unfold slice. rewrite !app_length. assert (_ <=? _ = true) as -> by (apply N.leb_le; lia).
  rewrite !Nat2N.id, skipn_length_app, firstn_length_app. reflexivity.
Qed.
Lemma slice_app' a m b off n : off = N.of_nat (length a) -> n = N.of_nat (length m) -> slice (a ++ m ++ b) off n = Some m.
Proof. intros -> ->. apply slice_app. Qed.

Lemma slice_eq l a m b off n : l = a ++ m ++ b -> off = N.of_nat (length a) -> n = N.of_nat (length m) -> slice l off n = Some m.
Proof. intros ->. apply slice_app'. Qed.

(** ** validate_padded + the flag test = the Padded format *)
Definition pad_step (fl : N) (l : list N) : option (N + N * N * N) :=
  if has_flag fl FLAG_PADDED then validate_padded l 0 (N.of_nat (length l)) else Some (inr (0, 0, N.of_nat (length l))).

Lemma pad_step_cases fl l :
  (* malformed *)
  (exists e, pad_step fl l = Some (inl e) /\ (e = 6 /\ l = [] \/ e = 1 /\ padded fl /\ exists n r, l = n :: r /\ N.of_nat (length r) < n) /\
     forall i n, ~ Padded fl l i n) \/
  (* [l] is prefix ++ inner ++ padding *)
  (exists pre inner padding pad, l = pre ++ inner ++ padding /\ N.of_nat (length padding) = pad /\
     pad_step fl l = Some (inr (pad, N.of_nat (length pre), N.of_nat (length inner + length padding))) /\
     Padded fl l inner (N.of_nat (length pre + length padding)) /\
     (length pre = if N.testbit fl 3 then 1 else 0)%nat /\ (N.testbit fl 3 = false -> padding = []) /\
     (forall i n, Padded fl l i n -> i = inner /\ n = N.of_nat (length pre + length padding)) /\
     (padded fl -> forall n r, l = n :: r -> n <= N.of_nat (length r))).
Proof.
  unfold pad_step. rewrite flag_padded. destruct (N.testbit fl 3) eqn:EF.
  - unfold validate_padded. destruct l as [|pad l'].
    + left. exists 6. split; [reflexivity|]. split; [auto|]. intros i n H. inversion H; subst. unfold padded in *. congruence.
    + change (N.of_nat (length (pad :: l')) =? 0) with false. unfold rd. change (N.to_nat 0) with 0%nat. cbn [nth_error].
      replace (N.of_nat (length (pad :: l')) - 1) with (N.of_nat (length l')) by (cbn [length]; lia).
      destruct (N.of_nat (length l') <? pad) eqn:EL.
      * left. apply N.ltb_lt in EL. exists 1. split; [reflexivity|]. split; [right; split; [auto|]; split; [exact EF|]; eauto|].
        intros i n H. inversion H; subst; [|unfold padded in *; congruence]. rewrite app_length in EL. lia.
      * right. apply N.ltb_ge in EL. destruct (split_end l' (N.to_nat pad)) as (inner & padding & -> & HL); [lia|].
        exists [pad], inner, padding, pad. split; [reflexivity|]. split; [lia|].
        split; [rewrite app_length; reflexivity|]. split.
        { replace (N.of_nat (length [pad] + length padding)) with (1 + pad) by (cbn [length]; lia).
          constructor; [exact EF|lia]. }
        split; [reflexivity|]. split; [discriminate|].
        split; [|intros _ n r E; injection E as <- <-; lia]. intros i n H. inversion H as [n0 i0 p0 Hp Hl E|i0 Hp E]; subst; [|unfold padded in *; congruence].
        assert (HLL : length i = length inner).
        { match goal with E : i ++ p0 = inner ++ padding |- _ => apply (f_equal (@length N)) in E; rewrite !app_length in E; lia end. }
        match goal with E : i ++ p0 = inner ++ padding |- _ => apply app_inj_len in E; auto; destruct E as [-> ->] end.
        split; [reflexivity|]. cbn [length]. lia.
  - right. exists [], l, [], 0. rewrite app_nil_r. split; [reflexivity|]. split; [reflexivity|]. split; [rewrite Nat.add_0_r; reflexivity|].
    split; [constructor; unfold padded; congruence|]. split; [reflexivity|]. split; [auto|].
    split; [|unfold padded; congruence].
    intros i n H. inversion H; subst; [unfold padded in *; congruence|auto].
Qed.

(** ** Each parser is exact for its format *)
Definition exact (ty fl : N) (l : list N) (r : parsed) : Prop :=
  (exists p, r = POk p /\ PayloadOf ty fl l p /\ (forall p', PayloadOf ty fl l p' -> p' = p) /\ ~ ProtocolMalformed ty fl l) \/
  (exists e, r = PErr e /\ (forall p, ~ PayloadOf ty fl l p) /\
     (e = 1 /\ ProtocolMalformed ty fl l \/ e = 6 /\ ~ ProtocolMalformed ty fl l)).

Lemma len_lt (l : list N) : N.of_nat (length l) < 2 ^ 32 -> N.of_nat (length l) < 2 ^ 64.
Proof. change (2 ^ 32) with 4294967296. change (2 ^ 64) with 18446744073709551616. lia. Qed.

Lemma not_malformed_pad ty fl l : ty <> 8 -> (padded fl -> forall n r, l = n :: r -> n <= N.of_nat (length r)) -> ~ ProtocolMalformed ty fl l.
Proof. intros Ht H M. inversion M as [n r _ Hp Hn|]; subst; [|lia]. specialize (H Hp n r eq_refl). lia. Qed.

Lemma not_malformed_other ty fl l : ty <> 0 -> ty <> 1 -> ty <> 5 -> ty <> 8 -> ~ ProtocolMalformed ty fl l.
Proof. intros ? ? ? ? M. inversion M; subst; lia. Qed.

Lemma parse_data_exact h l : l <> [] -> N.of_nat (length l) < 2 ^ 32 -> exact 0 (h_flags h) l (parse_data h l).
Proof.
  intros Hne HL. apply len_lt in HL.
  assert (E : parse_data h l = opt_parsed (pad_step (h_flags h) l) (fun r => match r with inl e => PErr e
      | inr (pad, off, p_len) => opt_parsed (slice l off (szsub p_len pad)) (fun d => POk (PData d (if N.testbit (h_flags h) 3 then 1 + pad else 0))) end)).
  { unfold parse_data, pad_step. rewrite flag_padded. destruct (N.testbit (h_flags h) 3); [reflexivity|]. cbn [opt_parsed].
    rewrite szsub_small by lia. rewrite N.sub_0_r. reflexivity. }
  rewrite E; clear E.
  destruct (pad_step_cases (h_flags h) l) as [(e & -> & He & Hno)|(pre & inner & padding & pad & El & Hp & -> & HP & Hpre & Hnp & Huniq & Hbad)].
  - right. exists e. split; [reflexivity|]. split; [intros p H; inversion H; subst; eapply Hno; eauto|].
    destruct He as [[_ He]|(-> & Hpd & n & r & -> & Hn)]; [congruence|]. left. split; auto. constructor; auto.
  - left. cbn [opt_parsed]. rewrite szsub_small; [|lia|].
    2:{ rewrite El, !app_length in HL. lia. }
    replace (N.of_nat (length inner + length padding) - pad) with (N.of_nat (length inner)) by lia.
    subst l. rewrite slice_app. cbn [opt_parsed].
    replace (if N.testbit (h_flags h) 3 then 1 + pad else 0) with (N.of_nat (length pre + length padding)).
    2:{ destruct (N.testbit (h_flags h) 3); [lia|]. rewrite Hpre, (Hnp eq_refl). reflexivity. }
    eexists. split; [reflexivity|]. split; [constructor; auto|]. split.
    + intros p' H. inversion H; subst. match goal with X : Padded _ _ _ _ |- _ => apply Huniq in X as [-> ->] end. reflexivity.
    + apply not_malformed_pad; [discriminate|]. intros Hpd n r E. apply (Hbad Hpd n r E).
Qed.

Lemma read_prio_at a w x y z u r : bytes_ok [w; x; y; z; u] ->
  exists p, read_prio (a ++ w :: x :: y :: z :: u :: r) (N.of_nat (length a)) = Some p /\ PrioLayout [w; x; y; z; u] p.
Proof.
  intros H. assert (H4 : bytes_ok [w; x; y; z]) by (apply (Forall_app (fun b => b < 256) [w; x; y; z] [u]) in H; tauto).
  unfold read_prio. rewrite rd32_at by auto. rewrite rd_plus. change (rd (w :: x :: y :: z :: u :: r) 4) with (Some u).
  eexists. split; [reflexivity|]. exists [w; x; y; z]. cbn [p_weight p_dep p_excl].
  pose proof (be_val_lt _ H4) as HV. change (256 ^ N.of_nat (length [w; x; y; z])) with 4294967296 in HV.
  set (v := be_val [w; x; y; z]) in *.
  change 2147483647 with (N.ones 31). rewrite N.land_ones. change (N.land (N.shiftr v 31) 1) with (N.land (N.shiftr v 31) (N.ones 1)).
  rewrite N.land_ones, N.shiftr_div_pow2.
  change (2 ^ 31) with 2147483648. change (2 ^ 1) with 2.
  pose proof (N.div_mod v 2147483648) as E. pose proof (N.mod_lt v 2147483648).
  split; [reflexivity|]. split; [reflexivity|]. split; [lia|].
  assert (Hq : v / 2147483648 < 2) by (apply N.div_lt_upper_bound; lia).
  rewrite (N.mod_small _ 2) by lia. destruct (N.eqb_spec (v / 2147483648) 1); lia.
Qed.

Lemma PrioLayout_inj b p q : PrioLayout b p -> PrioLayout b q -> p = q.
Proof.
  intros (d & E1 & L1 & B1 & V1) (d' & E2 & L2 & B2 & V2). rewrite E1 in E2. apply app_inj_len in E2 as [-> E2]; [|congruence].
  injection E2 as Ew. destruct p as [d1 w1 e1], q as [d2 w2 e2]. cbn [p_dep p_weight p_excl] in *. subst w2.
  rewrite V1 in V2. destruct e1, e2; try (exfalso; lia); f_equal; lia.
Qed.
Lemma PrioLayout_len b p : PrioLayout b p -> length b = 5%nat.
Proof. intros (d & -> & L & _). rewrite app_length, L. reflexivity. Qed.

Lemma len5 {A} (l : list A) : length l = 5%nat -> exists a b c d e, l = [a; b; c; d; e].
Proof. destruct l as [|a [|b [|c [|d [|e [|f r]]]]]]; try discriminate. intros. now exists a, b, c, d, e. Qed.
Lemma bytes_ok_mid a m b : bytes_ok (a ++ m ++ b) -> bytes_ok m.
Proof. unfold bytes_ok. rewrite !Forall_app. tauto. Qed.

Lemma parse_headers_exact h l : bytes_ok l -> l <> [] -> N.of_nat (length l) < 2 ^ 32 -> exact 1 (h_flags h) l (parse_headers h l).
Proof.
  intros Hb Hne HL. apply len_lt in HL. unfold parse_headers. rewrite flag_priority. fold (pad_step (h_flags h) l).
  destruct (pad_step_cases (h_flags h) l) as [(e & -> & He & Hno)|(pre & inner & padding & pad & El & Hp & -> & HP & Hpre & Hnp & Huniq & Hbad)]; cbn [opt_parsed].
  - right. exists e. split; [reflexivity|]. split; [intros p H; inversion H; subst; eapply Hno; eauto|].
    destruct He as [[_ He]|(-> & Hpd & n & r & -> & Hn)]; [congruence|]. left. split; auto. constructor; auto.
  - assert (HM : ~ ProtocolMalformed 1 (h_flags h) l) by (apply not_malformed_pad; [discriminate|exact Hbad]).
    assert (HL' : N.of_nat (length inner + length padding) < 2 ^ 64) by (rewrite El, !app_length in HL; lia).
    destruct (N.testbit (h_flags h) 5) eqn:EP.
    + destruct (_ <? _) eqn:E5; [apply N.ltb_lt in E5|apply N.ltb_ge in E5].
      * right. exists 6. split; [reflexivity|]. split; [|auto]. intros p H. inversion H; subst; unfold priority in *; try congruence.
        match goal with X : Padded _ _ _ _, Y : PrioLayout _ _ |- _ => apply Huniq in X as [<- _]; apply PrioLayout_len in Y end.
        rewrite !app_length in E5. lia.
      * left. destruct (split_at inner 5) as (pb & frag & -> & L5); [lia|]. destruct (len5 _ L5) as (w & x & y & z & u & ->).
        assert (Hpb : bytes_ok [w; x; y; z; u]) by (subst l; apply (bytes_ok_mid pre _ (frag ++ padding)); rewrite <- app_assoc in Hb; exact Hb).
        destruct (read_prio_at pre w x y z u (frag ++ padding) Hpb) as (p & Ep & Lp).
        assert (El' : l = (pre ++ [w; x; y; z; u]) ++ frag ++ padding) by (rewrite El, <- !app_assoc; reflexivity).
        replace (read_prio l (N.of_nat (length pre))) with (Some p) by (rewrite <- Ep, El'; rewrite <- app_assoc; reflexivity). cbn [opt_parsed].
        rewrite !app_length in *. cbn [length] in *. rewrite (szsub_small _ 5) by lia. rewrite szsub_small by lia.
        rewrite (slice_eq l (pre ++ [w; x; y; z; u]) frag padding _ _ El'); [|rewrite app_length; cbn [length]; lia|lia].
        cbn [opt_parsed]. eexists. split; [reflexivity|]. split; [econstructor; eauto|]. split; [|auto].
        intros p' H. inversion H; subst; unfold priority in *; try congruence.
        match goal with X : Padded _ _ (?q ++ ?f) _, Y : PrioLayout ?q _ |- _ => apply Huniq in X as [X _]; apply app_inj_len in X;
          [destruct X as [-> ->]; rewrite (PrioLayout_inj _ _ _ Y Lp); reflexivity|rewrite (PrioLayout_len _ _ Y); reflexivity] end.
    + left. rewrite szsub_small by lia. rewrite (slice_eq l pre inner padding _ _ El) by lia. cbn [opt_parsed].
      eexists. split; [reflexivity|]. split; [econstructor; eauto; unfold priority; congruence|]. split; [|auto].
      intros p' H. inversion H; subst; unfold priority in *; try congruence.
      match goal with X : Padded _ _ _ _ |- _ => apply Huniq in X as [-> _] end. reflexivity.
Qed.

Lemma parse_priority_exact fl l : bytes_ok l -> exact 2 fl l (parse_priority l).
Proof.
  intros Hb. unfold parse_priority. destruct (N.eqb_spec 5 (N.of_nat (length l))) as [E|E]; cbn [negb].
  - left. assert (L5 : length l = 5%nat) by lia. destruct (len5 _ L5) as (w & x & y & z & u & ->).
    destruct (read_prio_at [] w x y z u [] Hb) as (p & Ep & Lp). cbn [app length] in Ep. change (N.of_nat 0) with 0 in Ep. rewrite Ep.
    cbn [opt_parsed]. eexists. split; [reflexivity|]. split; [constructor; auto|]. split; [|apply not_malformed_other; discriminate].
    intros p' H. inversion H; subst. f_equal. eapply PrioLayout_inj; eauto.
  - right. exists 6. split; [reflexivity|]. split; [|right; split; [auto|apply not_malformed_other; discriminate]].
    intros p H. inversion H; subst. apply E. match goal with X : PrioLayout _ _ |- _ => rewrite (PrioLayout_len _ _ X) end. reflexivity.
Qed.

Lemma parse_rst_exact fl l : bytes_ok l -> exact 3 fl l (parse_rst l).
Proof.
  intros Hb. unfold parse_rst. destruct (N.eqb_spec 4 (N.of_nat (length l))) as [E|E]; cbn [negb].
  - left. assert (L5 : length l = 4%nat) by lia. destruct (len4 _ L5) as (w & x & y & z & ->).
    pose proof (rd32_at [] w x y z [] Hb) as Ep. cbn [app length] in Ep. change (N.of_nat 0) with 0 in Ep. rewrite Ep.
    cbn [opt_parsed]. eexists. split; [reflexivity|]. split; [constructor; auto|]. split; [|apply not_malformed_other; discriminate].
    intros p' H. inversion H; subst. reflexivity.
  - right. exists 6. split; [reflexivity|]. split; [|right; split; [auto|apply not_malformed_other; discriminate]].
    intros p H. inversion H; subst. lia.
Qed.

Lemma read_settings_ok k a l r : length l = (6 * k)%nat -> bytes_ok l ->
  exists es, read_settings k (a ++ l ++ r) (N.of_nat (length a)) = Some es /\ SettingsLayout l es.
Proof.
  revert a l; induction k as [|k IH]; intros a l L Hb.
  - destruct l; [|discriminate]. exists []. split; [reflexivity|constructor].
  - destruct (split_at l 2) as (ib & l1 & -> & L2); [lia|]. rewrite app_length in L.
    destruct (split_at l1 4) as (vb & l2 & -> & L4); [lia|]. rewrite app_length in L.
    destruct (len2 _ L2) as (i & j & ->). destruct (len4 _ L4) as (w & x & y & z & ->).
    unfold bytes_ok in Hb. apply Forall_app in Hb as [Hi Hb]. apply Forall_app in Hb as [Hv Hb].
    destruct (IH (a ++ [i; j] ++ [w; x; y; z]) l2) as (es & Ees & Les); [lia|exact Hb|].
    exists ((be_val [i; j], be_val [w; x; y; z]) :: es). split; [|constructor; auto].
    cbn [read_settings]. replace (a ++ ([i; j] ++ [w; x; y; z] ++ l2) ++ r) with (a ++ i :: j :: w :: x :: y :: z :: l2 ++ r) by (rewrite <- !app_assoc; reflexivity).
    rewrite rd16_at by exact Hi.
    replace (rd32 (a ++ i :: j :: w :: x :: y :: z :: l2 ++ r) (N.of_nat (length a) + 2)) with (Some (be_val [w; x; y; z])).
    2:{ rewrite <- (rd32_at (a ++ [i; j]) w x y z (l2 ++ r) Hv). rewrite <- app_assoc. f_equal. rewrite app_length. cbn [length]. lia. }
    replace (read_settings k (a ++ i :: j :: w :: x :: y :: z :: l2 ++ r) (N.of_nat (length a) + 6)) with (Some es); [reflexivity|].
    rewrite <- Ees. rewrite <- !app_assoc. f_equal. rewrite !app_length. cbn [length]. lia.
Qed.

Lemma SettingsLayout_len l es : SettingsLayout l es -> length l = (6 * length es)%nat.
Proof. induction 1; [reflexivity|]. rewrite !app_length. cbn [length]. lia. Qed.
Lemma SettingsLayout_inj l es : SettingsLayout l es -> forall es', SettingsLayout l es' -> es' = es.
Proof.
  induction 1 as [|ib vb rest es L2 L4 H IH]; intros es' H'.
  - apply SettingsLayout_len in H'. destruct es'; [reflexivity|discriminate].
  - inversion H' as [E|ib' vb' rest' es0 L2' L4' H0 E Ee].
    + exfalso. apply (f_equal (@length N)) in E. rewrite !app_length in E. cbn in E. lia.
    + apply app_inj_len in E as [-> E]; [|lia]. apply app_inj_len in E as [-> ->]; [|lia]. f_equal. auto.
Qed.

Lemma parse_settings_exact h l : bytes_ok l -> l <> [] -> exact 4 (h_flags h) l (parse_settings h l).
Proof.
  intros Hb Hne. unfold parse_settings. rewrite flag_ack. destruct (N.testbit (h_flags h) 0) eqn:EA.
  - right. exists 6. split; [reflexivity|]. split; [|right; split; [auto|apply not_malformed_other; discriminate]].
    intros p H. inversion H; subst; unfold ack in *; congruence.
  - destruct (N.eqb_spec (N.of_nat (length l) mod 6) 0) as [E|E]; cbn [negb].
    + left. set (q := N.of_nat (length l) / 6). assert (Hq : length l = (6 * N.to_nat q)%nat).
      { pose proof (N.div_mod (N.of_nat (length l)) 6). subst q. lia. }
      destruct (read_settings_ok (N.to_nat q) [] l [] Hq Hb) as (es & Ees & Les). rewrite app_nil_r in Ees. cbn [app length] in Ees.
      change (N.of_nat 0) with 0 in Ees. rewrite Ees. cbn [opt_parsed].
      eexists. split; [reflexivity|]. split; [constructor; auto; unfold ack; congruence|]. split; [|apply not_malformed_other; discriminate].
      intros p' H. inversion H; subst; [|unfold ack in *; congruence]. f_equal. eapply SettingsLayout_inj; eauto.
    + right. exists 6. split; [reflexivity|]. split; [|right; split; [auto|apply not_malformed_other; discriminate]].
      intros p H. inversion H; subst; [|congruence]. apply E. match goal with X : SettingsLayout _ _ |- _ => rewrite (SettingsLayout_len _ _ X) end.
      rewrite Nat2N.inj_mul, N.mul_comm. apply N.mod_mul. discriminate.
Qed.

Lemma parse_push_exact h l : bytes_ok l -> l <> [] -> N.of_nat (length l) < 2 ^ 32 -> exact 5 (h_flags h) l (parse_push h l).
Proof.
  intros Hb Hne HL. apply len_lt in HL. unfold parse_push. fold (pad_step (h_flags h) l).
  destruct (pad_step_cases (h_flags h) l) as [(e & -> & He & Hno)|(pre & inner & padding & pad & El & Hp & -> & HP & Hpre & Hnp & Huniq & Hbad)]; cbn [opt_parsed].
  - right. exists e. split; [reflexivity|]. split; [intros p H; inversion H; subst; eapply Hno; eauto|].
    destruct He as [[_ He]|(-> & Hpd & n & r & -> & Hn)]; [congruence|]. left. split; auto. constructor; auto.
  - assert (HM : ~ ProtocolMalformed 5 (h_flags h) l) by (apply not_malformed_pad; [discriminate|exact Hbad]).
    assert (HL' : N.of_nat (length inner + length padding) < 2 ^ 64) by (rewrite El, !app_length in HL; lia).
    destruct (_ <? _) eqn:E5; [apply N.ltb_lt in E5|apply N.ltb_ge in E5].
    + right. exists 6. split; [reflexivity|]. split; [|auto]. intros p H. inversion H; subst.
      match goal with X : Padded _ _ _ _ |- _ => apply Huniq in X as [<- _] end. rewrite !app_length in E5. lia.
    + left. destruct (split_at inner 4) as (pb & frag & -> & L4); [lia|]. destruct (len4 _ L4) as (w & x & y & z & ->).
      assert (Hpb : bytes_ok [w; x; y; z]) by (subst l; apply (bytes_ok_mid pre _ (frag ++ padding)); rewrite <- app_assoc in Hb; exact Hb).
      pose proof (rd31_at pre w x y z (frag ++ padding) Hpb) as Ep.
      assert (El' : l = (pre ++ [w; x; y; z]) ++ frag ++ padding) by (rewrite El, <- !app_assoc; reflexivity).
      replace (rd31 l (N.of_nat (length pre))) with (Some (be_val [w; x; y; z] mod 2 ^ 31)) by (rewrite <- Ep, El'; rewrite <- app_assoc; reflexivity). cbn [opt_parsed].
      rewrite !app_length in *. cbn [length] in *. rewrite (szsub_small _ 4) by lia. rewrite szsub_small by lia.
      rewrite (slice_eq l (pre ++ [w; x; y; z]) frag padding _ _ El'); [|rewrite app_length; cbn [length]; lia|lia].
      cbn [opt_parsed]. eexists. split; [reflexivity|]. split; [econstructor; eauto|]. split; [|auto].
      intros p' H. inversion H; subst.
      match goal with X : Padded _ _ (?q ++ ?f) _ |- _ => apply Huniq in X as [X _]; apply app_inj_len in X; [destruct X as [-> ->]; reflexivity|assumption] end.
Qed.

Lemma parse_ping_exact fl l : exact 6 fl l (parse_ping l).
Proof.
  unfold parse_ping. destruct (N.eqb_spec 8 (N.of_nat (length l))) as [E|E]; cbn [negb].
  - left. pose proof (slice_app' [] l [] 0 (N.of_nat (length l)) eq_refl eq_refl) as Es. rewrite app_nil_r in Es. cbn [app] in Es. rewrite Es.
    cbn [opt_parsed]. eexists. split; [reflexivity|]. split; [constructor; lia|]. split; [|apply not_malformed_other; discriminate].
    intros p' H. inversion H; subst. reflexivity.
  - right. exists 6. split; [reflexivity|]. split; [|right; split; [auto|apply not_malformed_other; discriminate]].
    intros p H. inversion H; subst. lia.
Qed.

Lemma parse_goaway_exact fl l : bytes_ok l -> exact 7 fl l (parse_goaway l).
Proof.
  intros Hb. unfold parse_goaway. destruct (_ <? 8) eqn:E8; [apply N.ltb_lt in E8|apply N.ltb_ge in E8].
  - right. exists 6. split; [reflexivity|]. split; [|right; split; [auto|apply not_malformed_other; discriminate]].
    intros p H. inversion H; subst. rewrite !app_length in E8. lia.
  - left. destruct (split_at l 4) as (lb & l1 & -> & L4); [lia|]. rewrite app_length in E8.
    destruct (split_at l1 4) as (cb & dbg & -> & L4'); [lia|]. clear E8.
    destruct (len4 _ L4) as (w & x & y & z & ->). destruct (len4 _ L4') as (w' & x' & y' & z' & ->).
    unfold bytes_ok in Hb. apply Forall_app in Hb as [Hi Hb]. apply Forall_app in Hb as [Hv Hb].
    pose proof (rd31_at [] w x y z ([w'; x'; y'; z'] ++ dbg) Hi) as E1. cbn [app length] in E1. change (N.of_nat 0) with 0 in E1.
    pose proof (rd32_at [w; x; y; z] w' x' y' z' dbg Hv) as E2. cbn [app length] in E2. change (N.of_nat 4) with 4 in E2.
    cbn [app]. rewrite E1. cbn [opt_parsed]. rewrite E2. cbn [opt_parsed].
    assert (R : (if 8 <? N.of_nat (length (w :: x :: y :: z :: w' :: x' :: y' :: z' :: dbg))
       then opt_parsed (slice (w :: x :: y :: z :: w' :: x' :: y' :: z' :: dbg) 8 (N.of_nat (length (w :: x :: y :: z :: w' :: x' :: y' :: z' :: dbg)) - 8))
              (fun d => POk (PGoaway (be_val [w; x; y; z] mod 2 ^ 31) (be_val [w'; x'; y'; z']) d))
       else POk (PGoaway (be_val [w; x; y; z] mod 2 ^ 31) (be_val [w'; x'; y'; z']) [])) = POk (PGoaway (be_val [w; x; y; z] mod 2 ^ 31) (be_val [w'; x'; y'; z']) dbg)).
    { pose proof (slice_app' [w; x; y; z; w'; x'; y'; z'] dbg [] 8 (N.of_nat (length (w :: x :: y :: z :: w' :: x' :: y' :: z' :: dbg)) - 8)) as Es.
      rewrite app_nil_r in Es. cbn [app] in Es. rewrite Es; [|reflexivity|cbn [length]; lia]. cbn [opt_parsed].
      destruct (8 <? _) eqn:E; [reflexivity|]. apply N.ltb_ge in E. cbn [length] in E. destruct dbg; [reflexivity|cbn [length] in E; lia]. }
    rewrite R. eexists. split; [reflexivity|]. split; [|split; [|apply not_malformed_other; discriminate]].
    + apply (po_goaway fl [w; x; y; z] [w'; x'; y'; z'] dbg); reflexivity.
    + intros p' H. inversion H as [| | | | | | | | |fl' lb cb dbg' La Lc E1' E2' E Ep| |]; subst.
      change (lb ++ cb ++ dbg' = [w; x; y; z] ++ [w'; x'; y'; z'] ++ dbg) in E.
      apply app_inj_len in E as [-> E]; [|auto]. apply app_inj_len in E as [-> ->]; auto.
Qed.

Lemma parse_window_exact fl l : bytes_ok l -> exact 8 fl l (parse_window_update l).
Proof.
  intros Hb. unfold parse_window_update. destruct (N.eqb_spec 4 (N.of_nat (length l))) as [E|E]; cbn [negb].
  - assert (L5 : length l = 4%nat) by lia. destruct (len4 _ L5) as (w & x & y & z & ->).
    pose proof (rd31_at [] w x y z [] Hb) as Ep. cbn [app length] in Ep. change (N.of_nat 0) with 0 in Ep. rewrite Ep. cbn [opt_parsed].
    destruct (N.eqb_spec (be_val [w; x; y; z] mod 2 ^ 31) 0) as [E0|E0].
    + right. exists 1. split; [reflexivity|]. split; [intros p H; inversion H; subst; congruence|]. left. split; [auto|]. apply pm_window; auto.
    + assert (_ <? _ = false) as ->.
      { apply N.ltb_ge. assert (be_val [w; x; y; z] mod 2 ^ 31 < 2 ^ 31) by (apply N.mod_lt; discriminate). change (2 ^ 31) with 2147483648 in *. lia. }
      left. eexists. split; [reflexivity|]. split; [constructor; auto|]. split; [intros p' H; inversion H; subst; reflexivity|].
      intros M. inversion M; subst; [lia|]. congruence.
  - right. exists 6. split; [reflexivity|]. split; [intros p H; inversion H; subst; lia|]. right. split; [auto|].
    intros M. inversion M; subst; lia.
Qed.

Lemma parse_continuation_exact fl l : exact 9 fl l (parse_continuation l).
Proof.
  left. unfold parse_continuation. pose proof (slice_app' [] l [] 0 (N.of_nat (length l)) eq_refl eq_refl) as Es. rewrite app_nil_r in Es. cbn [app] in Es. rewrite Es.
  cbn [opt_parsed]. eexists. split; [reflexivity|]. split; [constructor|]. split; [|apply not_malformed_other; discriminate].
  intros p' H. inversion H; subst. reflexivity.
Qed.

Lemma parse_payload_exact h l : bytes_ok l -> l <> [] -> N.of_nat (length l) < 2 ^ 32 -> known_type (h_type h) ->
  exists r, parse_payload h l = Some r /\ exact (h_type h) (h_flags h) l r.
Proof.
  intros Hb Hne HL Hk. unfold parse_payload.
  repeat match goal with |- context [if h_type h =? ?k then _ else _] =>
    destruct (N.eqb_spec (h_type h) k) as [->|?]; [eexists; split; [reflexivity|];
      first [apply parse_data_exact|apply parse_headers_exact|apply parse_priority_exact|apply parse_rst_exact|apply parse_settings_exact
            |apply parse_push_exact|apply parse_ping_exact|apply parse_goaway_exact|apply parse_window_exact|apply parse_continuation_exact]; assumption|] end.
  unfold known_type in Hk. unfold T_DATA, T_HEADERS, T_PRIORITY, T_RST_STREAM, T_SETTINGS, T_PUSH_PROMISE, T_PING, T_GOAWAY, T_WINDOW_UPDATE, T_CONTINUATION in *. lia.
Qed.

Lemma parse_payload_unknown h l : ~ known_type (h_type h) -> parse_payload h l = None /\ parse_zero h = None.
Proof.
  unfold known_type. intros H. unfold parse_payload, parse_zero.
  unfold T_DATA, T_HEADERS, T_PRIORITY, T_RST_STREAM, T_SETTINGS, T_PUSH_PROMISE, T_PING, T_GOAWAY, T_WINDOW_UPDATE, T_CONTINUATION.
  split; repeat match goal with |- context [h_type h =? ?k] => destruct (N.eqb_spec (h_type h) k); [lia|] end; reflexivity.
Qed.
