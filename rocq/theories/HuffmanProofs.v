(** C10-C12: Huffman coding. *)
From Verif Require Import Base HpackTables HpackModel HpackSpec HpackIntProofs.
Local Open Scope N_scope.

(** ** Bit strings *)

Lemma bits_of_length n x : length (bits_of n x) = n.
Proof. induction n; simpl; auto. Qed.

Lemma bits_of_ext n x y : (forall k, k < N.of_nat n -> N.testbit x k = N.testbit y k) -> bits_of n x = bits_of n y.
Proof.
  induction n as [|n IH]; intros H; simpl; auto. f_equal.
  - apply H. lia.
  - apply IH. intros k Hk. apply H. lia.
Qed.

Lemma bits_of_mod n x m : N.of_nat n <= m -> bits_of n (x mod 2 ^ m) = bits_of n x.
Proof. intros H. apply bits_of_ext. intros k Hk. apply N.mod_pow2_bits_low. lia. Qed.

Lemma bits_of_split a b x : bits_of (a + b) x = bits_of a (N.shiftr x (N.of_nat b)) ++ bits_of b x.
Proof.
  induction a as [|a IH]; simpl; auto. f_equal; auto.
  rewrite N.shiftr_spec'. f_equal. lia.
Qed.

Lemma lor_low x y b : y < 2 ^ b -> N.shiftr (N.lor (N.shiftl x b) y) b = x.
Proof.
  intros Hy. rewrite N.shiftr_lor, N.shiftr_shiftl_l by lia. rewrite N.sub_diag, N.shiftl_0_r.
  rewrite (N.shiftr_div_pow2 y), N.div_small by auto. apply N.lor_0_r.
Qed.

Lemma bits_of_lor a b x y : y < 2 ^ N.of_nat b ->
  bits_of (a + b) (N.lor (N.shiftl x (N.of_nat b)) y) = bits_of a x ++ bits_of b y.
Proof.
  intros Hy. rewrite bits_of_split, lor_low by auto. f_equal.
  apply bits_of_ext. intros k Hk. rewrite N.lor_spec, N.shiftl_spec_low by auto. reflexivity.
Qed.

Lemma lor_lt x y n : x < 2 ^ n -> y < 2 ^ n -> N.lor x y < 2 ^ n.
Proof.
  intros Hx Hy. destruct (N.eq_dec n 0) as [->|Hn].
  { change (2 ^ 0) with 1 in *. assert (x = 0) by lia. assert (y = 0) by lia. subst. reflexivity. }
  assert (HP : 0 < 2 ^ n) by (apply N.neq_0_lt_0, N.pow_nonzero; lia).
  destruct (N.eq_dec (N.lor x y) 0) as [->|Hz]; [assumption|].
  assert (HL : forall z, z < 2 ^ n -> N.log2 z < n).
  { intros z Hz2. destruct (N.eq_dec z 0) as [->|]; [change (N.log2 0) with 0; lia|]. apply N.log2_lt_pow2; lia. }
  apply N.log2_lt_pow2; [lia|]. rewrite N.log2_lor. apply N.max_lub_lt; auto.
Qed.

Lemma bits_of_ones n : bits_of n (2 ^ N.of_nat n - 1) = repeat true n.
Proof.
  assert (H : forall k m, (k <= m)%nat -> bits_of k (2 ^ N.of_nat m - 1) = repeat true k).
  { induction k as [|k IH]; intros m Hk; simpl; auto. f_equal; [|apply IH; lia].
    rewrite N.sub_1_r, <- N.ones_equiv. apply N.ones_spec_low. lia. }
  apply H. lia.
Qed.

Lemma bits_of_inj n x y : x < 2 ^ N.of_nat n -> y < 2 ^ N.of_nat n -> bits_of n x = bits_of n y -> x = y.
Proof.
  intros Hx Hy E. apply N.bits_inj. intros k.
  destruct (N.lt_ge_cases k (N.of_nat n)) as [Hk|Hk].
  - clear Hx Hy. revert E Hk. induction n as [|n IH]; intros E Hk; [lia|].
    simpl in E. injection E as E1 E2.
    destruct (N.eq_dec k (N.of_nat n)) as [->|]; auto. apply IH; auto. lia.
  - rewrite <- (N.mod_small x (2 ^ N.of_nat n)), <- (N.mod_small y (2 ^ N.of_nat n)) by auto.
    rewrite !N.mod_pow2_bits_high by auto. reflexivity.
Qed.

(** ** The code *)

Definition hbits (c : N) : list bool := bits_of (N.to_nat (snd (hcode c))) (fst (hcode c)).

Definition beqb (a b : list bool) : bool := if list_eq_dec Bool.bool_dec a b then true else false.

Definition all_syms : list N := map N.of_nat (seq 0 257).
Lemma in_all_syms c : c <= 256 -> In c all_syms.
Proof. intros H. apply in_map_iff. exists (N.to_nat c). split; [lia|]. apply in_seq. lia. Qed.

Definition code_ok (c : N) : bool :=
  let '(code, n) := hcode c in
  (1 <=? n) && (n <=? 30) && (code <? 2 ^ n).

Lemma codes_ok : forallb code_ok all_syms = true.
Proof. vm_compute. reflexivity. Qed.

Lemma hcode_bounds c : c <= 256 -> 1 <= snd (hcode c) /\ snd (hcode c) <= 30 /\ fst (hcode c) < 2 ^ snd (hcode c).
Proof.
  intros H. pose proof codes_ok as HC. rewrite forallb_forall in HC. specialize (HC c (in_all_syms c H)).
  unfold code_ok in HC. destruct (hcode c) as [code n]. simpl.
  apply andb_true_iff in HC as [HA H3]. apply andb_true_iff in HA as [H1 H2]. lia.
Qed.

Lemma seq_bits n code : map (fun i => N.testbit code (N.of_nat n - 1 - N.of_nat i)) (seq 0 n) = bits_of n code.
Proof.
  induction n as [|n IH]; [reflexivity|].
  cbn [seq map bits_of]. f_equal; [f_equal; lia|].
  rewrite <- IH, <- seq_shift, map_map. apply map_ext. intros i. f_equal. lia.
Qed.

Lemma code_bits_hbits c : code_bits c = hbits c.
Proof.
  unfold code_bits, hbits, hcode. destruct (nth _ _ _) as [code n]. simpl.
  rewrite <- seq_bits. rewrite N2Nat.id. reflexivity.
Qed.

Lemma byte_bits_of b : byte_bits b = bits_of 8 b.
Proof. reflexivity. Qed.

(** ** Encoding *)

Lemma hflush_spec : forall fuel buf nb buf' nb' out,
  (N.to_nat nb <= fuel)%nat -> buf < 2 ^ nb ->
  hflush fuel buf nb = (buf', nb', out) ->
  nb' < 8 /\ buf' < 2 ^ nb' /\ bytes_ok out /\
  flat_map (bits_of 8) out ++ bits_of (N.to_nat nb') buf' = bits_of (N.to_nat nb) buf.
Proof.
  induction fuel as [|f IH]; intros buf nb buf' nb' out Hf Hb E; cbn [hflush] in E.
  - injection E as <- <- <-. repeat split; auto; try lia. constructor.
  - destruct (8 <=? nb) eqn:E8.
    + apply N.leb_le in E8.
      destruct (hflush f (N.land buf (N.shiftl 1 (nb - 8) - 1)) (nb - 8)) as [[b2 n2] o2] eqn:E2.
      injection E as <- <- <-. rewrite shiftl1, land_mask in E2.
      assert (HP : 2 ^ (nb - 8) <> 0) by (apply N.pow_nonzero; lia).
      apply IH in E2; [|lia|apply N.mod_lt; auto].
      destruct E2 as (H1 & H2 & H3 & H4). repeat split; auto.
      * constructor; auto. apply N.mod_lt. lia.
      * cbn [flat_map]. rewrite <- app_assoc, H4.
        replace (N.to_nat nb) with (8 + N.to_nat (nb - 8))%nat by lia.
        rewrite bits_of_split, N2Nat.id. f_equal.
        -- unfold w8. change 256 with (2 ^ 8). apply bits_of_mod. lia.
        -- apply bits_of_mod. lia.
    + apply N.leb_gt in E8. injection E as <- <- <-. repeat split; auto. constructor.
Qed.

Lemma encode_loop_spec : forall s buf nb,
  bytes_ok s -> nb < 8 -> buf < 2 ^ nb ->
  bytes_ok (huffman_encode_loop buf nb s) /\
  exists k, (k <= 7)%nat /\
  flat_map (bits_of 8) (huffman_encode_loop buf nb s)
    = bits_of (N.to_nat nb) buf ++ flat_map hbits s ++ repeat true k.
Proof.
  induction s as [|c r IH]; intros buf nb Hs Hn Hb.
  - cbn [huffman_encode_loop flat_map app]. destruct (0 <? nb) eqn:E.
    + apply N.ltb_lt in E. split.
      { constructor; [apply N.mod_lt; lia|constructor]. }
      exists (8 - N.to_nat nb)%nat. split; [lia|].
      cbn [flat_map]. rewrite app_nil_r. unfold w8. change 256 with (2 ^ 8). rewrite bits_of_mod by lia.
      assert (Hw : w64 (N.shiftl buf (8 - nb)) = N.shiftl buf (8 - nb)).
      { unfold w64. apply N.mod_small. rewrite N.shiftl_mul_pow2.
        assert (2 ^ nb * 2 ^ (8 - nb) = 256) by (rewrite <- N.pow_add_r; replace (nb + (8 - nb)) with 8 by lia; reflexivity).
        assert (0 < 2 ^ (8 - nb)) by (apply N.neq_0_lt_0, N.pow_nonzero; lia). nia. }
      rewrite Hw, shiftl1.
      replace 8%nat with (N.to_nat nb + N.to_nat (8 - nb))%nat at 1 by lia.
      replace (8 - nb) with (N.of_nat (N.to_nat (8 - nb))) at 2 3 by lia.
      assert (HP : 2 ^ N.of_nat (N.to_nat (8 - nb)) <> 0) by (apply N.pow_nonzero; lia).
      rewrite bits_of_lor by lia. rewrite bits_of_ones. repeat f_equal. lia.
    + apply N.ltb_ge in E. assert (nb = 0) by lia. subst. split; [constructor|]. exists 0%nat. split; [lia|reflexivity].
  - inversion Hs as [|? ? Hc Hr]; subst. cbn [huffman_encode_loop].
    destruct (hcode_bounds c) as (B1 & B2 & B3); [lia|].
    cbn [flat_map]. assert (Eh : hbits c = bits_of (N.to_nat (snd (hcode c))) (fst (hcode c))) by reflexivity.
    destruct (hcode c) as [code bits] eqn:Ec. cbn [fst snd] in *.
    assert (Hw : w64 (N.shiftl buf bits) = N.shiftl buf bits).
    { unfold w64. apply N.mod_small. rewrite N.shiftl_mul_pow2.
      assert (H1 : 2 ^ nb <= 2 ^ 7) by (apply N.pow_le_mono_r; lia).
      assert (H2 : 2 ^ bits <= 2 ^ 30) by (apply N.pow_le_mono_r; lia).
      change (2 ^ 7) with 128 in H1. change (2 ^ 30) with 1073741824 in H2.
      assert (buf * 2 ^ bits <= 128 * 1073741824) by (apply N.mul_le_mono; lia). lia. }
    rewrite Hw.
    destruct (hflush _ _ _) as [[buf2 nb2] out] eqn:EF.
    apply hflush_spec in EF; [|lia|].
    2:{ rewrite N.pow_add_r. rewrite <- N.pow_add_r. apply lor_lt.
        - rewrite N.shiftl_mul_pow2, N.pow_add_r. apply N.mul_lt_mono_pos_r; auto. apply N.neq_0_lt_0, N.pow_nonzero; lia.
        - eapply N.lt_le_trans; [apply B3|]. apply N.pow_le_mono_r; lia. }
    destruct EF as (F1 & F2 & F3 & F4).
    destruct (IH buf2 nb2 Hr F1 F2) as (G1 & k & G2 & G3).
    split; [apply Forall_app; auto|].
    exists k. split; [assumption|]. rewrite flat_map_app, G3, app_assoc, F4.
    rewrite Eh.
    replace (N.to_nat (nb + bits)) with (N.to_nat nb + N.to_nat bits)%nat by lia.
    replace bits with (N.of_nat (N.to_nat bits)) at 2 by lia.
    rewrite bits_of_lor by (rewrite N2Nat.id; auto). rewrite <- !app_assoc. reflexivity.
Qed.

Lemma huffman_encode_bytes s : bytes_ok s -> bytes_ok (huffman_encode s).
Proof. intros H. apply encode_loop_spec; auto; reflexivity. Qed.

Theorem huffman_encode_repr s : bytes_ok s -> HuffRepr (huffman_encode s) s.
Proof.
  intros H. destruct (encode_loop_spec s 0 0 H) as (_ & k & Hk & E); try reflexivity.
  exists k. split; auto. rewrite (flat_map_ext _ _ byte_bits_of), (flat_map_ext _ _ code_bits_hbits). exact E.
Qed.

(** ** The decode tree *)

Fixpoint sub (t : htree) (p : list bool) {struct p} : htree :=
  match p with
  | [] => t
  | b :: r => match t with HNull => HNull | HNode _ _ l rr => sub (if b then rr else l) r end
  end.

Fixpoint leaves (t : htree) : list (list bool * N) :=
  match t with
  | HNull => []
  | HNode lf sy l r =>
      (if lf then [([], sy)] else []) ++
      map (fun x => (false :: fst x, snd x)) (leaves l) ++
      map (fun x => (true :: fst x, snd x)) (leaves r)
  end.

Lemma leaves_complete : forall p t sy l r, sub t p = HNode true sy l r -> In (p, sy) (leaves t).
Proof.
  induction p as [|b p IH]; intros t sy l r E; simpl in E.
  - subst t. simpl. auto.
  - destruct t as [|lf s tl tr]; [discriminate|]. simpl. apply in_or_app. right. apply in_or_app.
    destruct b; [right|left]; apply in_map_iff; exists (p, sy); split; auto; eapply IH; eauto.
Qed.

Lemma leaves_are_codes : forallb (fun x => (snd x <=? 256) && beqb (fst x) (hbits (snd x))) (leaves decode_tree) = true.
Proof. vm_compute. reflexivity. Qed.

Lemma leaf_code p sy l r : sub decode_tree p = HNode true sy l r -> sy <= 256 /\ p = hbits sy.
Proof.
  intros E. apply leaves_complete in E. pose proof leaves_are_codes as H. rewrite forallb_forall in H.
  specialize (H _ E). apply andb_true_iff in H as [H1 H2]. simpl in H1, H2. split; [lia|].
  unfold beqb in H2. destruct (list_eq_dec _ _ _); [assumption|discriminate].
Qed.

(** Every code leads through inner nodes to its own leaf. *)
Fixpoint path_ok (t : htree) (p : list bool) (sy : N) {struct p} : bool :=
  match p, t with
  | [], HNode true s _ _ => s =? sy
  | b :: r, HNode false _ l rr => path_ok (if b then rr else l) r sy
  | _, _ => false
  end.

Lemma codes_in_tree : forallb (fun c => path_ok decode_tree (hbits c) c) all_syms = true.
Proof. vm_compute. reflexivity. Qed.

Lemma code_path c : c <= 256 -> path_ok decode_tree (hbits c) c = true.
Proof. intros H. pose proof codes_in_tree as HC. rewrite forallb_forall in HC. apply HC, in_all_syms, H. Qed.

Lemma sub_app t p q : sub t (p ++ q) = sub (sub t p) q.
Proof.
  revert t; induction p as [|b p IH]; intros t; simpl; auto. destruct t as [|lf s l r]; auto. destruct q; reflexivity.
Qed.

Lemma eos_ones : hbits 256 = repeat true 30.
Proof. reflexivity. Qed.

Lemma root_inner : exists l r, decode_tree = HNode false 0 l r.
Proof. eexists _, _. vm_compute. reflexivity. Qed.

Lemma rightmost_path : forall t, rightmost_is_eos t = true -> exists j l r, sub t (repeat true j) = HNode true 256 l r.
Proof.
  induction t as [|lf sy l IHl r IHr]; simpl; intros H; [discriminate|].
  destruct lf.
  - apply N.eqb_eq in H. subst. exists 0%nat, l, r. reflexivity.
  - destruct (IHr H) as (j & l' & r' & E). exists (S j), l', r'. exact E.
Qed.

Lemma path_rightmost : forall j t, path_ok t (repeat true j) 256 = true -> rightmost_is_eos t = true.
Proof.
  induction j as [|j IH]; intros t H; destruct t as [|lf sy l r]; simpl in H; try discriminate.
  - destruct lf; [|discriminate]. exact H.
  - destruct lf; [discriminate|]. simpl. apply IH. exact H.
Qed.

Lemma path_ok_app : forall p q t sy, path_ok t (p ++ q) sy = true -> q <> [] \/ p <> [] \/ True -> path_ok (sub t p) q sy = true.
Proof.
  induction p as [|b p IH]; intros q t sy H _; simpl in *; auto.
  destruct t as [|lf s l r]; [discriminate|]. destruct lf; [discriminate|]. apply IH; auto.
Qed.

Lemma repeat_app_split {A} (x : A) p q n : p ++ q = repeat x n -> p = repeat x (length p).
Proof.
  revert n; induction p as [|y p IH]; intros n E; simpl; auto.
  destruct n; simpl in E; [discriminate|]. injection E as -> E. f_equal. eapply IH; eauto.
Qed.

(** ** Decoding is exact *)

Lemma walk_sound : forall bits p node since out,
  node = sub decode_tree p -> since = N.of_nat (length p) ->
  huffman_walk node since bits = Some out ->
  bytes_ok out /\ exists k, (k <= 7)%nat /\ p ++ bits = flat_map hbits out ++ repeat true k.
Proof.
  induction bits as [|b bs IH]; intros p node since out -> -> H; cbn [huffman_walk] in H.
  - rewrite app_nil_r. destruct (N.of_nat (length p) =? 0) eqn:E0.
    + injection H as <-. apply N.eqb_eq in E0. destruct p; [|simpl in E0; lia].
      split; [constructor|]. exists 0%nat. split; [lia|reflexivity].
    + destruct (7 <? N.of_nat (length p)) eqn:E7; [discriminate|]. apply N.ltb_ge in E7.
      destruct (rightmost_is_eos _) eqn:ER; [|discriminate]. injection H as <-.
      split; [constructor|]. apply rightmost_path in ER as (j & l & r & E).
      rewrite <- sub_app in E. apply leaf_code in E as [_ E]. rewrite eos_ones in E.
      exists (length p). split; [lia|]. simpl. eapply repeat_app_split; eauto.
  - remember (match sub decode_tree p with HNull => HNull | HNode _ _ l r => if b then r else l end) as nx eqn:En.
    assert (Hnx : nx = sub decode_tree (p ++ [b])).
    { rewrite sub_app, En. simpl. destruct (sub decode_tree p); auto. }
    destruct nx as [|lf sy l r]; [discriminate|]. destruct lf.
    + destruct (sy =? 256) eqn:Es; [discriminate|]. apply N.eqb_neq in Es.
      destruct (huffman_walk decode_tree 0 bs) as [o|] eqn:Eo; [|discriminate]. simpl in H. injection H as <-.
      destruct (IH [] decode_tree 0 o eq_refl eq_refl Eo) as (Hok & k & Hk & E).
      symmetry in Hnx. apply leaf_code in Hnx as [Hsy Hp].
      split; [constructor; auto; lia|]. exists k. split; auto.
      change (b :: bs) with ([b] ++ bs). rewrite app_assoc, Hp. simpl in E. rewrite E. simpl. now rewrite app_assoc.
    + rewrite Hnx in H. apply IH with (p := p ++ [b]) in H; auto.
      * rewrite <- app_assoc in H. exact H.
      * rewrite app_length. simpl. lia.
Qed.

(** Walking along the rest of a code. *)
Lemma walk_code : forall q node since sy rest,
  q <> [] -> path_ok node q sy = true -> sy <> 256 ->
  huffman_walk node since (q ++ rest) = option_map (cons sy) (huffman_walk decode_tree 0 rest).
Proof.
  induction q as [|b q IH]; intros node since sy rest Hq HP Hs; [congruence|].
  destruct node as [|lf s l r]; [discriminate|]. simpl in HP. destruct lf; [discriminate|].
  cbn [app huffman_walk]. destruct q as [|b' q].
  - destruct (if b then r else l) as [|lf2 s2 l2 r2]; [discriminate|]. simpl in HP. destruct lf2; [|discriminate].
    apply N.eqb_eq in HP. subst s2. destruct (sy =? 256) eqn:E; [apply N.eqb_eq in E; congruence|]. reflexivity.
  - assert (HP2 := HP). destruct (if b then r else l) as [|lf2 s2 l2 r2]; [discriminate|]. simpl in HP. destruct lf2; [discriminate|].
    apply IH; auto. discriminate.
Qed.

Lemma walk_ones : forall k j node since,
  path_ok node (repeat true (k + S j)) 256 = true -> since + N.of_nat k <= 7 ->
  huffman_walk node since (repeat true k) = Some [].
Proof.
  induction k as [|k IH]; intros j node since HP Hs.
  - cbn [repeat huffman_walk]. destruct (since =? 0); auto.
    replace (7 <? since) with false by (symmetry; apply N.ltb_ge; lia).
    now rewrite (path_rightmost _ _ HP).
  - cbn [Nat.add repeat] in HP. destruct node as [|lf s l r]; [discriminate|]. destruct lf; [discriminate|].
    cbn [path_ok] in HP. cbn [repeat huffman_walk].
    assert (HP2 := HP). replace (k + S j)%nat with (S (k + j)) in HP by lia. cbn [repeat] in HP.
    destruct r as [|lf2 s2 l2 r2]; [discriminate|]. destruct lf2; [discriminate|].
    apply (IH j); auto. lia.
Qed.

Lemma walk_complete : forall s k,
  bytes_ok s -> (k <= 7)%nat ->
  huffman_walk decode_tree 0 (flat_map hbits s ++ repeat true k) = Some s.
Proof.
  induction s as [|c s IH]; intros k Hs Hk.
  - cbn [flat_map app]. apply (walk_ones k (29 - k)); [|lia].
    replace (k + S (29 - k))%nat with 30%nat by lia. rewrite <- eos_ones. apply code_path. lia.
  - inversion Hs as [|? ? Hc Hr]; subst. cbn [flat_map]. rewrite <- app_assoc.
    rewrite (walk_code (hbits c) decode_tree 0 c).
    + rewrite IH; auto.
    + destruct (hcode_bounds c) as [H1 _]; [lia|]. unfold hbits. destruct (N.to_nat (snd (hcode c))) eqn:E; [lia|]. simpl. discriminate.
    + apply code_path. lia.
    + lia.
Qed.

Theorem huffman_decode_spec d s :
  bytes_ok d -> (huffman_decode d = Some s <-> bytes_ok s /\ HuffRepr d s).
Proof.
  intros Hd. unfold huffman_decode, HuffRepr.
  rewrite (flat_map_ext _ _ byte_bits_of d), (flat_map_ext _ _ code_bits_hbits s). split.
  - intros H. destruct (walk_sound _ [] _ _ _ eq_refl eq_refl H) as (Hs & k & Hk & E). split; auto. exists k. auto.
  - intros (Hs & k & Hk & E). rewrite E. apply walk_complete; auto.
Qed.

(** A Huffman representation determines string and, from the string, the bytes. *)
Lemma flat_bits_length d : length (flat_map (bits_of 8) d) = (8 * length d)%nat.
Proof. induction d; cbn [flat_map]; auto. rewrite app_length, IHd, bits_of_length. simpl. lia. Qed.

Lemma flat_bits_inj : forall d e, bytes_ok d -> bytes_ok e -> flat_map (bits_of 8) d = flat_map (bits_of 8) e -> d = e.
Proof.
  induction d as [|x d IH]; intros [|y e] Hd He E; auto; cbn [flat_map] in E.
  - discriminate.
  - discriminate.
  - inversion Hd; inversion He; subst.
    assert (E1 : bits_of 8 x = bits_of 8 y).
    { rewrite <- (firstn_all2 (n := 8) (bits_of 8 x)) by (rewrite bits_of_length; lia).
      rewrite <- (firstn_all2 (n := 8) (bits_of 8 y)) by (rewrite bits_of_length; lia).
      pose proof (f_equal (firstn 8) E) as EF. rewrite !firstn_app, !bits_of_length, Nat.sub_diag in EF.
      rewrite !firstn_O, !app_nil_r in EF. exact EF. }
    assert (E2 : flat_map (bits_of 8) d = flat_map (bits_of 8) e).
    { rewrite E1 in E. now apply app_inv_head in E. }
    f_equal; [apply (bits_of_inj 8); auto|apply IH; auto].
Qed.

Lemma HuffRepr_unique d e s : bytes_ok d -> bytes_ok e -> HuffRepr d s -> HuffRepr e s -> d = e.
Proof.
  intros Hd He (k & Hk & E1) (k' & Hk' & E2). change (flat_map byte_bits) with (flat_map (bits_of 8)) in *.
  apply flat_bits_inj; auto. rewrite E1, E2. f_equal. f_equal.
  apply (f_equal (@length bool)) in E1. apply (f_equal (@length bool)) in E2.
  rewrite app_length, repeat_length, flat_bits_length in E1, E2. lia.
Qed.

Theorem huffman_decode_iff d s : bytes_ok d -> (huffman_decode d = Some s <-> bytes_ok s /\ d = huffman_encode s).
Proof.
  intros Hd. rewrite huffman_decode_spec by auto. split; intros [Hs H]; split; auto.
  - apply (HuffRepr_unique d _ s); auto using huffman_encode_bytes, huffman_encode_repr.
  - subst. now apply huffman_encode_repr.
Qed.

(** ** Sizes *)

Lemma huffman_bits_length s : bytes_ok s -> N.of_nat (length (flat_map hbits s)) = huffman_bits s.
Proof.
  induction 1 as [|c s Hc Hs IH]; cbn [flat_map huffman_bits]; auto.
  rewrite app_length. unfold hbits at 1. rewrite bits_of_length. lia.
Qed.

Theorem huffman_encode_size s : bytes_ok s -> len (huffman_encode s) = calculate_huffman_encoded_size s.
Proof.
  intros H. unfold calculate_huffman_encoded_size, len. rewrite <- huffman_bits_length by auto.
  destruct (encode_loop_spec s 0 0 H) as (_ & k & Hk & E); try reflexivity.
  apply (f_equal (@length bool)) in E. cbn [bits_of N.to_nat app] in E. change (bits_of (N.to_nat 0) 0) with (@nil bool) in E.
  rewrite app_nil_l, flat_bits_length, app_length, repeat_length in E. unfold huffman_encode.
  apply (N.div_unique _ 8 _ (N.of_nat (7 - k))); lia.
Qed.
