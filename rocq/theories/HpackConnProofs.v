(** C14-C17, C19: whole blocks and whole connections. *)
From Verif Require Import Base HpackTables HpackModel HpackSpec HpackIntProofs HuffmanProofs DynTableProofs HpackCodecProofs.
Local Open Scope N_scope.

Lemma Instr_nonempty limit bs st fo st' : Instr limit bs st fo st' -> bs <> [].
Proof.
  intros H. assert (HS : exists lo hi, starts lo hi bs \/ exists a b, bs = a ++ b /\ starts lo hi a).
  { destruct H; eexists _, _; try (left; eassumption); right; eexists _, _; eauto. }
  destruct HS as (lo & hi & [(b & r & -> & _)|(a & c & -> & (b & r & -> & _))]); discriminate.
Qed.

Fixpoint view_size (fs : list (pair_t * bool)) : N :=
  match fs with [] => 0 | (p, _) :: r => entry_size p + view_size r end.

Lemma hpack_size_view f : hpack_size f = entry_size (fst (view f)).
Proof. reflexivity. Qed.

Lemma view_size_cons f fs : view_size (f :: fs) = entry_size (fst f) + view_size fs.
Proof. destruct f; reflexivity. Qed.

Theorem decode_loop_sound : forall fuel d t limit maxlist size upd s d' res,
  dwf d t -> bytes_ok s -> limit < 2 ^ 64 -> (length s <= fuel)%nat ->
  decode_loop fuel d limit maxlist size upd s = (d', res) ->
  res <> OUndef /\ (exists t', dwf d' t') /\ dt_max d' <= N.max (dt_max d) limit /\
  (forall hs, res = OOk hs -> maxlist = 0 \/ size <= maxlist ->
     (exists t', dwf d' t' /\ Block limit upd s (dt_max d, t) (map view hs) (dt_max d', t')) /\
     (maxlist = 0 \/ size + view_size (map view hs) <= maxlist)).
Proof.
  induction fuel as [|fuel IH]; intros d t limit maxlist size upd s d' res W Hok Hlim Hf E.
  - destruct s; [|simpl in Hf; lia]. simpl in E. injection E as <- <-.
    split; [discriminate|]. split; [eauto|]. split; [lia|]. intros hs H Hm. injection H as <-. simpl.
    split; [exists t; split; auto; constructor|]. rewrite N.add_0_r. exact Hm.
  - destruct s as [|b s].
    { simpl in E. injection E as <- <-.
      split; [discriminate|]. split; [eauto|]. split; [lia|]. intros hs H Hm. injection H as <-. simpl.
      split; [exists t; split; auto; constructor|]. rewrite N.add_0_r. exact Hm. }
    cbn [decode_loop] in E.
    destruct (decode_instruction_spec d t limit upd (b :: s) W Hok Hlim) as (HU & HS & _); [discriminate|].
    destruct (decode_instruction d limit upd (b :: s)) as [fl| |[[d1 of] r]] eqn:EI; [|congruence|].
    { injection E as <- <-. split; [discriminate|]. split; [eauto|]. split; [lia|]. discriminate. }
    destruct (HS d1 of r eq_refl) as (bs & t1 & Es & Hbs & W1 & HI & Hupd). clear HU HS.
    assert (Hmax : dt_max d1 <= N.max (dt_max d) limit).
    { inversion HI; subst; try lia; match goal with T : TableStep _ _ _ |- _ => inversion T; subst; lia end. }
    set (size' := match of with Some x => size + hpack_size x | None => size end) in *.
    destruct ((0 <? maxlist) && (maxlist <? size')) eqn:EL.
    { injection E as <- <-. split; [discriminate|]. split; [eauto|]. split; [lia|]. discriminate. }
    assert (Hrok : bytes_ok r) by (rewrite Es in Hok; apply bytes_ok_app in Hok; tauto).
    assert (Hlen : (length r <= fuel)%nat).
    { apply (f_equal (@length N)) in Es. rewrite app_length in Es. destruct bs; [congruence|]. simpl in Es, Hf. lia. }
    destruct (decode_loop fuel d1 limit maxlist size' _ r) as [d2 res2] eqn:E2. injection E as <- <-.
    destruct (IH _ _ _ _ _ _ _ _ _ W1 Hrok Hlim Hlen E2) as (U2 & W2 & M2 & S2).
    split. { destruct res2, of; try discriminate; congruence. }
    split; [exact W2|]. split; [lia|].
    intros hs H Hm.
    assert (Hm' : maxlist = 0 \/ size' <= maxlist).
    { apply andb_false_iff in EL as [EL|EL]; apply N.ltb_ge in EL; [left; lia|right; exact EL]. }
    destruct res2 as [fl2| |hs2]; [destruct of; discriminate|destruct of; discriminate|].
    destruct (S2 hs2 eq_refl Hm') as ((t2 & W3 & B2) & L2).
    destruct of as [x|]; injection H as <-.
    + split.
      * exists t2. split; auto. rewrite Es. cbn [map]. eapply B_field; [exact HI|exact B2].
      * cbn [map]. rewrite view_size_cons, <- hpack_size_view. unfold size' in L2. destruct L2 as [L2|L2]; [auto|right; lia].
    + rewrite (Hupd eq_refl) in *. split; [|exact L2]. exists t2. split; auto. rewrite Es. eapply B_update; [exact HI|exact B2].
Qed.

Theorem decode_loop_complete : forall limit maxlist upd s st fs st',
  Block limit upd s st fs st' -> forall fuel d size,
  dwf d (snd st) -> dt_max d = fst st -> bytes_ok s -> limit < 2 ^ 64 -> (length s <= fuel)%nat ->
  maxlist = 0 \/ size + view_size fs <= maxlist ->
  exists d' hs, decode_loop fuel d limit maxlist size upd s = (d', OOk hs) /\ map view hs = fs /\
                dwf d' (snd st') /\ dt_max d' = fst st'.
Proof.
  intros limit maxlist upd s st fs st' B.
  induction B as [ok st|ok bs rest st f st1 fs st2 HI B IH|bs rest st st1 fs st2 HI B IH];
    intros fuel d size W HM Hok Hlim Hf Hsz.
  - exists d, []. split; [destruct fuel; reflexivity|]. split; [reflexivity|]. auto.
  - pose proof (Instr_nonempty _ _ _ _ _ HI) as Hne.
    assert (Hne2 : bs ++ rest <> []) by (destruct bs; [congruence|discriminate]).
    destruct fuel as [|fuel]; [destruct (bs ++ rest); [congruence|simpl in Hf; lia]|].
    destruct st as [m t]. cbn [fst snd] in *. subst m.
    destruct (decode_instruction_spec d t limit ok (bs ++ rest) W Hok Hlim Hne2) as (_ & _ & HC).
    destruct (HC bs rest (Some f) st1 eq_refl HI ltac:(discriminate)) as (d1 & of & EI & Ev & W1 & M1).
    destruct of as [x|]; [|discriminate]. simpl in Ev. injection Ev as Ev.
    assert (Hrok : bytes_ok rest) by (apply bytes_ok_app in Hok; tauto).
    assert (Hlen : (length rest <= fuel)%nat).
    { rewrite app_length in Hf. destruct bs; [congruence|]. simpl in Hf. lia. }
    rewrite view_size_cons, <- Ev, <- hpack_size_view in Hsz.
    destruct (IH fuel d1 (size + hpack_size x) W1 M1 Hrok Hlim Hlen) as (d2 & hs & E2 & Eh & W2 & M2).
    { destruct Hsz; [auto|right; lia]. }
    exists d2, (x :: hs). split.
    + destruct (bs ++ rest) as [|b0 s0] eqn:Eb; [congruence|]. cbn [decode_loop]. rewrite EI.
      replace ((0 <? maxlist) && (maxlist <? size + hpack_size x)) with false.
      * rewrite E2. reflexivity.
      * symmetry. apply andb_false_iff. destruct Hsz as [->|Hsz]; [left; reflexivity|right; apply N.ltb_ge; lia].
    + cbn [map]. rewrite Ev, Eh. auto.
  - pose proof (Instr_nonempty _ _ _ _ _ HI) as Hne.
    assert (Hne2 : bs ++ rest <> []) by (destruct bs; [congruence|discriminate]).
    destruct fuel as [|fuel]; [destruct (bs ++ rest); [congruence|simpl in Hf; lia]|].
    destruct st as [m t]. cbn [fst snd] in *. subst m.
    destruct (decode_instruction_spec d t limit true (bs ++ rest) W Hok Hlim Hne2) as (_ & _ & HC).
    destruct (HC bs rest None st1 eq_refl HI ltac:(reflexivity)) as (d1 & of & EI & Ev & W1 & M1).
    destruct of as [x|]; [discriminate|].
    assert (Hrok : bytes_ok rest) by (apply bytes_ok_app in Hok; tauto).
    assert (Hlen : (length rest <= fuel)%nat).
    { rewrite app_length in Hf. destruct bs; [congruence|]. simpl in Hf. lia. }
    destruct (IH fuel d1 size W1 M1 Hrok Hlim Hlen Hsz) as (d2 & hs & E2 & Eh & W2 & M2).
    exists d2, hs. split; [|auto].
    destruct (bs ++ rest) as [|b0 s0] eqn:Eb; [congruence|]. cbn [decode_loop]. rewrite EI.
    replace ((0 <? maxlist) && (maxlist <? size)) with false.
    + rewrite E2. reflexivity.
    + symmetry. apply andb_false_iff. destruct Hsz as [->|Hsz]; [left; reflexivity|right; apply N.ltb_ge; lia].
Qed.

(** ** Encoder side *)

Definition field_ok (f : field) : Prop :=
  bytes_ok (f_name f) /\ bytes_ok (f_value f) /\ len (f_name f) < 2 ^ 64 /\ len (f_value f) < 2 ^ 64.

Definition nv (f : field) : pair_t := (f_name f, f_value f).

Lemma encode_integer_wire n p v : 1 <= n -> n <= 8 -> high_pattern n p -> v < 2 ^ 64 -> WireInt n (encode_integer p n v) v.
Proof.
  intros. split; [apply encode_integer_repr; auto|]. split; auto. now apply encode_integer_len.
Qed.

Lemma encode_string_literal_repr s allow : bytes_ok s -> len s < 2 ^ 64 ->
  StrRepr (encode_string_literal s allow) s /\ bytes_ok (encode_string_literal s allow).
Proof.
  intros Hs Hl. unfold encode_string_literal.
  assert (H0 : high_pattern 7 0) by (split; reflexivity).
  assert (H128 : high_pattern 7 128) by (split; reflexivity).
  destruct (allow && should_use_huffman s) eqn:E.
  - apply andb_true_iff in E as [_ E]. unfold should_use_huffman in E. apply N.ltb_lt in E.
    assert (Hh : len (huffman_encode s) < 2 ^ 64).
    { rewrite huffman_encode_size by auto. unfold calculate_huffman_encoded_size. lia. }
    assert (HW := encode_integer_wire 7 128 (len (huffman_encode s)) ltac:(lia) ltac:(lia) H128 Hh).
    split.
    + apply SR_huff; auto using huffman_encode_repr.
      destruct (encode_integer_first 7 128 (len (huffman_encode s))) as (b & r & Eb & Hb & _); auto; try lia. exists b, r. auto.
    + apply bytes_ok_app. split; [eapply IntRepr_bytes; apply HW|now apply huffman_encode_bytes].
  - assert (HW := encode_integer_wire 7 0 (len s) ltac:(lia) ltac:(lia) H0 Hl).
    split.
    + apply SR_plain; auto.
      destruct (encode_integer_first 7 0 (len s)) as (b & r & Eb & _ & Hb); auto; try lia. exists b, r. auto.
    + apply bytes_ok_app. split; [eapply IntRepr_bytes; apply HW|assumption].
Qed.

Lemma Lookup_app t r i p : Lookup t i p -> Lookup (t ++ r) i p.
Proof.
  intros [H1 H2]. split; auto. rewrite app_assoc, nth_error_app1; auto. apply nth_error_Some. rewrite H2. discriminate.
Qed.

Lemma Lookup_dyn t (i : nat) p : nth_error t i = Some p -> Lookup t (61 + N.of_nat i + 1) p.
Proof.
  intros H. split; [lia|]. rewrite nth_error_app2 by (rewrite static_length; lia). rewrite static_length.
  replace (N.to_nat (61 + N.of_nat i + 1 - 1) - 61)%nat with i by lia. exact H.
Qed.

Lemma Lookup_static t i p : 1 <= i -> nth_error STATIC_TABLE (N.to_nat (i - 1)) = Some p -> Lookup t i p.
Proof. intros H1 H2. split; auto. rewrite nth_error_app1; auto. apply nth_error_Some. rewrite H2. discriminate. Qed.

Lemma scan_dynamic_spec d t name value : dwf d t -> forall k i acc,
  (i + k = length t)%nat ->
  (forall j, acc = Some j -> j < 2 ^ 64 /\ exists v, Lookup t j (name, v)) ->
  exists res, scan_dynamic k (N.of_nat i) acc d name value = Some res /\
  match res with
  | inl j => j < 2 ^ 64 /\ Lookup t j (name, value) /\ In (name, value) t
  | inr acc' => (forall j, acc' = Some j -> j < 2 ^ 64 /\ exists v, Lookup t j (name, v)) /\
                forall j, (i <= j)%nat -> nth_error t j <> Some (name, value)
  end.
Proof.
  intros W. pose proof W as ((C & _ & _ & S & _) & _). destruct (dwf_count d t W) as [_ Hc].
  change (2 ^ 59) with 576460752303423488 in Hc.
  induction k as [|k IH]; intros i acc Hi Hacc.
  - exists (inr acc). cbn [scan_dynamic]. split; auto. split; auto. intros j Hj E.
    assert (j < length t)%nat by (apply nth_error_Some; congruence). lia.
  - cbn [scan_dynamic].
    destruct (nth_error t i) as [[n v]|] eqn:En; [|apply nth_error_None in En; lia].
    rewrite (S i _ En). unfold entry_of. cbn [e_name e_value new_entry fst snd].
    assert (HL := Lookup_dyn t i _ En).
    assert (Hidx : 61 + N.of_nat i + 1 < 2 ^ 64) by (rewrite pow64; lia).
    replace (N.of_nat i + 1) with (N.of_nat (Datatypes.S i)) by lia.
    destruct (beq n name) eqn:E1.
    + apply beq_eq in E1. subst n. destruct (beq v value) eqn:E2.
      * apply beq_eq in E2. subst v. eexists. split; [reflexivity|]. split; [exact Hidx|]. split; [exact HL|].
        eapply nth_error_In; eauto.
      * apply beq_neq in E2. destruct (IH (Datatypes.S i) (Some (61 + N.of_nat i + 1))) as (res & Er & HR); [lia| |].
        { intros j Hj. injection Hj as <-. split; eauto. }
        exists res. split; [exact Er|]. destruct res as [j|acc']; auto. destruct HR as [A B]. split; auto.
        intros j Hj Ej. destruct (Nat.eq_dec i j) as [<-|]; [congruence|]. apply (B j); auto. lia.
    + apply beq_neq in E1. destruct (IH (Datatypes.S i) acc) as (res & Er & HR); [lia|auto|].
      exists res. split; [exact Er|]. destruct res as [j|acc']; auto. destruct HR as [A B]. split; auto.
      intros j Hj Ej. destruct (Nat.eq_dec i j) as [<-|]; [congruence|]. apply (B j); auto. lia.
Qed.

Lemma LongestFit_exists m t : exists kept, LongestFit m t kept.
Proof.
  induction t as [|x t IH] using rev_ind.
  - exists []. apply LongestFit_nil.
  - destruct (N.le_gt_cases (table_size (t ++ [x])) m) as [H|H].
    + exists (t ++ [x]). now apply LongestFit_self.
    + destruct IH as [k Hk]. exists k. now apply LongestFit_drop.
Qed.

Lemma prefix_of_same {A} (a b x y l : list A) : l = a ++ x -> l = b ++ y -> (length a <= length b)%nat -> exists z, b = a ++ z.
Proof.
  intros -> E H. exists (firstn (length b - length a) x).
  assert (Hb : b = firstn (length b) (a ++ x)) by (rewrite E, firstn_length_app; reflexivity).
  rewrite firstn_app in Hb. rewrite firstn_all2 in Hb by lia. exact Hb.
Qed.

Lemma LongestFit_prefix m m' t r k k' : m <= m' -> LongestFit m t k -> LongestFit m' (t ++ r) k' -> exists z, k' = k ++ z.
Proof.
  intros Hm ([x Hx] & Hs & _) ([y Hy] & _ & Hmax).
  assert (E : t ++ r = k ++ (x ++ r)) by (rewrite Hx, <- app_assoc; reflexivity).
  eapply prefix_of_same; [exact E|exact Hy|].
  destruct (Nat.le_gt_cases (length k) (length k')) as [|Hlt]; auto.
  specialize (Hmax k (x ++ r) E Hlt). lia.
Qed.

Definition sens_class (f : field) : bool := f_sensitive f || is_sensitive_by_default f || is_pseudo_header f.

Lemma encode_literal_repr n p t r f dyn st :
  1 <= n -> n <= 8 -> high_pattern n p -> field_ok f ->
  (forall j, dyn = Some j -> j < 2 ^ 64 /\ exists v, Lookup t j (f_name f, v)) ->
  (forall j, st = Some j -> j < 2 ^ 64 /\ exists v, Lookup t j (f_name f, v)) ->
  exists nb vb, encode_literal p n dyn st f = nb ++ vb /\ NameRepr n (t ++ r) nb (f_name f) /\ StrRepr vb (f_value f) /\
                starts p (p + (2 ^ n - 1)) nb /\ bytes_ok (nb ++ vb).
Proof.
  intros H1 H8 Hp (Hn & Hv & Hln & Hlv) Hd Hst. unfold encode_literal.
  destruct (encode_string_literal_repr (f_value f) true Hv Hlv) as [SV BV].
  assert (Hidx : forall j, j < 2 ^ 64 -> (exists v, Lookup t j (f_name f, v)) ->
    NameRepr n (t ++ r) (encode_integer p n j) (f_name f) /\ bytes_ok (encode_integer p n j)).
  { intros j Hj [v HL]. split.
    - change (f_name f) with (fst (f_name f, v)). eapply NR_index; [apply encode_integer_wire; auto|]. now apply Lookup_app.
    - eapply IntRepr_bytes, encode_integer_repr; auto. }
  assert (Hst2 : forall j q, starts p (p + (2 ^ n - 1)) (encode_integer p n j ++ q)).
  { intros j q. destruct (encode_integer_first n p j H1 H8 Hp) as (b & x & E & A & B). rewrite E. exists b, (x ++ q).
    repeat split; auto. lia. }
  destruct dyn as [j|].
  - destruct (Hd j eq_refl) as [A B]. destruct (Hidx j A B) as [C D]. eexists _, _. split; [reflexivity|].
    repeat split; auto; [rewrite <- (app_nil_r (encode_integer p n j)); apply Hst2|apply bytes_ok_app; auto].
  - destruct st as [j|].
    + destruct (Hst j eq_refl) as [A B]. destruct (Hidx j A B) as [C D]. eexists _, _. split; [reflexivity|].
      repeat split; auto; [rewrite <- (app_nil_r (encode_integer p n j)); apply Hst2|apply bytes_ok_app; auto].
    + destruct (encode_string_literal_repr (f_name f) (negb (is_pseudo_header f)) Hn Hln) as [SN BN].
      eexists _, _. split; [reflexivity|]. repeat split; auto.
      * apply NR_literal; auto. apply encode_integer_wire; auto. reflexivity.
      * apply bytes_ok_app. split; auto. apply bytes_ok_app. split; auto. eapply IntRepr_bytes, encode_integer_repr; auto.
Qed.

Theorem encode_field_spec d t f : dwf d t -> field_ok f ->
  exists bytes d' t', encode_field d f = Some (bytes, d') /\ dwf d' t' /\ dt_max d' = dt_max d /\ bytes_ok bytes /\
  (t' = t \/ (sens_class f = false /\ exists kept x, t' = nv f :: kept /\ t = kept ++ x)) /\
  forall limit md r, dt_max d <= md ->
  exists sens r', Instr limit bytes (md, t ++ r) (Some (nv f, sens)) (md, t' ++ r') /\
    (forall p, In p (t' ++ r') -> In p (t ++ r) \/ (p = nv f /\ sens_class f = false)) /\
    (sens_class f = true -> sens = false -> In (nv f) (STATIC_TABLE ++ t)).
Proof.
  intros W Hf. pose proof Hf as (Hn & Hv & Hln & Hlv). unfold encode_field.
  assert (HP7 : high_pattern 7 128) by (split; reflexivity).
  assert (Hindexed : forall i, i < 2 ^ 64 -> Lookup t i (nv f) ->
    bytes_ok (encode_integer 128 7 i) /\ forall limit md r, Instr limit (encode_integer 128 7 i) (md, t ++ r) (Some (nv f, false)) (md, t ++ r)).
  { intros i Hi HL. split; [eapply IntRepr_bytes, encode_integer_repr; auto; lia|].
    intros limit md r. eapply I_indexed; [|apply encode_integer_wire; auto; lia|apply Lookup_app; eauto].
    destruct (encode_integer_first 7 128 i) as (b & q & E & A & B); auto; try lia. exists b, q. change (2 ^ 7) with 128 in B. repeat split; auto. lia. }
  pose proof (find_exact_match_spec (f_name f) (f_value f)) as HX.
  destruct (find_exact_match (f_name f) (f_value f)) as [i|].
  { destruct HX as [H1 HX].
    assert (Hi : i < 2 ^ 64).
    { assert (N.to_nat (i - 1) < 61)%nat by (rewrite <- static_length; apply nth_error_Some; congruence). rewrite pow64; lia. }
    destruct (Hindexed i Hi) as [B I]; [apply Lookup_static; auto|].
    eexists _, _, t. split; [reflexivity|]. repeat split; auto; try apply W.
    intros limit md r Hmd. exists false, r. repeat split; auto. intros _ _. apply in_or_app. left. eapply nth_error_In; eauto. }
  pose proof W as ((C & _) & _).
  destruct (scan_dynamic_spec d t (f_name f) (f_value f) W (N.to_nat (dt_count d)) 0 None) as (res & Er & HR); [lia|discriminate|].
  change (N.of_nat 0) with 0 in Er. rewrite Er.
  destruct res as [j|dyn].
  { destruct HR as (Hj & HL & Hin). destruct (Hindexed j Hj HL) as [B I].
    eexists _, _, t. split; [reflexivity|]. repeat split; auto; try apply W.
    intros limit md r Hmd. exists false, r. repeat split; auto. intros _ _. apply in_or_app. right. exact Hin. }
  destruct HR as [Hdyn Hnone].
  assert (Hst : forall j, find_name_match (f_name f) = Some j -> j < 2 ^ 64 /\ exists v, Lookup t j (f_name f, v)).
  { intros j Ej. pose proof (find_name_match_spec (f_name f)) as HN. rewrite Ej in HN. destruct HN as (H1 & [v HN] & _).
    assert (N.to_nat (j - 1) < 61)%nat by (rewrite <- static_length; apply nth_error_Some; congruence).
    split; [rewrite pow64; lia|]. exists v. apply Lookup_static; auto. }
  change (f_sensitive f || is_sensitive_by_default f || is_pseudo_header f) with (sens_class f).
  destruct (sens_class f) eqn:ES.
  { assert (HP4 : high_pattern 4 16) by (split; reflexivity).
    destruct (encode_literal_repr 4 16 t [] f dyn (find_name_match (f_name f))) as (nb0 & vb0 & E0 & _ & _ & _ & BB); auto; try lia.
    eexists _, _, t. split; [reflexivity|]. split; [exact W|]. split; [reflexivity|]. split; [rewrite E0; exact BB|]. split; [auto|].
    intros limit md r Hmd.
    destruct (encode_literal_repr 4 16 t r f dyn (find_name_match (f_name f))) as (nb & vb & E & HN & HV & HS & _); auto; try lia.
    exists true, r. split; [|split; [auto|discriminate]]. rewrite E. apply I_never; auto. }
  destruct (f_sensitive f || is_sensitive_by_default f) eqn:ES1.
  { exfalso. unfold sens_class in ES. rewrite ES1 in ES. discriminate. }
  assert (ES2 : is_pseudo_header f = false).
  { unfold sens_class in ES. rewrite ES1 in ES. exact ES. }
  rewrite ES2. cbn [negb andb]. rewrite !andb_true_r.
  destruct (hpack_size f <=? dt_max d) eqn:EM.
  - apply N.leb_le in EM. change (hpack_size f) with (entry_size (nv f)) in EM.
    destruct (dt_add_spec d t (f_name f) (f_value f) W) as (d1 & t1 & EA & W1 & T1). rewrite EA.
    change (f_name f, f_value f) with (nv f) in T1.
    inversion T1 as [m0 t0 p0 Hbig|m0 t0 p0 kept Hfit HL E1 E2 E3|m0 t0 m' kept HL|m0 t0]; subst; [lia|].
    assert (HP6 : high_pattern 6 64) by (split; reflexivity).
    destruct (encode_literal_repr 6 64 t [] f dyn (find_name_match (f_name f))) as (nb0 & vb0 & E0 & _ & _ & _ & BB); auto; try lia.
    eexists _, d1, (nv f :: kept). split; [reflexivity|]. split; [exact W1|]. split; [auto|]. split; [rewrite E0; exact BB|].
    split. { right. split; [reflexivity|]. destruct HL as ([x Hx] & _). eauto. }
    intros limit md r Hmd.
    destruct (encode_literal_repr 6 64 t r f dyn (find_name_match (f_name f))) as (nb & vb & E & HN & HV & HS & _); auto; try lia.
    destruct (LongestFit_exists (md - entry_size (nv f)) (t ++ r)) as [k' Hk'].
    destruct (LongestFit_prefix (dt_max d - entry_size (nv f)) (md - entry_size (nv f)) t r kept k') as [z Hz]; auto; [lia|].
    exists false, z. split; [|split].
    + rewrite E. rewrite <- app_comm_cons, <- Hz. apply I_incremental; auto. apply TS_add; auto.
      change (entry_size (f_name f, f_value f)) with (entry_size (nv f)). lia.
    + intros p Hp. simpl in Hp. destruct Hp as [<-|Hp]; [right; auto|left].
      rewrite <- Hz in Hp. destruct Hk' as ([y Hy] & _). rewrite Hy. apply in_or_app. auto.
    + intros Hc. congruence.
  - assert (HP4 : high_pattern 4 0) by (split; reflexivity).
    destruct (encode_literal_repr 4 0 t [] f dyn (find_name_match (f_name f))) as (nb0 & vb0 & E0 & _ & _ & _ & BB); auto; try lia.
    eexists _, _, t. split; [reflexivity|]. split; [exact W|]. split; [reflexivity|]. split; [rewrite E0; exact BB|]. split; [auto|].
    intros limit md r Hmd.
    destruct (encode_literal_repr 4 0 t r f dyn (find_name_match (f_name f))) as (nb & vb & E & HN & HV & HS & _); auto; try lia.
    exists false, r. split; [|split; [auto|intros Hc; congruence]]. rewrite E. apply I_without; auto.
Qed.

(** Relation between the fields given to the encoder and those a decoder of the block delivers,
    from encoder table [t]. *)
Definition delivered (t : list pair_t) (all : list field) (f : field) (v : pair_t * bool) : Prop :=
  fst v = nv f /\
  (sens_class f = true -> snd v = false ->
   In (nv f) (STATIC_TABLE ++ t) \/ exists g, In g all /\ nv g = nv f /\ sens_class g = false).

Lemma Forall2_weaken {A B} (P Q : A -> B -> Prop) a b : (forall x y, P x y -> Q x y) -> Forall2 P a b -> Forall2 Q a b.
Proof. intros H. induction 1; constructor; auto. Qed.

Theorem encode_fields_spec : forall fs d t, dwf d t -> Forall field_ok fs ->
  exists d' t' out ok, encode_fields d fs = Some (d', out, ok) /\ dwf d' t' /\ dt_max d' = dt_max d /\ bytes_ok out /\
  (ok = true <-> Forall (fun f => hv_is_valid_field f = true) fs) /\
  (forall p, In p t' -> In p t \/ exists f, In f fs /\ p = nv f /\ sens_class f = false) /\
  (ok = true -> forall limit upd md r, dt_max d <= md ->
   exists vs r', Block limit upd out (md, t ++ r) vs (md, t' ++ r') /\ Forall2 (delivered t fs) fs vs /\
     (forall p, In p (t' ++ r') -> In p (t ++ r) \/ exists f, In f fs /\ p = nv f /\ sens_class f = false)).
Proof.
  induction fs as [|f fs IH]; intros d t W HF.
  - exists d, t, [], true. cbn [encode_fields]. split; [reflexivity|]. split; [exact W|]. split; [reflexivity|].
    split; [constructor|]. split; [split; auto|]. split; [auto|].
    intros _ limit upd md r Hmd. exists [], r. split; [constructor|]. split; [constructor|auto].
  - inversion HF as [|? ? Hf HF']; subst. cbn [encode_fields].
    destruct (hv_is_valid_field f) eqn:EV; cbn [negb].
    + destruct (encode_field_spec d t f W Hf) as (bytes & d1 & t1 & E1 & W1 & M1 & B1 & T1 & S1). rewrite E1.
      destruct (IH d1 t1 W1 HF') as (d2 & t2 & out & ok & E2 & W2 & M2 & B2 & K2 & I2 & S2). rewrite E2.
      exists d2, t2, (bytes ++ out), ok. split; [reflexivity|]. split; [exact W2|]. split; [congruence|].
      split; [apply bytes_ok_app; auto|]. split; [|split].
      * rewrite K2. split; intros H; [constructor; auto|inversion H; auto].
      * intros p Hp. destruct (I2 p Hp) as [H|(g & Hg & -> & Hs)]; [|right; exists g; simpl; auto].
        destruct T1 as [->|(Hs & kept & x & -> & ->)]; [auto|].
        destruct H as [<-|H]; [right; exists f; simpl; auto|left; apply in_or_app; auto].
      * intros Hok limit upd md r Hmd.
        destruct (S1 limit md r Hmd) as (sens & r1 & HI & HP & HS).
        destruct (S2 Hok limit false md r1) as (vs & r2 & HB & HD & HP2); [rewrite M1; exact Hmd|].
        exists ((nv f, sens) :: vs), r2. split; [|split].
        -- eapply B_field; eauto.
        -- constructor.
           ++ split; [reflexivity|]. intros A B. left. exact (HS A B).
           ++ eapply Forall2_weaken; [|exact HD]. intros g v [Hg1 Hg2]. split; auto.
              intros A B. destruct (Hg2 A B) as [H|(g' & Hg' & Hnv & Hs)].
              ** apply in_app_or in H as [H|H]; [left; apply in_or_app; auto|].
                 destruct T1 as [->|(Hsf & kept & x & -> & ->)]; [left; apply in_or_app; auto|].
                 destruct H as [H|H]; [right; exists f; simpl; auto|left; apply in_or_app; right; apply in_or_app; auto].
              ** right. exists g'. simpl; auto.
        -- intros p Hp. destruct (HP2 p Hp) as [H|(g & Hg & -> & Hs)]; [|right; exists g; simpl; auto].
           destruct (HP p H) as [H2|[-> Hs]]; [auto|right; exists f; simpl; auto].
    + exists d, t, [], false. split; [reflexivity|]. split; [exact W|]. split; [reflexivity|]. split; [constructor|].
      split. { split; [discriminate|]. intros H. inversion H; congruence. }
      split; [auto|discriminate].
Qed.
