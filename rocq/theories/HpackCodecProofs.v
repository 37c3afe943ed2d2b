(** C14-C17, C19: the decoder accepts exactly the RFC 7541 blocks; encoder and decoder agree. *)
From Verif Require Import Base HpackTables HpackModel HpackSpec HpackIntProofs HuffmanProofs DynTableProofs.
Local Open Scope N_scope.

Lemma bytes_ok_app a b : bytes_ok (a ++ b) <-> bytes_ok a /\ bytes_ok b.
Proof. apply Forall_app. Qed.

Lemma bytes_ok_firstn n s : bytes_ok s -> bytes_ok (firstn n s).
Proof. intros H. rewrite <- (firstn_skipn n s) in H. now apply bytes_ok_app in H. Qed.

Lemma bytes_ok_skipn n s : bytes_ok s -> bytes_ok (skipn n s).
Proof. intros H. rewrite <- (firstn_skipn n s) in H. now apply bytes_ok_app in H. Qed.

Lemma decode_integer_wire n s v rest : 1 <= n -> n <= 8 -> bytes_ok s ->
  (decode_integer n s = Some (v, rest) <-> exists bs, s = bs ++ rest /\ WireInt n bs v).
Proof. intros. rewrite decode_integer_spec by auto. unfold WireInt. tauto. Qed.

Lemma WireInt_nonempty n bs v : WireInt n bs v -> exists b r, bs = b :: r.
Proof. intros (H & _). destruct H; eauto. Qed.

(** ** String literals *)

Theorem decode_string_literal_spec s v rest : bytes_ok s ->
  (decode_string_literal s = inr (v, rest) <-> exists sb, s = sb ++ rest /\ StrRepr sb v).
Proof.
  intros Hok. unfold decode_string_literal. destruct s as [|first s'].
  { split; [discriminate|]. intros (sb & E & HS). destruct HS as [hd s HI _|hd d s HI _ _ _];
      destruct (WireInt_nonempty _ _ _ HI) as (b & r & ->); discriminate. }
  assert (Hf : first < 256) by (inversion Hok; auto).
  destruct (byte_split first Hf) as [Htop _].
  destruct (decode_integer 7 (first :: s')) as [[l r]|] eqn:E.
  - apply decode_integer_wire in E as (hd & Es & HI); [|lia|lia|auto].
    destruct (WireInt_nonempty _ _ _ HI) as (b0 & hr & Ehd). rewrite Ehd in Es. simpl in Es. injection Es as <- Es.
    assert (Hr : bytes_ok r).
    { rewrite Es in Hok. inversion Hok; subst. now apply bytes_ok_app in H2. }
    (* any representation at the front of the input starts with the same integer *)
    assert (Hdet : forall hd2 l2 tail, first :: s' = hd2 ++ tail -> WireInt 7 hd2 l2 -> hd2 = hd /\ l2 = l /\ tail = r).
    { intros hd2 l2 tail E2 (HI2 & _). destruct HI as (HI & _).
      apply (IntRepr_det 7 hd2 l2 tail hd l r); auto. rewrite <- E2, Ehd. simpl. now rewrite Es. }
    destruct (len r <? l) eqn:EL.
    + apply N.ltb_lt in EL. split; [discriminate|]. intros (sb & E2 & HS).
      destruct HS as [hd2 w HI2 _|hd2 d w HI2 _ _ _]; rewrite <- app_assoc in E2;
        destruct (Hdet _ _ _ E2 HI2) as (-> & <- & <-); unfold len in EL; rewrite app_length in EL; lia.
    + apply N.ltb_ge in EL. unfold len in EL.
      assert (Hlen : length (firstn (N.to_nat l) r) = N.to_nat l) by (rewrite firstn_length; lia).
      assert (Hsplit : first :: s' = (hd ++ firstn (N.to_nat l) r) ++ skipn (N.to_nat l) r).
      { rewrite <- app_assoc, firstn_skipn, Ehd. simpl. now rewrite Es. }
      rewrite Htop. destruct (first <? 128) eqn:EB; cbn [negb].
      * apply N.ltb_lt in EB. split.
        -- intros H. injection H as <- <-. exists (hd ++ firstn (N.to_nat l) r). split; [exact Hsplit|].
           apply SR_plain; [|exists first, hr; auto].
           replace (N.of_nat (length (firstn (N.to_nat l) r))) with l by lia. exact HI.
        -- intros (sb & E2 & HS). destruct HS as [hd2 w HI2 _|hd2 d w HI2 (b & q & Eb & Hb) _ _];
             rewrite <- app_assoc in E2; destruct (Hdet _ _ _ E2 HI2) as (-> & El & Er).
           ++ rewrite <- Er, <- El, Nat2N.id, firstn_length_app, skipn_length_app. reflexivity.
           ++ rewrite Ehd in Eb. injection Eb as <- _. lia.
      * apply N.ltb_ge in EB.
        destruct (huffman_decode (firstn (N.to_nat l) r)) as [u|] eqn:EH.
        -- apply huffman_decode_spec in EH as [Hu HH]; [|apply bytes_ok_firstn; auto]. split.
           ++ intros H. injection H as <- <-. exists (hd ++ firstn (N.to_nat l) r). split; [exact Hsplit|].
              apply SR_huff; auto; [|exists first, hr; auto].
              replace (N.of_nat (length (firstn (N.to_nat l) r))) with l by lia. exact HI.
           ++ intros (sb & E2 & HS). destruct HS as [hd2 w HI2 (b & q & Eb & Hb)|hd2 d w HI2 _ Hw HH2];
                rewrite <- app_assoc in E2; destruct (Hdet _ _ _ E2 HI2) as (-> & El & Er).
              ** rewrite Ehd in Eb. injection Eb as <- _. lia.
              ** rewrite <- Er, <- El, Nat2N.id, firstn_length_app in HH. rewrite <- Er, <- El, Nat2N.id, skipn_length_app.
                 assert (Hd : bytes_ok d) by (rewrite <- Er in Hr; apply bytes_ok_app in Hr; tauto).
                 assert (A : huffman_decode d = Some u) by (apply huffman_decode_spec; auto).
                 assert (B : huffman_decode d = Some w) by (apply huffman_decode_spec; auto).
                 congruence.
        -- split; [discriminate|]. intros (sb & E2 & HS).
           destruct HS as [hd2 w HI2 (b & q & Eb & Hb)|hd2 d w HI2 _ Hw HH2];
             rewrite <- app_assoc in E2; destruct (Hdet _ _ _ E2 HI2) as (-> & El & Er).
           ++ rewrite Ehd in Eb. injection Eb as <- _. lia.
           ++ rewrite <- Er, <- El, Nat2N.id, firstn_length_app in EH.
              assert (Hd : bytes_ok d) by (rewrite <- Er in Hr; apply bytes_ok_app in Hr; tauto).
              assert (B : huffman_decode d = Some w) by (apply huffman_decode_spec; auto). congruence.
  - split; [discriminate|]. intros (sb & E2 & HS).
    assert (Hex : exists hd2 l2 tail, first :: s' = hd2 ++ tail /\ WireInt 7 hd2 l2).
    { destruct HS as [hd2 w HI2 _|hd2 d w HI2 _ _ _]; rewrite <- app_assoc in E2; eauto. }
    destruct Hex as (hd2 & l2 & tail & E3 & HI).
    assert (decode_integer 7 (first :: s') = Some (l2, tail)) by (apply decode_integer_wire; [lia|lia|auto|eauto]).
    congruence.
Qed.

Lemma StrRepr_nonempty sb v : StrRepr sb v -> exists b r, sb = b :: r.
Proof. intros H. destruct H as [hd s HI _|hd d s HI _ _ _]; destruct (WireInt_nonempty _ _ _ HI) as (b & r & ->); simpl; eauto. Qed.

(** ** Tables *)

Lemma static_length : length STATIC_TABLE = 61%nat.
Proof. reflexivity. Qed.

Lemma dwf_count d t : dwf d t -> dt_count d = N.of_nat (length t) /\ dt_count d < 2 ^ 59.
Proof.
  intros ((C & _) & Hm & Hm2). split; auto. pose proof (table_size_count t). rewrite pow64 in Hm2.
  change (2 ^ 59) with 576460752303423488. lia.
Qed.

Theorem table_entry_spec d t index : dwf d t -> index < 2 ^ 64 ->
  (exists p, table_entry d index = Some (Some p) /\ Lookup t index p) \/
  (table_entry d index = Some None /\ forall p, ~ Lookup t index p).
Proof.
  intros W Hi. pose proof W as ((C & _ & _ & S & _) & _). destruct (dwf_count d t W) as [_ Hc].
  unfold table_entry, Lookup.
  destruct (negb (index =? 0) && (index <=? 61)) eqn:E.
  - apply andb_true_iff in E as [E1 E2]. apply negb_true_iff, N.eqb_neq in E1. apply N.leb_le in E2.
    destruct (nth_error STATIC_TABLE (N.to_nat (index - 1))) as [p|] eqn:En.
    + left. exists p. split; [reflexivity|]. split; [lia|]. rewrite nth_error_app1; auto. rewrite static_length. lia.
    + apply nth_error_None in En. rewrite static_length in En. lia.
  - assert (Hcase : index = 0 \/ 61 < index).
    { apply andb_false_iff in E as [E|E]; [apply negb_false_iff, N.eqb_eq in E; auto|apply N.leb_gt in E; auto]. }
    destruct Hcase as [->|Hbig].
    + right. split; [|intros p [H _]; lia].
      replace (dt_count d <? _) with true; [reflexivity|]. symmetry. apply N.ltb_lt.
      change (w64 (0 + 18446744073709551616 - 61)) with 18446744073709551555.
      change (2 ^ 59) with 576460752303423488 in Hc. lia.
    + assert (Hdi : w64 (index + 18446744073709551616 - 61) = index - 61).
      { unfold w64. replace (index + 18446744073709551616 - 61) with (index - 61 + 1 * 18446744073709551616) by lia.
        rewrite N.mod_add by lia. apply N.mod_small. rewrite pow64 in Hi. lia. }
      rewrite Hdi. replace (index - 61 =? 0) with false by (symmetry; apply N.eqb_neq; lia). rewrite orb_false_r.
      assert (Hnth : nth_error (STATIC_TABLE ++ t) (N.to_nat (index - 1)) = nth_error t (N.to_nat (index - 62))).
      { rewrite nth_error_app2 by (rewrite static_length; lia). rewrite static_length. replace (N.to_nat (index - 1) - 61)%nat with (N.to_nat (index - 62)) by lia. reflexivity. }
      rewrite Hnth.
      destruct (dt_count d <? index - 61) eqn:EL.
      * right. split; [reflexivity|]. apply N.ltb_lt in EL. intros p [_ H].
        assert (N.to_nat (index - 62) < length t)%nat by (apply nth_error_Some; congruence). lia.
      * apply N.ltb_ge in EL. destruct (nth_error t (N.to_nat (index - 62))) as [p|] eqn:Ep.
        -- left. exists p. pose proof (S _ _ Ep) as HG. replace (N.of_nat (N.to_nat (index - 62))) with (index - 61 - 1) in HG by lia.
           rewrite HG. split; [destruct p; reflexivity|]. split; [lia|reflexivity].
        -- apply nth_error_None in Ep. lia.
Qed.

Lemma Lookup_det t i p q : Lookup t i p -> Lookup t i q -> p = q.
Proof. intros [_ A] [_ B]. congruence. Qed.

Lemma TableStep_det s op s1 s2 : TableStep s op s1 -> TableStep s op s2 -> s1 = s2.
Proof.
  intros A B. inversion A; subst; inversion B; subst; auto; try lia.
  - f_equal. f_equal. eapply LongestFit_unique; eauto.
  - f_equal. eapply LongestFit_unique; eauto.
Qed.

(** ** Literals *)

Definition outcome_total {A} (o : outcome A) : Prop := o <> OUndef.

Theorem decode_literal_spec n d t s : 1 <= n -> n <= 8 -> dwf d t -> bytes_ok s ->
  decode_literal n d s <> OUndef /\
  forall name value rest,
  (decode_literal n d s = OOk (name, value, rest) <->
   exists nb vb, s = nb ++ vb ++ rest /\ NameRepr n t nb name /\ StrRepr vb value).
Proof.
  intros H1 H8 W Hok. unfold decode_literal.
  destruct (decode_integer n s) as [[index r]|] eqn:EI.
  - apply decode_integer_wire in EI as (hd & -> & HI); auto.
    assert (Hr : bytes_ok r) by (apply bytes_ok_app in Hok; tauto).
    assert (Hdet : forall hd2 l2 tail, hd ++ r = hd2 ++ tail -> WireInt n hd2 l2 -> hd2 = hd /\ l2 = index /\ tail = r).
    { intros hd2 l2 tail E2 (HI2 & _). destruct HI as (HI & _). symmetry in E2.
      apply (IntRepr_det n hd2 l2 tail hd index r); auto. }
    destruct (index =? 0) eqn:E0.
    + apply N.eqb_eq in E0. subst index.
      destruct (decode_string_literal r) as [fl|[nm r1]] eqn:EN.
      * split; [discriminate|]. intros name value rest. split; [discriminate|].
        intros (nb & vb & E2 & HN & HV). exfalso. destruct HN as [hd2 i p HI2 [Hl _]|hd2 sb s2 HI2 HS].
        -- destruct (Hdet _ _ _ E2 HI2) as (_ & -> & _). lia.
        -- rewrite <- app_assoc in E2. destruct (Hdet _ _ _ E2 HI2) as (_ & _ & Er).
           assert (decode_string_literal r = inr (s2, vb ++ rest)) by (apply decode_string_literal_spec; eauto). congruence.
      * assert (EN' := EN). apply decode_string_literal_spec in EN' as (sb1 & Er1 & HS1); auto.
        assert (Hr1 : bytes_ok r1) by (rewrite Er1 in Hr; apply bytes_ok_app in Hr; tauto).
        destruct (decode_string_literal r1) as [fl|[vl r2]] eqn:EV.
        -- split; [discriminate|]. intros name value rest. split; [discriminate|].
           intros (nb & vb & E2 & HN & HV). exfalso. destruct HN as [hd2 i p HI2 [Hl _]|hd2 sb s2 HI2 HS].
           ++ destruct (Hdet _ _ _ E2 HI2) as (_ & -> & _). lia.
           ++ rewrite <- app_assoc in E2. destruct (Hdet _ _ _ E2 HI2) as (_ & _ & Er).
              assert (A : decode_string_literal r = inr (s2, vb ++ rest)) by (apply decode_string_literal_spec; eauto).
              rewrite EN in A. injection A as -> ->.
              assert (B : decode_string_literal (vb ++ rest) = inr (value, rest)) by (apply decode_string_literal_spec; eauto).
              congruence.
        -- split; [discriminate|]. intros name value rest. split.
           ++ intros H. injection H as -> -> ->. apply decode_string_literal_spec in EV as (vb & -> & HV); auto.
              exists (hd ++ sb1), vb. split; [|split; [apply NR_literal; auto|auto]]. now rewrite <- app_assoc, Er1.
           ++ intros (nb & vb & E2 & HN & HV). destruct HN as [hd2 i p HI2 [Hl _]|hd2 sb s2 HI2 HS].
              ** destruct (Hdet _ _ _ E2 HI2) as (_ & -> & _). lia.
              ** rewrite <- app_assoc in E2. destruct (Hdet _ _ _ E2 HI2) as (_ & _ & Er).
                 assert (A : decode_string_literal r = inr (s2, vb ++ rest)) by (apply decode_string_literal_spec; eauto).
                 rewrite EN in A. injection A as -> ->.
                 assert (B : decode_string_literal (vb ++ rest) = inr (value, rest)) by (apply decode_string_literal_spec; eauto).
                 rewrite EV in B. injection B as -> ->. reflexivity.
    + apply N.eqb_neq in E0.
      destruct (table_entry_spec d t index W) as [(p & ET & HL)|(ET & HL)]; [apply HI| |]; rewrite ET.
      * destruct p as [pn pv]. destruct (decode_string_literal r) as [fl|[vl r2]] eqn:EV.
        -- split; [discriminate|]. intros name value rest. split; [discriminate|].
           intros (nb & vb & E2 & HN & HV). exfalso. destruct HN as [hd2 i q HI2 HL2|hd2 sb s2 HI2 HS].
           ++ destruct (Hdet _ _ _ E2 HI2) as (_ & _ & Er).
              assert (decode_string_literal r = inr (value, rest)) by (apply decode_string_literal_spec; eauto). congruence.
           ++ rewrite <- app_assoc in E2. destruct (Hdet _ _ _ E2 HI2) as (_ & Ei & _). lia.
        -- split; [discriminate|]. intros name value rest. split.
           ++ intros H. injection H as <- <- <-. apply decode_string_literal_spec in EV as (vb & -> & HV); auto.
              exists hd, vb. split; [reflexivity|]. split; auto. change pn with (fst (pn, pv)). eapply NR_index; eauto.
           ++ intros (nb & vb & E2 & HN & HV). destruct HN as [hd2 i q HI2 HL2|hd2 sb s2 HI2 HS].
              ** destruct (Hdet _ _ _ E2 HI2) as (_ & -> & Er). rewrite (Lookup_det _ _ _ _ HL HL2) in *.
                 assert (A : decode_string_literal r = inr (value, rest)) by (apply decode_string_literal_spec; eauto).
                 rewrite EV in A. injection A as -> ->. pose proof (Lookup_det _ _ _ _ HL HL2) as EQ. rewrite <- EQ. reflexivity.
              ** rewrite <- app_assoc in E2. destruct (Hdet _ _ _ E2 HI2) as (_ & Ei & _). lia.
      * split; [discriminate|]. intros name value rest. split; [discriminate|].
        intros (nb & vb & E2 & HN & HV). exfalso. destruct HN as [hd2 i q HI2 HL2|hd2 sb s2 HI2 HS].
        -- destruct (Hdet _ _ _ E2 HI2) as (_ & -> & Er). eapply HL; eauto.
        -- rewrite <- app_assoc in E2. destruct (Hdet _ _ _ E2 HI2) as (_ & Ei & _). lia.
  - split; [discriminate|]. intros name value rest. split; [discriminate|].
    intros (nb & vb & E2 & HN & HV). exfalso.
    assert (Hex : exists hd2 l2 tail, s = hd2 ++ tail /\ WireInt n hd2 l2).
    { destruct HN as [hd2 i q HI2 _|hd2 sb s2 HI2 _]; [|rewrite <- app_assoc in E2]; eauto. }
    destruct Hex as (hd2 & l2 & tail & E3 & HI).
    assert (decode_integer n s = Some (l2, tail)) by (apply decode_integer_wire; eauto). congruence.
Qed.

Lemma NameRepr_nonempty n t nb name : NameRepr n t nb name -> exists b r, nb = b :: r.
Proof.
  intros H. destruct H as [hd i p HI _|hd sb s HI _]; destruct (WireInt_nonempty _ _ _ HI) as (b & r & ->); simpl; eauto.
Qed.

(** ** Instructions *)

Lemma first_classes b : b < 256 ->
  (N.shiftr b 7 =? 1) = (128 <=? b) /\
  (N.shiftr b 6 =? 1) = (64 <=? b) && (b <=? 127) /\
  (N.shiftr b 4 =? 0) = (b <=? 15) /\
  (N.shiftr b 4 =? 1) = (16 <=? b) && (b <=? 31) /\
  (N.shiftr b 5 =? 1) = (32 <=? b) && (b <=? 63).
Proof.
  intros H.
  pose (P := fun b => Bool.eqb (N.shiftr b 7 =? 1) (128 <=? b) &&
    Bool.eqb (N.shiftr b 6 =? 1) ((64 <=? b) && (b <=? 127)) && Bool.eqb (N.shiftr b 4 =? 0) (b <=? 15) &&
    Bool.eqb (N.shiftr b 4 =? 1) ((16 <=? b) && (b <=? 31)) && Bool.eqb (N.shiftr b 5 =? 1) ((32 <=? b) && (b <=? 63))).
  assert (HP : P b = true) by (apply (byte_sweep P); [vm_compute; reflexivity|assumption]).
  unfold P in HP. repeat (apply andb_true_iff in HP as [HP ?]).
  repeat match goal with X : Bool.eqb _ _ = true |- _ => apply eqb_prop in X end. auto.
Qed.

Definition view (f : field) : pair_t * bool := ((f_name f, f_value f), f_sensitive f).

Lemma starts_app lo hi a b : starts lo hi (a ++ b) -> (exists x r, a = x :: r) -> starts lo hi a.
Proof. intros (x & r & E & H) (y & q & ->). simpl in E. injection E as -> E. exists x, q. auto. Qed.

Theorem decode_instruction_spec d t limit upd s : dwf d t -> bytes_ok s -> limit < 2 ^ 64 -> s <> [] ->
  decode_instruction d limit upd s <> OUndef /\
  (forall d' of r, decode_instruction d limit upd s = OOk (d', of, r) ->
     exists bs t', s = bs ++ r /\ bs <> [] /\ dwf d' t' /\
       Instr limit bs (dt_max d, t) (option_map view of) (dt_max d', t') /\ (of = None -> upd = true)) /\
  (forall bs r fo st', s = bs ++ r -> Instr limit bs (dt_max d, t) fo st' -> (fo = None -> upd = true) ->
     exists d' of, decode_instruction d limit upd s = OOk (d', of, r) /\ option_map view of = fo /\
                   dwf d' (snd st') /\ dt_max d' = fst st').
Proof.
  intros W Hok Hlim Hne. destruct s as [|b s']; [congruence|]. clear Hne.
  assert (Hb : b < 256) by (inversion Hok; auto).
  destruct (first_classes b Hb) as (C1 & C2 & C3 & C4 & C5).
  unfold decode_instruction. rewrite C1, C2, C3, C4, C5.
  (* the class of an instruction that starts this input *)
  assert (Hst : forall lo hi x y, b :: s' = x ++ y -> starts lo hi x -> lo <= b /\ b <= hi).
  { intros lo hi x y E (z & q & -> & H). simpl in E. injection E as -> _. auto. }
  assert (Hlead : forall lo hi x y, b :: s' = x ++ y -> (exists z q, x = z :: q) -> lo <= b -> b <= hi -> starts lo hi x).
  { intros lo hi x y E (z & q & ->) A B. simpl in E. injection E as -> _. exists z, q. auto. }
  destruct (128 <=? b) eqn:K1.
  { apply N.leb_le in K1.
    destruct (decode_integer 7 (b :: s')) as [[index r]|] eqn:EI.
    - assert (EI' := EI). apply decode_integer_wire in EI as (bs & Es & HI); [|lia|lia|auto].
      destruct (index =? 0) eqn:E0.
      + apply N.eqb_eq in E0. subst. split; [discriminate|]. split; [discriminate|].
        intros bs2 r2 fo st' E2 HIn _. exfalso.
        inversion HIn; subst; try rewrite <- app_assoc in E2;
          match goal with S : starts _ _ _ |- _ => pose proof (Hst _ _ _ _ E2 S) end; try lia.
        assert (HD : decode_integer 7 (b :: s') = Some (i, r2)) by (apply decode_integer_wire; [lia|lia|auto|eauto]).
        rewrite EI' in HD. injection HD as <- <-. match goal with L : Lookup _ 0 _ |- _ => destruct L; lia end.
      + destruct (table_entry_spec d t index W) as [(p & ET & HL)|(ET & HL)]; [apply HI| |]; rewrite ET.
        * destruct p as [pn pv]. split; [discriminate|]. split.
          -- intros d' of r0 H. injection H as <- <- <-. exists bs, t. split; auto.
             destruct (WireInt_nonempty _ _ _ HI) as (x & q & Ebs). split; [subst; discriminate|]. split; auto. split; [|discriminate].
             simpl. apply (I_indexed limit bs index (pn, pv)); auto. eapply Hlead; eauto. lia.
          -- intros bs2 r2 fo st' E2 HIn _.
             inversion HIn; subst; try rewrite <- app_assoc in E2;
               match goal with S : starts _ _ _ |- _ => pose proof (Hst _ _ _ _ E2 S) end; try lia.
             assert (HD : decode_integer 7 (b :: s') = Some (i, r2)) by (apply decode_integer_wire; [lia|lia|auto|eauto]).
             rewrite EI' in HD. injection HD as <- <-. match goal with L : Lookup _ index ?q |- context[view] => rewrite (Lookup_det _ _ _ _ L HL) end. eexists _, _. split; [reflexivity|].
             simpl. auto.
        * split; [discriminate|]. split; [discriminate|].
          intros bs2 r2 fo st' E2 HIn _. exfalso.
          inversion HIn; subst; try rewrite <- app_assoc in E2;
            match goal with S : starts _ _ _ |- _ => pose proof (Hst _ _ _ _ E2 S) end; try lia.
          assert (HD : decode_integer 7 (b :: s') = Some (i, r2)) by (apply decode_integer_wire; [lia|lia|auto|eauto]).
          rewrite EI' in HD. injection HD as <- <-. eapply HL; eauto.
    - split; [discriminate|]. split; [discriminate|].
      intros bs2 r2 fo st' E2 HIn _. exfalso.
      inversion HIn; subst; try rewrite <- app_assoc in E2;
        match goal with S : starts _ _ _ |- _ => pose proof (Hst _ _ _ _ E2 S) end; try lia.
      assert (HD : decode_integer 7 (b :: s') = Some (i, r2)) by (apply decode_integer_wire; [lia|lia|auto|eauto]). congruence. }
  apply N.leb_gt in K1.
  destruct ((64 <=? b) && (b <=? 127)) eqn:K2.
  { apply andb_true_iff in K2 as [K2 K2']. apply N.leb_le in K2, K2'.
    destruct (decode_literal_spec 6 d t (b :: s')) as [HU HS]; auto; try lia.
    destruct (decode_literal 6 d (b :: s')) as [fl| |[[nm vl] r]] eqn:EL; [|congruence|].
    - split; [discriminate|]. split; [discriminate|].
      intros bs2 r2 fo st' E2 HIn _. exfalso.
      inversion HIn; subst; try rewrite <- app_assoc in E2;
        match goal with S : starts _ _ _ |- _ => pose proof (Hst _ _ _ _ E2 S) end; try lia.
      assert (HD : @OFail (list N * list N * list N) fl = OOk (name, value, r2)) by (apply HS; eauto). discriminate.
    - destruct (dt_add_spec d t nm vl W) as (d1 & t1 & EA & W1 & T1). rewrite EA.
      split; [discriminate|]. split.
      + intros d' of r0 H. injection H as <- <- <-.
        destruct (proj1 (HS nm vl r) eq_refl) as (nb & vb & Es & HN & HV).
        exists (nb ++ vb), t1. rewrite <- app_assoc. split; auto.
        destruct (NameRepr_nonempty _ _ _ _ HN) as (x & q & Enb). split; [subst; discriminate|]. split; auto. split; [|discriminate].
        simpl. apply I_incremental; auto. eapply Hlead; eauto.
      + intros bs2 r2 fo st' E2 HIn _.
        inversion HIn; subst; try rewrite <- app_assoc in E2;
          match goal with S : starts _ _ _ |- _ => pose proof (Hst _ _ _ _ E2 S) end; try lia.
        assert (HD : OOk (nm, vl, r) = OOk (name, value, r2)) by (apply HS; eauto). injection HD as -> -> ->.
        match goal with L : TableStep _ _ st' |- _ => rewrite (TableStep_det _ _ _ _ L T1) end. eexists _, _. split; [reflexivity|]. simpl. auto. }
  destruct (b <=? 15) eqn:K3.
  { apply N.leb_le in K3.
    destruct (decode_literal_spec 4 d t (b :: s')) as [HU HS]; auto; try lia.
    destruct (decode_literal 4 d (b :: s')) as [fl| |[[nm vl] r]] eqn:EL; [|congruence|].
    - split; [discriminate|]. split; [discriminate|].
      intros bs2 r2 fo st' E2 HIn _. exfalso.
      inversion HIn; subst; try rewrite <- app_assoc in E2;
        match goal with S : starts _ _ _ |- _ => pose proof (Hst _ _ _ _ E2 S) end; try lia.
      assert (HD : @OFail (list N * list N * list N) fl = OOk (name, value, r2)) by (apply HS; eauto). discriminate.
    - split; [discriminate|]. split.
      + intros d' of r0 H. injection H as <- <- <-.
        destruct (proj1 (HS nm vl r) eq_refl) as (nb & vb & Es & HN & HV).
        exists (nb ++ vb), t. rewrite <- app_assoc. split; auto.
        destruct (NameRepr_nonempty _ _ _ _ HN) as (x & q & Enb). split; [subst; discriminate|]. split; auto. split; [|discriminate].
        simpl. apply I_without; auto. eapply Hlead; eauto. lia.
      + intros bs2 r2 fo st' E2 HIn _.
        inversion HIn; subst; try rewrite <- app_assoc in E2;
          match goal with S : starts _ _ _ |- _ => pose proof (Hst _ _ _ _ E2 S) end; try lia.
        assert (HD : OOk (nm, vl, r) = OOk (name, value, r2)) by (apply HS; eauto). injection HD as -> -> ->.
        eexists _, _. split; [reflexivity|]. simpl. auto. }
  apply N.leb_gt in K3.
  destruct ((16 <=? b) && (b <=? 31)) eqn:K4.
  { apply andb_true_iff in K4 as [K4 K4']. apply N.leb_le in K4, K4'.
    destruct (decode_literal_spec 4 d t (b :: s')) as [HU HS]; auto; try lia.
    destruct (decode_literal 4 d (b :: s')) as [fl| |[[nm vl] r]] eqn:EL; [|congruence|].
    - split; [discriminate|]. split; [discriminate|].
      intros bs2 r2 fo st' E2 HIn _. exfalso.
      inversion HIn; subst; try rewrite <- app_assoc in E2;
        match goal with S : starts _ _ _ |- _ => pose proof (Hst _ _ _ _ E2 S) end; try lia.
      assert (HD : @OFail (list N * list N * list N) fl = OOk (name, value, r2)) by (apply HS; eauto). discriminate.
    - split; [discriminate|]. split.
      + intros d' of r0 H. injection H as <- <- <-.
        destruct (proj1 (HS nm vl r) eq_refl) as (nb & vb & Es & HN & HV).
        exists (nb ++ vb), t. rewrite <- app_assoc. split; auto.
        destruct (NameRepr_nonempty _ _ _ _ HN) as (x & q & Enb). split; [subst; discriminate|]. split; auto. split; [|discriminate].
        simpl. apply I_never; auto. eapply Hlead; eauto.
      + intros bs2 r2 fo st' E2 HIn _.
        inversion HIn; subst; try rewrite <- app_assoc in E2;
          match goal with S : starts _ _ _ |- _ => pose proof (Hst _ _ _ _ E2 S) end; try lia.
        assert (HD : OOk (nm, vl, r) = OOk (name, value, r2)) by (apply HS; eauto). injection HD as -> -> ->.
        eexists _, _. split; [reflexivity|]. simpl. auto. }
  destruct ((32 <=? b) && (b <=? 63)) eqn:K5.
  { apply andb_true_iff in K5 as [K5 K5']. apply N.leb_le in K5, K5'.
    assert (Hinv : forall bs2 r2 fo st', b :: s' = bs2 ++ r2 -> Instr limit bs2 (dt_max d, t) fo st' ->
              exists m', fo = None /\ WireInt 5 bs2 m' /\ m' <= limit /\ TableStep (dt_max d, t) (TResize m') st').
    { intros bs2 r2 fo st' E2 HIn.
      inversion HIn; subst; try rewrite <- app_assoc in E2;
        match goal with S : starts _ _ _ |- _ => pose proof (Hst _ _ _ _ E2 S) end; try lia. eauto. }
    destruct upd; cbn [negb].
    2:{ split; [discriminate|]. split; [discriminate|]. intros bs2 r2 fo st' E2 HIn HU.
        destruct (Hinv _ _ _ _ E2 HIn) as (m' & -> & _). discriminate (HU eq_refl). }
    destruct (decode_integer 5 (b :: s')) as [[m r]|] eqn:EI.
    - assert (EI' := EI). apply decode_integer_wire in EI as (bs & Es & HI); [|lia|lia|auto].
      destruct (limit <? m) eqn:EM.
      + apply N.ltb_lt in EM. split; [discriminate|]. split; [discriminate|]. intros bs2 r2 fo st' E2 HIn HU. exfalso.
        destruct (Hinv _ _ _ _ E2 HIn) as (m' & -> & HI2 & Hm & HT).
        assert (HD : decode_integer 5 (b :: s') = Some (m', r2)) by (apply decode_integer_wire; [lia|lia|auto|eauto]).
        rewrite EI' in HD. injection HD as -> ->. lia.
      + apply N.ltb_ge in EM. destruct (dt_set_max_spec d t m W) as (d1 & t1 & EA & W1 & M1 & L1); [lia|].
        rewrite EA. split; [discriminate|]. split.
        * intros d' of r0 H. injection H as <- <- <-. exists bs, t1. split; auto.
          destruct (WireInt_nonempty _ _ _ HI) as (x & q & Ebs). split; [subst; discriminate|]. split; auto. split; [|auto].
          simpl. rewrite M1. apply (I_resize limit bs m); auto.
          -- eapply Hlead; eauto.
          -- now constructor.
        * intros bs2 r2 fo st' E2 HIn HU.
          destruct (Hinv _ _ _ _ E2 HIn) as (m' & -> & HI2 & Hm & HT).
          assert (HD : decode_integer 5 (b :: s') = Some (m', r2)) by (apply decode_integer_wire; [lia|lia|auto|eauto]).
          rewrite EI' in HD. injection HD as -> ->.
          assert (HT2 : TableStep (dt_max d, t) (TResize m') (m', t1)) by now constructor.
          rewrite (TableStep_det _ _ _ _ HT HT2). eexists _, _. split; [reflexivity|]. simpl. auto.
    - split; [discriminate|]. split; [discriminate|]. intros bs2 r2 fo st' E2 HIn HU. exfalso.
      destruct (Hinv _ _ _ _ E2 HIn) as (m' & -> & HI2 & Hm & HT).
      assert (HD : decode_integer 5 (b :: s') = Some (m', r2)) by (apply decode_integer_wire; [lia|lia|auto|eauto]). congruence. }
  exfalso. apply andb_false_iff in K2, K4, K5.
  repeat match goal with H : _ \/ _ |- _ => destruct H as [H|H] end;
  repeat match goal with H : (_ <=? _) = false |- _ => apply N.leb_gt in H end; lia.
Qed.
