(** Ranges, entity tags, responses. *)
From Verif Require Import Base UtilModel UtilSpec UtilProofs StaticModel StaticSpec StaticFs.
Open Scope N_scope.

(** * Numbers *)

Definition value_from (v : Z) (s : list N) : Z := fold_left (fun v c => (v * 10 + digit_value c)%Z) s v.

Lemma value_from_ge s : forall v, Forall (fun c => 48 <= c <= 57) s -> (0 <= v)%Z -> (v <= value_from v s)%Z.
Proof.
  induction s as [|c s IH]; intros v H Hv; cbn [value_from fold_left]; [lia|]. inversion H as [|? ? Hc Hs]; subst.
  specialize (IH (v * 10 + digit_value c)%Z Hs). unfold value_from in IH. unfold digit_value in *. lia.
Qed.

Lemma parse_loop_spec s : forall v, (0 <= v <= LLONG_MAX)%Z -> bytes_ok s -> forall n,
  parse_loop v s = Some n <-> Forall (fun c => 48 <= c <= 57) s /\ n = value_from v s /\ (n <= LLONG_MAX)%Z.
Proof.
  induction s as [|c s IH]; intros v Hv Hb n; cbn [parse_loop value_from fold_left].
  - split; [intros [= <-]; repeat split; [constructor|lia]|intros [_ [-> _]]; reflexivity].
  - inversion Hb as [|? ? Hc Hs]; subst.
    destruct ((schar c <? 48)%Z || (57 <? schar c)%Z) eqn:D.
    + split; [discriminate|]. intros [H _]. inversion H as [|? ? Hd _]; subst. unfold schar in D. destruct (c <? 128) eqn:L; lia.
    + assert (48 <= c <= 57) as Hd by (unfold schar in D; destruct (c <? 128) eqn:L; lia).
      assert (schar c - 48 = digit_value c)%Z as -> by (unfold schar, digit_value; destruct (c <? 128) eqn:L; lia).
      assert (0 <= digit_value c <= 9)%Z as Hv9 by (unfold digit_value; lia).
      fold (value_from (v * 10 + digit_value c) s).
      assert (0 < LLONG_MAX - digit_value c)%Z as Hp by (unfold LLONG_MAX in *; lia).
      rewrite Z.quot_div_nonneg by lia.
      pose proof (Z.mul_div_le (LLONG_MAX - digit_value c) 10 ltac:(lia)) as Q1.
      pose proof (Z.mul_succ_div_gt (LLONG_MAX - digit_value c) 10 ltac:(lia)) as Q2.
      destruct ((LLONG_MAX - digit_value c) / 10 <? v)%Z eqn:O.
      * split; [discriminate|]. intros [H [-> Hn]]. inversion H as [|? ? _ Hs']; subst. exfalso.
        pose proof (value_from_ge s (v * 10 + digit_value c) Hs' ltac:(lia)). lia.
      * rewrite IH; [|lia|exact Hs]. split.
        -- intros [H1 H2]. split; [constructor; assumption|exact H2].
        -- intros [H1 H2]. inversion H1; subst. now split.
Qed.

Lemma parse_u64_spec s n : bytes_ok s -> (parse_u64 s = Some n <-> Number s n).
Proof.
  intros Hb. unfold parse_u64, Number. destruct s as [|c s]; [split; [discriminate|intros [H _]; congruence]|].
  rewrite parse_loop_spec by (try assumption; unfold LLONG_MAX; lia). change (value_from 0 (c :: s)) with (value (c :: s)).
  unfold LLONG_MAX. split; [intros [H1 [H2 H3]]; repeat split; auto; discriminate|intros [_ H]; exact H].
Qed.

Lemma number_nonneg s n : Number s n -> (0 <= n)%Z.
Proof. intros [_ [H [-> _]]]. exact (value_from_ge s 0 H ltac:(lia)). Qed.

Lemma number_no_dash s n : Number s n -> ~ In 45 s /\ ~ In 44 s.
Proof.
  intros [_ [H _]]. rewrite Forall_forall in H. split; intros I; specialize (H _ I); lia.
Qed.

(** * The shape of a range *)

Definition range_result (total : Z) (r : range_spec) : option (Z * Z) :=
  match r with
  | IntRange v w => if (total <=? v)%Z then None else Some (v, Z.min w (total - 1) - v + 1)%Z
  | FromRange v => if (total <=? v)%Z then None else Some (v, total - v)%Z
  | SuffixRange w => if (w <=? 0)%Z then None else if (total <=? w)%Z then Some (0, total)%Z else Some (total - w, w)%Z
  end.

Lemma find_char_at d a b : ~ In d a -> find_char d (a ++ d :: b) = Some (length a).
Proof.
  intros H. unfold find_char. apply find_if_app; [|apply N.eqb_refl]. apply Forall_forall. intros x Hx. apply N.eqb_neq. intros ->. tauto.
Qed.

Lemma existsb_none (c : N) s : ~ In c s -> existsb (fun x => x =? c) s = false.
Proof.
  intros H. destruct (existsb _ s) eqn:E; [|reflexivity]. apply existsb_exists in E. destruct E as [x [H1 H2]].
  apply N.eqb_eq in H2. subst. tauto.
Qed.

Lemma is_prefix_app p s : is_prefix p (p ++ s) = true.
Proof. apply is_prefix_spec. now exists s. Qed.

Lemma skipn_S_app {A} (a : list A) x b : skipn (length a + 1) (a ++ x :: b) = b.
Proof. induction a as [|y a IH]; cbn; auto. Qed.

(** With the header cut at the dash. *)
Definition range_core (total : Z) (start_tok end_tok : list N) : option (Z * Z) :=
  match start_tok, end_tok with
  | _ :: _, _ :: _ =>
      match parse_u64 start_tok, parse_u64 end_tok with
      | Some start, Some end_ =>
          if (end_ <? start)%Z || (total <=? start)%Z then None
          else Some (start, Z.min end_ (total - 1) - start + 1)%Z
      | _, _ => None
      end
  | _ :: _, [] =>
      match parse_u64 start_tok with
      | Some start => if (total <=? start)%Z then None else Some (start, total - start)%Z
      | None => None
      end
  | [], _ =>
      match parse_u64 end_tok with
      | Some suffix =>
          if (suffix <=? 0)%Z then None
          else if (total <=? suffix)%Z then Some (0, total)%Z
          else Some (total - suffix, suffix)%Z
      | None => None
      end
  end.

Lemma parse_cut total a b : (0 < total)%Z -> ~ In 45 a -> ~ In 44 a -> ~ In 44 b ->
  parse_byte_range (str "bytes=" ++ a ++ 45 :: b) total = range_core total a b.
Proof.
  intros Ht Ha Ha4 Hb4. unfold parse_byte_range. replace (total <=? 0)%Z with false by lia.
  rewrite is_prefix_app. cbn [negb].
  change (skipn 6 (str "bytes=" ++ a ++ 45 :: b)) with (a ++ 45 :: b). cbv zeta.
  assert (existsb (fun c => c =? 44) (a ++ 45 :: b) = false) as E.
  { apply existsb_none. intros H. apply in_app_or in H. destruct H as [H|[H|H]]; [tauto|discriminate|tauto]. }
  destruct (a ++ 45 :: b) as [|z l] eqn:Z; [destruct a; discriminate|]. rewrite E, <- Z. rewrite find_char_at by exact Ha.
  rewrite firstn_length_app, skipn_S_app. reflexivity.
Qed.

Lemma parse_byte_range_cut h total : parse_byte_range h total <> None ->
  (0 < total)%Z /\ exists a b, h = str "bytes=" ++ a ++ 45 :: b /\ ~ In 45 a /\ ~ In 44 a /\ ~ In 44 b.
Proof.
  unfold parse_byte_range. destruct (total <=? 0)%Z eqn:T; [congruence|].
  destruct (is_prefix (str "bytes=") h) eqn:P; [|cbn; congruence]. cbn [negb].
  apply is_prefix_spec in P. destruct P as [t ->].
  change (skipn 6 (str "bytes=" ++ t)) with t. cbv zeta.
  destruct t as [|z t]; [congruence|].
  destruct (existsb _ (z :: t)) eqn:E; [congruence|].
  destruct (find_char 45 (z :: t)) as [i|] eqn:F; [|congruence]. intros _. split; [lia|].
  apply find_if_some in F. destruct F as [a [c [b [F1 [_ [F2 F3]]]]]]. apply N.eqb_eq in F2. subst c.
  exists a, b. split; [now rewrite F1|].
  assert (~ In 44 (z :: t)) as H44.
  { intros H. assert (existsb (fun c => c =? 44) (z :: t) = true); [|congruence]. apply existsb_exists. now exists 44. }
  rewrite F1 in H44. refine (conj _ (conj _ _)).
  - intros H. rewrite Forall_forall in F3. specialize (F3 _ H). discriminate.
  - intros H. apply H44, in_or_app. now left.
  - intros H. apply H44, in_or_app. right. now right.
Qed.

Lemma parse_range_some h total res : bytes_ok h -> parse_byte_range h total = Some res ->
  (0 < total)%Z /\ exists r, RangeHeader h r /\ range_result total r = Some res.
Proof.
  intros Hb H. destruct (parse_byte_range_cut h total) as [Ht [a [b [-> [H1 [H2 H3]]]]]]; [congruence|].
  split; [exact Ht|]. rewrite parse_cut in H by assumption.
  apply bytes_ok_app in Hb. destruct Hb as [_ Hb]. apply bytes_ok_app in Hb. destruct Hb as [Ba Bb].
  inversion Bb as [|? ? _ Bb']; subst.
  unfold range_core in H. destruct a as [|x a].
  - destruct (parse_u64 b) as [w|] eqn:P; [|discriminate]. apply parse_u64_spec in P; [|exact Bb'].
    exists (SuffixRange w). split; [now constructor|exact H].
  - destruct (parse_u64 (x :: a)) as [v|] eqn:P; [|destruct b; discriminate]. apply parse_u64_spec in P; [|exact Ba].
    destruct b as [|y b].
    + exists (FromRange v). split; [now constructor|exact H].
    + destruct (parse_u64 (y :: b)) as [w|] eqn:P2; [|discriminate]. apply parse_u64_spec in P2; [|exact Bb'].
      destruct (w <? v)%Z eqn:V; [discriminate|]. cbn [orb] in H.
      exists (IntRange v w). split; [constructor; auto; lia|exact H].
Qed.

Lemma parse_range_result h total r : (0 < total)%Z -> bytes_ok h -> RangeHeader h r ->
  parse_byte_range h total = range_result total r.
Proof.
  intros Ht Hb H. destruct H as [a b v w H1 H2 H3|a v H1|b w H1]; apply bytes_ok_app in Hb; destruct Hb as [_ Hb].
  - apply bytes_ok_app in Hb. destruct Hb as [Ba Bb]. inversion Bb as [|? ? _ Bb']; subst.
    rewrite parse_cut; [|exact Ht|eapply number_no_dash, H1|eapply number_no_dash, H1|eapply number_no_dash, H2].
    pose proof (proj1 H1) as Na. pose proof (proj1 H2) as Nb.
    apply (parse_u64_spec a v Ba) in H1. apply (parse_u64_spec b w Bb') in H2.
    unfold range_core. rewrite H1, H2. destruct a; [congruence|]. destruct b; [congruence|].
    replace (w <? v)%Z with false by lia. reflexivity.
  - apply bytes_ok_app in Hb. destruct Hb as [Ba _].
    rewrite parse_cut; [|exact Ht|eapply number_no_dash, H1|eapply number_no_dash, H1|intros []].
    pose proof (proj1 H1) as Na. apply (parse_u64_spec a v Ba) in H1.
    unfold range_core. rewrite H1. destruct a; [congruence|]. reflexivity.
  - inversion Hb as [|? ? _ Bb]; subst.
    change (str "bytes=" ++ 45 :: b) with (str "bytes=" ++ [] ++ 45 :: b).
    rewrite parse_cut; [|exact Ht|intros []|intros []|eapply number_no_dash, H1].
    apply (parse_u64_spec b w Bb) in H1. unfold range_core. now rewrite H1.
Qed.

Lemma range_header_nonneg h r : RangeHeader h r ->
  match r with IntRange v w => (0 <= v <= w)%Z | FromRange v => (0 <= v)%Z | SuffixRange w => (0 <= w)%Z end.
Proof.
  intros [a b v w H1 H2 H3|a v H1|b w H1]; [|exact (number_nonneg _ _ H1)|exact (number_nonneg _ _ H1)].
  pose proof (number_nonneg _ _ H1). lia.
Qed.

Lemma range_result_some total r off len h : (0 < total)%Z -> RangeHeader h r -> range_result total r = Some (off, len) ->
  (0 <= off /\ 0 < len /\ off + len <= total)%Z /\ forall i, (off <= i < off + len)%Z <-> Selected total r i.
Proof.
  intros Ht Hr H. apply range_header_nonneg in Hr. unfold Selected.
  destruct r as [v w|v|w]; cbn [range_result] in H.
  - destruct (total <=? v)%Z eqn:E; [discriminate|]. injection H as <- <-. split; [lia|]. intros i. lia.
  - destruct (total <=? v)%Z eqn:E; [discriminate|]. injection H as <- <-. split; [lia|]. intros i. lia.
  - destruct (w <=? 0)%Z eqn:E1; [discriminate|]. destruct (total <=? w)%Z eqn:E2; injection H as <- <-; split; try lia; intros i; lia.
Qed.

Lemma range_result_none total r h : (0 < total)%Z -> RangeHeader h r -> range_result total r = None ->
  forall i, ~ Selected total r i.
Proof.
  intros Ht Hr H i. apply range_header_nonneg in Hr. unfold Selected.
  destruct r as [v w|v|w]; cbn [range_result] in H.
  - destruct (total <=? v)%Z eqn:E; [|discriminate]. lia.
  - destruct (total <=? v)%Z eqn:E; [|discriminate]. lia.
  - destruct (w <=? 0)%Z eqn:E1; [lia|]. destruct (total <=? w)%Z eqn:E2; discriminate.
Qed.

Lemma range_exact h total : bytes_ok h ->
  (forall off len, parse_byte_range h total = Some (off, len) ->
     (0 <= off /\ 0 < len /\ off + len <= total)%Z /\
     exists r, RangeHeader h r /\ forall i, (off <= i < off + len)%Z <-> Selected total r i) /\
  (parse_byte_range h total = None -> forall r, RangeHeader h r -> forall i, ~ Selected total r i).
Proof.
  intros Hb. split.
  - intros off len H. apply parse_range_some in H; [|exact Hb]. destruct H as [Ht [r [H1 H2]]].
    destruct (range_result_some total r off len h Ht H1 H2) as [H3 H4]. split; [exact H3|]. now exists r.
  - intros H r Hr i Hi. assert (0 < total)%Z as Ht by (unfold Selected in Hi; lia).
    rewrite (parse_range_result h total r Ht Hb Hr) in H. exact (range_result_none total r h Ht Hr H i Hi).
Qed.

(** * Entity tags *)

Lemma strip_weak_opaque t : OpaqueTag t (strip_weak t).
Proof.
  unfold strip_weak. destruct (bytes_eq_dec (firstn 2 t) [87; 47]) as [E|E].
  - destruct t as [|a [|b t]]; try discriminate. injection E as -> ->. destruct t as [|x r].
    + apply op_strong. intros u Hu [=]. congruence.
    + apply op_weak. discriminate.
  - replace (match t with 87 :: 47 :: x :: r => x :: r | _ => t end) with t.
    + apply op_strong. intros u Hu ->. now apply E.
    + destruct t as [|a [|b [|x r]]]; try reflexivity; destruct a as [|a]; try reflexivity;
        repeat (destruct a as [a|a|]; try reflexivity); destruct b as [|b]; try reflexivity;
        repeat (destruct b as [b|b|]; try reflexivity). now contradiction E.
Qed.

Lemma opaque_det t a b : OpaqueTag t a -> OpaqueTag t b -> a = b.
Proof.
  intros H1 H2. inversion H1; subst; inversion H2; subst; try reflexivity.
  - now destruct (H0 a H).
  - now destruct (H b H0).
Qed.

Lemma strip_match a b : strip_weak a = strip_weak b <-> WeakMatch a b.
Proof.
  split.
  - intros E. exists (strip_weak a). split; [|rewrite E]; apply strip_weak_opaque.
  - intros [t [H1 H2]]. rewrite (opaque_det a _ t (strip_weak_opaque a) H1). symmetry. exact (opaque_det b _ t (strip_weak_opaque b) H2).
Qed.

Definition hit (e current : list N) : Prop :=
  trim_http_whitespace e = [42] \/ strip_weak (trim_http_whitespace e) = current.

Lemma element_single s p : ~ In 44 s -> (Element s p <-> p = s).
Proof.
  intros Hs. split.
  - intros [Hp [a [b [E [Ha Hb]]]]]. assert (a = []) as ->.
    { destruct Ha as [Ha|[a' ->]]; [exact Ha|]. exfalso. apply Hs. rewrite E. apply in_or_app. left. apply in_or_app. right. now left. }
    assert (b = []) as ->.
    { destruct Hb as [Hb|[b' ->]]; [exact Hb|]. exfalso. apply Hs. rewrite E. apply in_or_app. right. apply in_or_app. right. now left. }
    now rewrite app_nil_r in E.
  - intros ->. split; [exact Hs|]. exists [], []. rewrite app_nil_r. repeat split; auto.
Qed.

Lemma element_cons a s p : ~ In 44 a -> (Element (a ++ 44 :: s) p <-> p = a \/ Element s p).
Proof.
  intros Ha. split.
  - intros [Hp [u [v [E [Hu Hv]]]]]. destruct Hu as [-> |[u' ->]].
    + left. cbn [app] in E. destruct Hv as [-> |[v' ->]].
      * rewrite app_nil_r in E. exfalso. apply Hp. rewrite <- E. apply in_or_app. right. now left.
      * clear -E Ha Hp. revert p E Hp. induction a as [|x a IH]; intros [|y p] E Hp; cbn in E; [reflexivity| | |].
        -- injection E as <- _. exfalso. apply Hp. now left.
        -- injection E as -> _. exfalso. apply Ha. now left.
        -- injection E as <- E. f_equal. apply IH; [|exact E|]; intros H; [apply Ha|apply Hp]; now right.
    + right. split; [exact Hp|]. rewrite <- app_assoc in E. cbn [app] in E.
      apply app_split in E. destruct E as [[e [-> E]]|[e [-> E]]].
      * destruct e as [|z e]; cbn [app] in E.
        -- injection E as E. exists [], v. repeat split; auto.
        -- injection E as E1 E2. exists (e ++ [44]), v. rewrite E2, <- app_assoc. repeat split; auto. right. now exists e.
      * destruct e as [|z e]; [injection E as E; exists [], v; repeat split; auto|].
        injection E as <- E. exfalso. apply Ha. apply in_or_app. right. now left.
  - intros [-> |[Hp [u [v [-> [Hu Hv]]]]]].
    + split; [exact Ha|]. exists [], (44 :: s). repeat split; auto. right. now exists s.
    + split; [exact Hp|]. exists (a ++ 44 :: u), v. rewrite <- app_assoc. cbn [app]. repeat split; auto.
      right. destruct Hu as [-> |[u' ->]]; [now exists a|]. exists (a ++ 44 :: u'). now rewrite <- app_assoc.
Qed.

Lemma inm_loop_spec fuel : forall l current, (length l < fuel)%nat -> current <> [] ->
  exists b, inm_loop fuel l current = Some b /\ (b = true <-> exists e, Element l e /\ hit e current).
Proof.
  induction fuel as [|fuel IH]; intros l current Hf Hc; [lia|]. cbn [inm_loop].
  destruct l as [|c l].
  { exists false. split; [reflexivity|]. split; [discriminate|]. intros [e [He Hh]]. exfalso.
    apply element_single in He; [|intros []]. subst e. destruct Hh as [H|H]; [discriminate|]. cbn in H. congruence. }
  set (L := c :: l) in *. cbv zeta. destruct (find_char 44 L) as [i|] eqn:F.
  - apply find_if_some in F. destruct F as [a [d [s [E [Ea [Ed F]]]]]]. apply N.eqb_eq in Ed. subst d i.
    assert (~ In 44 a) as Ha by (intros H; rewrite Forall_forall in F; specialize (F _ H); discriminate).
    rewrite E, firstn_length_app, skipn_S_app.
    assert (Hel := fun p => element_cons a s p Ha).
    destruct (beq (trim_http_whitespace a) [42]) eqn:S.
    { exists true. split; [reflexivity|]. split; [|reflexivity]. intros _. exists a. split; [now apply Hel; left|]. left. now apply beq_eq. }
    destruct (beq (strip_weak (trim_http_whitespace a)) current) eqn:M.
    { exists true. split; [reflexivity|]. split; [|reflexivity]. intros _. exists a. split; [now apply Hel; left|]. right. now apply beq_eq. }
    destruct (IH s current) as [b [H1 H2]]; [|exact Hc|].
    { apply (f_equal (@length _)) in E. rewrite app_length in E. cbn [length] in *. unfold L in *. cbn [length] in *. lia. }
    exists b. split; [exact H1|]. rewrite H2. split.
    + intros [e [He Hh]]. exists e. split; [now apply Hel; right|exact Hh].
    + intros [e [He Hh]]. apply Hel in He. destruct He as [-> |He]; [|now exists e]. exfalso.
      apply beq_neq in S. apply beq_neq in M. destruct Hh; congruence.
  - apply find_if_none in F. assert (~ In 44 L) as Ha by (intros H; rewrite Forall_forall in F; specialize (F _ H); discriminate).
    destruct (beq (trim_http_whitespace L) [42]) eqn:S.
    { exists true. split; [reflexivity|]. split; [|reflexivity]. intros _. exists L. split; [now apply element_single|]. left. now apply beq_eq. }
    destruct (beq (strip_weak (trim_http_whitespace L)) current) eqn:M.
    { exists true. split; [reflexivity|]. split; [|reflexivity]. intros _. exists L. split; [now apply element_single|]. right. now apply beq_eq. }
    exists false. split; [reflexivity|]. split; [discriminate|]. intros [e [He Hh]]. apply element_single in He; [|exact Ha]. subst e.
    apply beq_neq in S. apply beq_neq in M. destruct Hh; congruence.
Qed.

Lemma strip_weak_nil t : strip_weak t = [] -> t = [].
Proof.
  intros H. pose proof (strip_weak_opaque t) as O. rewrite H in O. inversion O; subst; congruence.
Qed.

Lemma trim_star s : trim_http_whitespace s = [42] -> Element s s \/ In 44 s.
Proof. intros H. destruct (in_dec N.eq_dec 44 s) as [I|I]; [now right|left; now apply element_single]. Qed.

Lemma inm_spec h tag : trim_http_whitespace tag <> [] ->
  exists b, if_none_match_contains h tag = Some b /\
  (b = true <-> exists e, Element (trim_http_whitespace h) e /\
     (trim_http_whitespace e = [42] \/ WeakMatch (trim_http_whitespace e) (trim_http_whitespace tag))).
Proof.
  intros Ht. unfold if_none_match_contains. destruct (beq (trim_http_whitespace h) [42]) eqn:St.
  - apply beq_eq in St. rewrite St. exists true. split; [reflexivity|]. split; [|reflexivity]. intros _.
    exists [42]. split; [apply element_single; [intros [H|[]]; discriminate|reflexivity]|now left].
  - destruct (inm_loop_spec (S (length (trim_http_whitespace h))) (trim_http_whitespace h) (strip_weak (trim_http_whitespace tag)))
      as [b [H1 H2]]; [lia|intros E; apply Ht, strip_weak_nil, E|].
    exists b. split; [exact H1|]. rewrite H2. unfold hit. split; intros [e [H3 H4]]; exists e; (split; [exact H3|]);
      (destruct H4 as [H4|H4]; [now left|right; now apply strip_match]).
Qed.

(** * Serving a file *)

Lemma slice_spec (content : list N) off len : (0 <= off)%Z -> (0 < len)%Z -> (off + len <= Z.of_nat (length content))%Z ->
  exists pre post, content = pre ++ firstn (Z.to_nat len) (skipn (Z.to_nat off) content) ++ post /\
    Z.of_nat (length pre) = off /\ Z.of_nat (length (firstn (Z.to_nat len) (skipn (Z.to_nat off) content))) = len.
Proof.
  intros H1 H2 H3. exists (firstn (Z.to_nat off) content), (skipn (Z.to_nat len) (skipn (Z.to_nat off) content)).
  rewrite firstn_skipn, firstn_skipn. repeat split.
  - rewrite firstn_length. lia.
  - rewrite firstn_length, skipn_length. lia.
Qed.

Lemma make_etag_trim size s : trim_http_whitespace (make_etag size s) = make_etag size s.
Proof.
  apply (Trimmed_det (make_etag size s)); [apply trim_spec|]. exists [], []. rewrite app_nil_r. repeat split; try constructor.
  - intros c r E. unfold make_etag in E. injection E as <- _. intros [H|H]; discriminate.
  - intros c r E. unfold make_etag in E. rewrite !app_assoc in E. apply app_inj_tail in E. destruct E as [_ <-]. intros [H|H]; discriminate.
Qed.

Lemma make_etag_nonempty size s : make_etag size s <> [].
Proof. discriminate. Qed.

(** * process *)

Lemma elements_name x : name_ok x -> elements x = [x].
Proof.
  intros [H1 [H2 _]]. assert (split_slash x = [x]) as E.
  { clear H1. induction x as [|c x IH]; [reflexivity|]. cbn [split_slash].
    replace (c =? 47) with false by (symmetry; apply N.eqb_neq; intros ->; apply H2; now left).
    rewrite IH by (intros H; apply H2; now right). reflexivity. }
  unfold elements. destruct x as [|c x]; [congruence|]. now rewrite E.
Qed.

Lemma process_served fs o listing q s1 s2 out target : wf_fs fs -> RealDir fs (root o) ->
  process fs o listing q s1 s2 = Some (out, Some target) ->
  let effective := skipn (length (prefix_to_strip o)) (path q) in
  path_prefix_matches (path q) (prefix_to_strip o) = true /\
  exists t d r c m,
    Real fs t /\ Under (root o) t /\ decode_path_component effective = Some d /\
    stat fs (root o ++ lexically_normal (elements (drop_slashes d))) = Found t /\
    (reject_symlinks o = true -> walk fs (root o) (elements (drop_slashes d)) = false) /\
    stat fs target = Found r /\ fs r = Some (File c m) /\ serve_file o q c m s1 s2 = Some out /\
    (target = t \/ RealDir fs t /\ serve_index o = true /\ index_name o <> [] /\ target = t ++ elements (index_name o)).
Proof.
  intros Hw Hr H. cbv zeta. unfold process in H.
  destruct (path_prefix_matches (path q) (prefix_to_strip o)) eqn:P; [|discriminate]. cbn [negb] in H. split; [reflexivity|].
  set (eff := skipn (length (prefix_to_strip o)) (path q)) in *. cbv zeta in H. fold eff in H.
  destruct (sanitize_and_resolve_path fs (root o) eff) as [t|] eqn:S; [|discriminate].
  destruct (reject_symlinks o && match decode_path_component eff with Some d => walk fs (root o) (elements (drop_slashes d)) | None => false end)
    eqn:W; [discriminate|].
  destruct (sanitize_shape fs (root o) eff t Hw Hr S) as [M|[Rt [St [Ut [d [D1 D2]]]]]]; [rewrite M in H; discriminate|].
  rewrite St in H. rewrite D1 in W.
  assert (reject_symlinks o = true -> walk fs (root o) (elements (drop_slashes d)) = false) as HW.
  { intros E. rewrite E in W. exact W. }
  assert (forall p, match stat fs p with
     | Found r0 => match fs r0 with
       | Some (File content mtime) => option_map (fun x => (x, Some p)) (serve_file o q content mtime s1 s2)
       | _ => Some (error 404 None None false, None) end
     | _ => Some (error 404 None None false, None) end = Some (out, Some target) ->
     exists r c m, p = target /\ stat fs target = Found r /\ fs r = Some (File c m) /\ serve_file o q c m s1 s2 = Some out) as K.
  { intros p Hp. destruct (stat fs p) as [r| |] eqn:E; try discriminate.
    destruct (fs r) as [[|c m| |ab tg]|] eqn:F; try discriminate.
    destruct (serve_file o q c m s1 s2) as [x|] eqn:V; [|discriminate]. cbn [option_map] in Hp. injection Hp as -> ->.
    exists r, c, m. auto. }
  destruct (match t with [] => true | _ => match fs t with Some Dir => true | _ => false end end) eqn:D.
  - assert (RealDir fs t) as Rd.
    { split; [exact Rt|]. destruct t as [|y t]; [now left|]. right. destruct (fs (y :: t)) as [[| | |]|]; try discriminate. reflexivity. }
    destruct (serve_index o && negb (beq (index_name o) []) && _) eqn:I.
    + apply K in H. destruct H as [r [c [m [E [H1 [H2 H3]]]]]]. apply andb_true_iff in I. destruct I as [I _].
      apply andb_true_iff in I. destruct I as [I1 I2]. exists t, d, r, c, m. repeat (split; [assumption|]). right.
      refine (conj Rd (conj I1 (conj _ (eq_sym E)))). apply negb_true_iff in I2. now apply beq_neq in I2.
    + destruct (listing_on o); discriminate.
  - specialize (K t). rewrite St in K. apply K in H. destruct H as [r [c [m [E [H1 [H2 H3]]]]]].
    exists t, d, r, c, m. repeat (split; [assumption|]). now left.
Qed.

(** * Links refused *)

Definition keep (x : name) : bool := negb (beq x [] || beq x DOT).

Lemma walk_filter fs l : forall cur, walk fs cur l = walk fs cur (filter keep l).
Proof.
  induction l as [|x r IH]; intros cur; [reflexivity|]. cbn [walk filter]. unfold keep at 1.
  destruct (beq x [] || beq x DOT) eqn:E; cbn [negb]; [apply IH|]. cbn [walk]. rewrite E. rewrite IH. reflexivity.
Qed.

Lemma normal_no_up l : ~ In DOTDOT l -> forall st slash, Forall plain st ->
  fst (normal_loop l st slash) = rev (filter keep l) ++ st.
Proof.
  intros H. induction l as [|x r IH]; intros st slash Hs; [reflexivity|]. cbn [normal_loop filter]. unfold keep at 1.
  assert (~ In DOTDOT r) as Hr by (intros I; apply H; now right).
  destruct (beq x [] || beq x DOT) eqn:E; cbn [negb]; [now apply IH|].
  destruct (beq x DOTDOT) eqn:E2; [apply beq_eq in E2; exfalso; apply H; now left|].
  rewrite IH; [|exact Hr|]. { cbn [rev]. now rewrite <- app_assoc. }
  constructor; [|exact Hs]. apply orb_false_iff in E. destruct E as [E0 E1]. repeat split; now apply beq_neq.
Qed.

Lemma lexically_no_up l : ~ In DOTDOT l -> exists t, tail_ok t /\ lexically_normal l = filter keep l ++ t.
Proof.
  intros H. unfold lexically_normal. pose proof (normal_no_up l H [] false (Forall_nil _)) as N.
  destruct (normal_loop l [] false) as [st slash]. cbn [fst] in N. rewrite app_nil_r in N. subst st.
  rewrite rev_involutive. destruct (rev (filter keep l)) as [|y r] eqn:R.
  - exists []. split; [now left|]. assert (filter keep l = []) as ->; [|reflexivity].
    destruct (filter keep l) as [|z k]; [reflexivity|]. cbn in R. destruct (rev k); discriminate.
  - destruct (slash && negb (beq y DOTDOT)); [exists [[]]; split; [now right|reflexivity]|].
    exists []. split; [now left|now rewrite app_nil_r].
Qed.

Lemma keep_plain l : ~ In DOTDOT l -> Forall plain (filter keep l).
Proof.
  intros H. apply Forall_forall. intros x Hx. apply filter_In in Hx. destruct Hx as [H1 H2]. unfold keep in H2.
  apply negb_true_iff, orb_false_iff in H2. destruct H2 as [H2 H3]. repeat split; try (now apply beq_neq). intros ->. tauto.
Qed.

Lemma walk_resolve fs k t names : wf_fs fs -> tail_ok t -> forall cur r, Forall plain names -> RealDir fs cur ->
  walk fs cur names = false -> resolve fs k cur (names ++ t) = Found r -> r = cur ++ names.
Proof.
  intros Hw Ht. induction names as [|x names IH]; intros cur r Hp Hc HW HR.
  - rewrite app_nil_r. cbn [app] in HR. destruct Ht as [-> | ->]; [|rewrite resolve_cons in HR; cbn [beq orb] in HR];
      rewrite resolve_nil in HR; congruence.
  - inversion Hp as [|? ? Hx Hp']; subst. cbn [walk] in HW. destruct (plain_beq x Hx) as [E1 E2]. rewrite E1 in HW.
    destruct (is_symlink fs (cur ++ [x])) eqn:L; [discriminate|]. cbn [app] in HR. rewrite resolve_cons, E1, E2 in HR.
    unfold is_symlink in L. rewrite rev_app_distr in L. cbn [rev app] in L. rewrite E1, E2 in L. cbn [orb] in L.
    rewrite rev_involutive, (real_stat fs cur Hw (proj1 Hc)) in L.
    destruct (fs (cur ++ [x])) as [[|c m| |ab tg]|] eqn:F; try discriminate.
    + apply IH in HR; [|exact Hp'|now apply realdir_snoc|exact HW]. now rewrite <- app_assoc in HR.
    + destruct names; [|discriminate]. cbn [app] in HR. destruct t; [congruence|discriminate].
    + destruct names; [|discriminate]. cbn [app] in HR. destruct t; [congruence|discriminate].
Qed.

Lemma walk_exact fs base d t : wf_fs fs -> RealDir fs base -> ~ In DOTDOT (elements d) ->
  walk fs base (elements d) = false -> stat fs (base ++ lexically_normal (elements d)) = Found t ->
  t = base ++ filter keep (elements d).
Proof.
  intros Hw Hb Hu HW HS. destruct (lexically_no_up _ Hu) as [tl [Htl E]]. rewrite E in HS. unfold stat in HS.
  rewrite (resolve_real_app fs MAX_LINKS Hw base []) in HS; [|apply Hb|right; apply Hb]. cbn [app] in HS.
  apply walk_resolve in HS; auto; [now apply keep_plain|]. now rewrite <- walk_filter.
Qed.
