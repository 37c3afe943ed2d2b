From Verif Require Import Base UtilModel UtilSpec.
Local Open Scope N_scope.

(** ** Hex digits *)
Lemma is_hex_digit_spec c : is_hex_digit c = true <-> exists v, HexVal c v.
Proof.
  unfold is_hex_digit. split.
  - intros H. assert (48 <= c <= 57 \/ 97 <= c <= 102 \/ 65 <= c <= 70) as [?|[?|?]] by lia.
    + exists (c - 48). replace c with (48 + (c - 48)) at 1 by lia. constructor; lia.
    + exists (10 + (c - 97)). replace c with (97 + (c - 97)) at 1 by lia. constructor; lia.
    + exists (10 + (c - 65)). replace c with (65 + (c - 65)) at 1 by lia. constructor; lia.
  - intros [v H]. inversion H; subst; lia.
Qed.

Lemma hex_value_spec c v : HexVal c v -> hex_value c = v.
Proof.
  unfold hex_value. intros H; inversion H; subst.
  - destruct ((48 <=? 48 + v) && (48 + v <=? 57)) eqn:E; lia.
  - destruct ((48 <=? 65 + d) && (65 + d <=? 57)) eqn:E1; [lia|].
    destruct ((97 <=? 65 + d) && (65 + d <=? 102)) eqn:E2; [lia|].
    destruct ((65 <=? 65 + d) && (65 + d <=? 70)) eqn:E3; lia.
  - destruct ((48 <=? 97 + d) && (97 + d <=? 57)) eqn:E1; [lia|].
    destruct ((97 <=? 97 + d) && (97 + d <=? 102)) eqn:E2; lia.
Qed.

Lemma hexval_bound c v : HexVal c v -> v < 16.
Proof. intros H; inversion H; lia. Qed.

Lemma hexval_fun c v w : HexVal c v -> HexVal c w -> v = w.
Proof. intros H1 H2. apply hex_value_spec in H1, H2. congruence. Qed.

Lemma nibble_join h l : h < 16 -> l < 16 -> N.lor (N.shiftl h 4) l mod 256 = 16 * h + l.
Proof.
  intros Hh Hl.
  assert (E : forallb (fun h => forallb (fun l => N.lor (N.shiftl h 4) l mod 256 =? 16 * h + l)
                (map N.of_nat (seq 0 16))) (map N.of_nat (seq 0 16)) = true) by (vm_compute; reflexivity).
  rewrite forallb_forall in E. specialize (E h). rewrite forallb_forall in E.
  apply N.eqb_eq, E; apply in_map_iff; [exists (N.to_nat h) | exists (N.to_nat l)]; split; try lia; apply in_seq; lia.
Qed.

(** ** Percent decoding *)
Lemma starts_hex2_dec s :
  (exists h l r, s = h :: l :: r /\ is_hex_digit h = true /\ is_hex_digit l = true) <-> starts_hex2 s.
Proof.
  split.
  - intros (h & l & r & -> & Hh & Hl). apply is_hex_digit_spec in Hh as [hv Hh], Hl as [lv Hl].
    exists h, l, r, hv, lv. auto.
  - intros (h & l & r & hv & lv & -> & Hh & Hl). exists h, l, r. split; auto.
    split; apply is_hex_digit_spec; eauto.
Qed.

Lemma nth_error_mid {A} (pre : list A) rest k : nth_error (pre ++ rest) (length pre + k) = nth_error rest k.
Proof. rewrite nth_error_app2 by lia. f_equal. lia. Qed.

Lemma decode_path_loop_ok fuel : forall pre rest acc,
  (length rest < fuel)%nat ->
  exists out, decode_path_loop fuel (pre ++ rest) (length pre) acc = Some (acc ++ out) /\ PctDecodes rest out.
Proof.
  induction fuel as [|fuel IH]; intros pre rest acc Hf; [lia|].
  cbn [decode_path_loop]. rewrite app_length.
  destruct rest as [|c rest].
  - simpl length. rewrite Nat.add_0_r, Nat.ltb_irrefl. exists []. rewrite app_nil_r. split; auto. constructor.
  - replace (length pre <? length pre + length (c :: rest))%nat with true
      by (symmetry; apply Nat.ltb_lt; simpl; lia).
    replace (nth_error (pre ++ c :: rest) (length pre)) with (Some c)
      by (rewrite <- (Nat.add_0_r (length pre)), nth_error_mid; reflexivity).
    assert (Hlit : ~ (c = 37 /\ starts_hex2 rest) ->
      exists out, decode_path_loop fuel (pre ++ c :: rest) (length pre + 1) (acc ++ [c]) = Some (acc ++ out)
                  /\ PctDecodes (c :: rest) out).
    { intros Hn. destruct (IH (pre ++ [c]) rest (acc ++ [c])) as (out & H1 & H2); [simpl in Hf; lia|].
      rewrite app_length in H1. simpl length in H1. rewrite <- app_assoc in H1. simpl app in H1.
      exists (c :: out). split; [|now constructor]. rewrite H1. now rewrite <- app_assoc. }
    destruct ((c =? 37) && (length pre + 2 <? length pre + length (c :: rest))%nat) eqn:Hg.
    + apply andb_true_iff in Hg as [Hc Hlen]. apply N.eqb_eq in Hc. apply Nat.ltb_lt in Hlen.
      destruct rest as [|h [|l rest]]; simpl in Hlen; try lia.
      rewrite !nth_error_mid. cbn [nth_error].
      destruct (is_hex_digit h && is_hex_digit l) eqn:Hx.
      * apply andb_true_iff in Hx as [Hh Hl].
        apply is_hex_digit_spec in Hh as [hv Hh]. apply is_hex_digit_spec in Hl as [lv Hl].
        destruct (IH (pre ++ [c; h; l]) rest
                    (acc ++ [N.lor (N.shiftl (hex_value h) 4) (hex_value l) mod 256])) as (out & H1 & H2);
          [simpl in Hf; lia|].
        rewrite app_length in H1. simpl length in H1. rewrite <- app_assoc in H1. simpl app in H1.
        replace (length pre + 2 + 1)%nat with (length pre + 3)%nat by lia.
        exists ((16 * hv + lv) :: out). rewrite H1.
        rewrite (hex_value_spec _ _ Hh), (hex_value_spec _ _ Hl), nibble_join
          by (eapply hexval_bound; eauto).
        rewrite <- app_assoc. split; [reflexivity|]. subst c. now constructor.
      * apply Hlit. intros [_ Hs]. apply starts_hex2_dec in Hs as (h' & l' & r' & E & Hh & Hl).
        injection E as <- <- <-. rewrite Hh, Hl in Hx. discriminate.
    + apply Hlit. intros [-> Hs]. destruct Hs as (h & l & r & hv & lv & -> & _).
      rewrite N.eqb_refl in Hg. simpl in Hg. apply Nat.ltb_ge in Hg. simpl in Hg. lia.
Qed.

Lemma PctDecodes_det s a : PctDecodes s a -> forall b, PctDecodes s b -> a = b.
Proof.
  induction 1 as [|h l hv lv rest out Hh Hl H IH|c rest out Hn H IH]; intros b Hb.
  - inversion Hb; auto.
  - inversion Hb as [|h' l' hv' lv' rest' out' Hh' Hl' H'|c' rest' out' Hn' H']; subst.
    + rewrite (hexval_fun _ _ _ Hh Hh'), (hexval_fun _ _ _ Hl Hl'). f_equal. auto.
    + exfalso. apply Hn'. split; auto. exists h, l, rest, hv, lv. auto.
  - inversion Hb as [|h' l' hv' lv' rest' out' Hh' Hl' H'|c' rest' out' Hn' H']; subst.
    + exfalso. apply Hn. split; auto. exists h', l', rest', hv', lv'. auto.
    + f_equal. auto.
Qed.

Lemma decode_path_correct s out : decode_path_component s = Some out <-> PctDecodes s out.
Proof.
  unfold decode_path_component.
  destruct (decode_path_loop_ok (S (length s)) [] s []) as (o & H1 & H2); [lia|].
  cbn [app] in H1. change (@length N []) with 0%nat in H1. rewrite H1. split.
  - intros E. injection E as <-. auto.
  - intros H. f_equal. eapply PctDecodes_det; eauto.
Qed.

Lemma decode_path_total s : exists out, decode_path_component s = Some out /\ (length out <= length s)%nat.
Proof.
  unfold decode_path_component.
  destruct (decode_path_loop_ok (S (length s)) [] s []) as (o & H1 & H2); [lia|].
  cbn [app] in H1. change (@length N []) with 0%nat in H1. exists o. split; [assumption|]. clear H1. induction H2; simpl; lia.
Qed.

(** ** Percent encoding *)
Lemma hex_digit_sweep n : n < 16 ->
  UpperHex (nth (N.to_nat n) hex_digits 0) /\ HexVal (nth (N.to_nat n) hex_digits 0) n.
Proof.
  intros H. assert (E : nth (N.to_nat n) hex_digits 0 = if n <? 10 then 48 + n else 65 + (n - 10)).
  { assert (S : forallb (fun n => negb (n <? 16) || (nth (N.to_nat n) hex_digits 0 =? if n <? 10 then 48 + n else 65 + (n - 10)))
              all_bytes = true) by (vm_compute; reflexivity).
    pose proof (byte_sweep _ S n ltac:(lia)) as Q. cbn beta in Q.
    replace (n <? 16) with true in Q by lia. simpl in Q. now apply N.eqb_eq in Q. }
  rewrite E. unfold UpperHex. destruct (n <? 10) eqn:L.
  - split; [lia|]. apply hex_dec. lia.
  - split; [lia|]. replace n with (10 + (n - 10)) at 2 by lia. apply hex_up. lia.
Qed.

Lemma shiftr4 c : c < 256 -> N.shiftr c 4 < 16.
Proof. intros. rewrite N.shiftr_div_pow2. change (2^4) with 16. apply N.div_lt_upper_bound; lia. Qed.

Lemma land15 c : N.land c 15 = c mod 16.
Proof. change 15 with (N.ones 4). rewrite N.land_ones. reflexivity. Qed.

Lemma is_unreserved_spec c : is_unreserved c = true <-> Unreserved c.
Proof. unfold is_unreserved, Unreserved. split; intros; lia. Qed.

Lemma uri_encode_decodes s t o : bytes_ok s -> PctDecodes t o -> PctDecodes (uri_encode_component s ++ t) (s ++ o).
Proof.
  intros Hs Ht. unfold uri_encode_component. induction Hs as [|c s Hc Hs IH]; simpl; auto.
  rewrite <- app_assoc. unfold uri_encode_byte at 1. destruct (is_unreserved c) eqn:E.
  - simpl. constructor; auto. intros [-> _]. discriminate.
  - simpl. pose proof (shiftr4 c Hc) as Hs4.
    assert (Hm : N.land c 15 < 16) by (rewrite land15; apply N.mod_lt; lia).
    destruct (hex_digit_sweep _ Hs4) as [_ H1]. destruct (hex_digit_sweep _ Hm) as [_ H2].
    replace c with (16 * N.shiftr c 4 + N.land c 15) at 3.
    + now constructor.
    + rewrite land15, N.shiftr_div_pow2. change (2^4) with 16. symmetry. apply N.div_mod. lia.
Qed.

Lemma uri_roundtrip s : bytes_ok s -> decode_path_component (uri_encode_component s) = Some s.
Proof.
  intros H. apply decode_path_correct.
  pose proof (uri_encode_decodes s [] [] H pd_nil) as E. now rewrite !app_nil_r in E.
Qed.

Lemma uri_encode_safe s : bytes_ok s -> PctSafe (uri_encode_component s).
Proof.
  intros Hs. unfold uri_encode_component. induction Hs as [|c s Hc Hs IH]; simpl; [constructor|].
  unfold uri_encode_byte at 1. destruct (is_unreserved c) eqn:E.
  - simpl. constructor; auto. now apply is_unreserved_spec.
  - simpl. assert (Hm : N.land c 15 < 16) by (rewrite land15; apply N.mod_lt; lia).
    constructor; auto; [apply hex_digit_sweep, shiftr4|apply hex_digit_sweep]; auto.
Qed.

(** ** HTML escaping *)
Lemma escape_html_unescapes s : HtmlUnescapes (escape_html s) s.
Proof.
  unfold escape_html. induction s as [|c s IH]; simpl; [constructor|].
  unfold escape_html_byte at 1.
  destruct (c =? 38) eqn:E1; [apply N.eqb_eq in E1 as ->; apply hu_ent; [unfold html_entities; cbn [In]; tauto|auto]|].
  destruct (c =? 34) eqn:E2; [apply N.eqb_eq in E2 as ->; apply hu_ent; [unfold html_entities; cbn [In]; tauto|auto]|].
  destruct (c =? 39) eqn:E3; [apply N.eqb_eq in E3 as ->; apply hu_ent; [unfold html_entities; cbn [In]; tauto|auto]|].
  destruct (c =? 60) eqn:E4; [apply N.eqb_eq in E4 as ->; apply hu_ent; [unfold html_entities; cbn [In]; tauto|auto]|].
  destruct (c =? 62) eqn:E5; [apply N.eqb_eq in E5 as ->; apply hu_ent; [unfold html_entities; cbn [In]; tauto|auto]|].
  simpl. apply hu_lit; auto. unfold is_markup. lia.
Qed.

Lemma entity_head e c : In (e, c) html_entities -> exists r, e = 38 :: r.
Proof. simpl. intros H. repeat (destruct H as [E|H]; [injection E as <- <-; vm_compute; eauto|]). destruct H. Qed.

Lemma entity_det e1 c1 e2 c2 t1 t2 :
  In (e1, c1) html_entities -> In (e2, c2) html_entities -> e1 ++ t1 = e2 ++ t2 -> c1 = c2 /\ t1 = t2.
Proof.
  simpl. intros H1 H2.
  repeat (destruct H1 as [E|H1]; [injection E as <- <-;
    repeat (destruct H2 as [E|H2]; [injection E as <- <-; vm_compute; intros E; now inversion E|]); destruct H2|]).
  destruct H1.
Qed.

Lemma HtmlUnescapes_det t a : HtmlUnescapes t a -> forall b, HtmlUnescapes t b -> a = b.
Proof.
  induction 1 as [|e c t s He H IH|c t s Hc H IH]; intros b Hb.
  - inversion Hb as [|e' c' t' s' He' H' E|]; auto.
    destruct (entity_head _ _ He') as [r ->]. discriminate.
  - inversion Hb as [E|e' c' t' s' He' H' E|c' t' s' Hc' H' E]; subst.
    + destruct (entity_head _ _ He) as [r ->]. discriminate.
    + destruct (entity_det _ _ _ _ _ _ He' He E) as [-> ->]. f_equal. auto.
    + destruct (entity_head _ _ He) as [r ->]. simpl in E. injection E as -> _.
      exfalso. apply Hc'. unfold is_markup. auto.
  - inversion Hb as [|e' c' t' s' He' H' E|c' t' s' Hc' H']; subst.
    + destruct (entity_head _ _ He') as [r ->]. simpl in E. injection E as <- _.
      exfalso. apply Hc. unfold is_markup. auto.
    + f_equal. auto.
Qed.

Lemma entity_safe e c : In (e, c) html_entities ->
  Forall (fun x => x <> 34 /\ x <> 39 /\ x <> 60 /\ x <> 62) e.
Proof.
  simpl. intros H. repeat (destruct H as [E|H]; [injection E as <- <-; vm_compute; repeat constructor; discriminate|]).
  destruct H.
Qed.

Lemma unescapes_safe t s : HtmlUnescapes t s -> Forall (fun x => x <> 34 /\ x <> 39 /\ x <> 60 /\ x <> 62) t.
Proof.
  induction 1 as [|e c t s He H IH|c t s Hc H IH]; auto.
  - apply Forall_app. split; auto. eapply entity_safe; eauto.
  - constructor; auto. unfold is_markup in Hc. lia.
Qed.

Lemma entity_tail_noamp e c r : In (e, c) html_entities -> e = 38 :: r -> ~ In 38 r.
Proof.
  simpl. intros H E. repeat (destruct H as [E'|H]; [injection E' as <- <-; vm_compute in E; injection E as <-; simpl; lia|]).
  destruct H.
Qed.

Lemma app_amp_split e r t pre post :
  e = 38 :: r -> ~ In 38 r -> e ++ t = pre ++ 38 :: post ->
  (pre = [] /\ 38 :: post = e ++ t) \/ (exists pre', t = pre' ++ 38 :: post).
Proof.
  intros -> Hr E. destruct pre as [|x pre].
  - left. auto.
  - right. simpl in E. injection E as <- E. clear - Hr E.
    revert pre E; induction r as [|y r IH]; simpl; intros pre E; [eauto|].
    destruct pre as [|z pre]; simpl in E; injection E as -> E.
    + exfalso. apply Hr. simpl. auto.
    + eapply IH; eauto. intros Hi. apply Hr. simpl. auto.
Qed.

Lemma unescapes_amp t s : HtmlUnescapes t s -> forall pre post, t = pre ++ 38 :: post ->
  exists e c post', In (e, c) html_entities /\ 38 :: post = e ++ post'.
Proof.
  induction 1 as [|e c t s He H IH|c t s Hc H IH]; intros pre post E.
  - destruct pre; discriminate.
  - destruct (entity_head _ _ He) as [r Hr].
    destruct (app_amp_split _ _ _ _ _ Hr (entity_tail_noamp _ _ _ He Hr) E) as [[-> Hp]|[pre' ->]].
    + exists e, c, t. auto.
    + eapply IH; eauto.
  - destruct pre as [|x pre]; simpl in E; injection E as -> ->.
    + exfalso. apply Hc. unfold is_markup. auto.
    + eapply IH; eauto.
Qed.

(** ** Case-insensitive comparison *)
Lemma lxor_sym_32 x y : N.lxor x y = 32 -> y = N.lxor x 32.
Proof. intros <-. now rewrite <- N.lxor_assoc, N.lxor_nilpotent, N.lxor_0_l. Qed.

Lemma iequals_byte x y : x < 256 -> y < 256 ->
  ((x =? y) || negb (negb (N.lxor x y =? 32) || (N.lor x 32 <? 97) || (122 <? N.lor x 32))) = true
  <-> lower x = lower y.
Proof.
  intros Hx Hy. split.
  - intros H. apply orb_true_iff in H as [H|H]; [apply N.eqb_eq in H; congruence|].
    rewrite !negb_orb, negb_involutive in H.
    apply andb_true_iff in H as [H H3]. apply andb_true_iff in H as [H1 H2].
    apply N.eqb_eq in H1. apply lxor_sym_32 in H1. subst y.
    assert (S : forallb (fun x => implb (negb (N.lor x 32 <? 97) && negb (122 <? N.lor x 32))
              (lower x =? lower (N.lxor x 32))) all_bytes = true) by (vm_compute; reflexivity).
    pose proof (byte_sweep _ S x Hx) as Q. cbn beta in Q. rewrite H2, H3 in Q. simpl in Q. now apply N.eqb_eq.
  - intros E. destruct (N.eqb_spec x y) as [->|Hn]; [reflexivity|]. simpl.
    assert (Hcase : (65 <= x <= 90 /\ y = x + 32) \/ (65 <= y <= 90 /\ x = y + 32)).
    { unfold lower in E. destruct ((65 <=? x) && (x <=? 90)) eqn:E1; destruct ((65 <=? y) && (y <=? 90)) eqn:E2; lia. }
    assert (S : forallb (fun x => implb ((65 <=? x) && (x <=? 90))
        (negb (negb (N.lxor x (x+32) =? 32) || (N.lor x 32 <? 97) || (122 <? N.lor x 32))
        && negb (negb (N.lxor (x+32) x =? 32) || (N.lor (x+32) 32 <? 97) || (122 <? N.lor (x+32) 32)))) all_bytes = true)
      by (vm_compute; reflexivity).
    destruct Hcase as [[Hr ->]|[Hr ->]].
    + pose proof (byte_sweep _ S x Hx) as Q. cbn beta in Q.
      replace ((65 <=? x) && (x <=? 90)) with true in Q by lia. simpl in Q. now apply andb_true_iff in Q as [Q _].
    + pose proof (byte_sweep _ S y Hy) as Q. cbn beta in Q.
      replace ((65 <=? y) && (y <=? 90)) with true in Q by lia. simpl in Q. now apply andb_true_iff in Q as [_ Q].
Qed.

Lemma iequals_spec a b : bytes_ok a -> bytes_ok b -> (iequals a b = true <-> map lower a = map lower b).
Proof.
  intros Ha Hb. unfold iequals. destruct (Nat.eqb_spec (length a) (length b)) as [Hl|Hl]; simpl.
  - revert b Hb Hl. induction Ha as [|x a Hx Ha IH]; intros [|y b] Hb Hl; simpl in *; try lia; [tauto|].
    inversion Hb as [|? ? Hy Hb']; subst.
    pose proof (iequals_byte x y Hx Hy) as Hxy. specialize (IH b Hb' ltac:(lia)).
    destruct (x =? y) eqn:E.
    + apply N.eqb_eq in E as ->. rewrite IH. split; intros H; [congruence|injection H; auto].
    + simpl in Hxy. destruct (negb (N.lxor x y =? 32) || (N.lor x 32 <? 97) || (122 <? N.lor x 32)).
      * split; [discriminate|]. intros H. injection H as H1 H2. apply Hxy in H1. discriminate.
      * rewrite IH. simpl in Hxy. split; intros H; [|injection H; auto]. f_equal; tauto.
  - split; [discriminate|]. intros H. apply (f_equal (@length N)) in H. rewrite !map_length in H. congruence.
Qed.

Lemma ascii_to_lower_spec c : c < 256 -> ascii_to_lower c = lower c.
Proof.
  intros H. assert (S : forallb (fun c => ascii_to_lower c =? lower c) all_bytes = true) by (vm_compute; reflexivity).
  pose proof (byte_sweep _ S c H) as Q. now apply N.eqb_eq.
Qed.

(** ** Splitting *)
Lemma intercalate_cons sep x l : l <> [] -> intercalate sep (x :: l) = x ++ sep ++ intercalate sep l.
Proof. destruct l; [congruence|reflexivity]. Qed.


Lemma find_char_some d s i : find_char d s = Some i ->
  exists pre post, s = pre ++ d :: post /\ length pre = i /\ ~ In d pre.
Proof.
  unfold find_char. intros H. apply find_if_some in H as (pre & c & post & -> & Hl & Hc & Hpre).
  apply N.eqb_eq in Hc as ->. exists pre, post. repeat split; auto.
  intros Hi. rewrite Forall_forall in Hpre. specialize (Hpre d Hi). rewrite N.eqb_refl in Hpre. discriminate.
Qed.

Lemma find_char_none d s : find_char d s = None -> ~ In d s.
Proof.
  unfold find_char. rewrite find_if_none, Forall_forall. intros H Hi. specialize (H d Hi).
  rewrite N.eqb_refl in H. discriminate.
Qed.

Lemma skipn_S_app (pre : list N) c post : skipn (length pre + 1) (pre ++ c :: post) = post.
Proof.
  replace (pre ++ c :: post) with ((pre ++ [c]) ++ post) by (rewrite <- app_assoc; reflexivity).
  replace (length pre + 1)%nat with (length (pre ++ [c])) by (rewrite app_length; reflexivity).
  apply skipn_length_app.
Qed.

(** split_view *)
Lemma sv_collect_ok d : forall fuel pre rest,
  (length rest + 1 < fuel)%nat ->
  exists pieces,
    sv_collect fuel (pre ++ rest) d (sv_advance (pre ++ rest) d {| sv_current := []; sv_cursor := length pre; sv_done := false |})
      = Some pieces
    /\ pieces <> [] /\ intercalate [d] pieces = rest /\ Forall (fun p => ~ In d p) pieces.
Proof.
  intros fuel. induction fuel as [|fuel IH]; intros pre rest Hf; [lia|].
  unfold sv_advance at 1. cbn [sv_cursor sv_done].
  replace (length (pre ++ rest) <? length pre)%nat with false by (symmetry; apply Nat.ltb_ge; rewrite app_length; lia).
  rewrite skipn_length_app.
  destruct (find_char d rest) as [k|] eqn:Hk.
  - apply find_char_some in Hk as (a & b & -> & <- & Ha).
    cbn [sv_collect sv_done sv_current]. rewrite firstn_length_app.
    assert (Hb : (length b + 1 < fuel)%nat) by (rewrite app_length in Hf; simpl in Hf; lia).
    destruct (IH (pre ++ a ++ [d]) b Hb) as (ps & H1 & H2 & H3 & H4).
    replace ((pre ++ a ++ [d]) ++ b) with (pre ++ a ++ d :: b) in H1 by (rewrite <- !app_assoc; reflexivity).
    exists (a :: ps). split; [|split; [congruence|split]].
    + assert (Ecur : forall c1 c2, sv_advance (pre ++ a ++ d :: b) d {| sv_current := c1; sv_cursor := length pre + length a + 1; sv_done := false |}
          = sv_advance (pre ++ a ++ d :: b) d {| sv_current := c2; sv_cursor := length (pre ++ a ++ [d]); sv_done := false |}).
      { intros. rewrite !app_length. simpl length. rewrite Nat.add_assoc. unfold sv_advance. reflexivity. }
      rewrite (Ecur _ []), H1. reflexivity.
    + rewrite intercalate_cons by auto. rewrite H3. reflexivity.
    + constructor; auto.
  - apply find_char_none in Hk. cbn [sv_collect sv_done sv_current].
    destruct fuel as [|fuel]; [lia|]. unfold sv_advance. cbn [sv_cursor sv_done].
    replace (length (pre ++ rest) <? length (pre ++ rest) + 1)%nat with true by (symmetry; apply Nat.ltb_lt; lia).
    cbn [sv_collect sv_done]. exists [rest]. simpl. repeat split; auto; congruence.
Qed.

Lemma split_view_ok s d : exists pieces,
  split_view s d = Some pieces /\ pieces <> [] /\ intercalate [d] pieces = s /\ Forall (fun p => ~ In d p) pieces.
Proof. unfold split_view. apply (sv_collect_ok d (S (S (length s))) [] s). lia. Qed.

(** split_string_by *)
Lemma no_boundary_before b s k :
  b <> [] -> find_sub b s = Some k -> ~ contains b (firstn k s).
Proof.
  intros Hb Hf (x & y & E).
  pose proof (find_sub_some _ _ _ Hf) as (pre & post & Hs & Hl).
  assert (Hfn : firstn k s = pre) by (rewrite Hs, <- Hl; apply firstn_length_app).
  rewrite Hfn in E. assert (k <= length x)%nat as Hk.
  { eapply find_sub_first; [exact Hf|]. rewrite Hs, E. rewrite <- !app_assoc. reflexivity. }
  apply (f_equal (@length N)) in E. rewrite !app_length in E. destruct b; [congruence|]. simpl in E. lia.
Qed.

Lemma split_by_ok b : b <> [] -> forall fuel pre rest acc,
  (length rest < fuel)%nat ->
  exists pieces, split_by_loop fuel (pre ++ rest) b (length pre) acc = Some (acc ++ pieces)
    /\ pieces <> [] /\ intercalate b pieces = rest /\ Forall (fun p => ~ contains b p) pieces.
Proof.
  intros Hb fuel. induction fuel as [|fuel IH]; intros pre rest acc Hf; [lia|].
  cbn [split_by_loop].
  replace (length pre <=? length (pre ++ rest))%nat with true by (symmetry; apply Nat.leb_le; rewrite app_length; lia).
  rewrite skipn_length_app. destruct (find_sub b rest) as [k|] eqn:Hk.
  - pose proof (no_boundary_before _ _ _ Hb Hk) as Hno.
    pose proof (find_sub_some _ _ _ Hk) as (a & c & -> & <-). rewrite firstn_length_app in *.
    assert (Hc : (length c < fuel)%nat) by (rewrite !app_length in Hf; destruct b; [congruence|]; simpl in Hf; lia).
    destruct (IH (pre ++ a ++ b) c (acc ++ [a]) Hc) as (ps & H1 & H2 & H3 & H4).
    rewrite !app_length, Nat.add_assoc in H1. rewrite <- !app_assoc in H1.
    exists (a :: ps). rewrite H1. split; [reflexivity|]. split; [congruence|]. split.
    + rewrite intercalate_cons in * by auto. destruct ps; [congruence|]. now rewrite H3.
    + constructor; auto.
  - apply find_sub_none in Hk. exists [rest]. simpl. repeat split; auto; congruence.
Qed.

Lemma split_string_by_ok s b : b <> [] -> exists pieces,
  split_string_by s b = Some pieces /\ pieces <> [] /\ intercalate b pieces = s /\ Forall (fun p => ~ contains b p) pieces.
Proof.
  intros Hb. unfold split_string_by. destruct b as [|x b]; [congruence|].
  destruct (split_by_ok (x :: b) Hb (S (length s)) [] s [] ltac:(lia)) as (ps & H). exists ps. exact H.
Qed.

Lemma join_intercalate l sep : join l sep = intercalate sep l.
Proof.
  destruct l as [|x l]; [reflexivity|]. unfold join. revert x.
  induction l as [|y l IH]; intros x; [reflexivity|].
  cbn [fold_left]. rewrite IH. destruct l; simpl; now rewrite <- ?app_assoc.
Qed.

(** split_string *)
Lemma Tokens_nodelim p t : t <> [] -> Forall (fun c => p c = false) t -> Tokens p [t] t.
Proof. intros. now apply tok_last. Qed.

Lemma split_string_loop_ok p : forall fuel s acc, (length s < fuel)%nat ->
  exists ts, split_string_loop fuel p s acc = Some (acc ++ ts) /\ Tokens p ts s.
Proof.
  induction fuel as [|fuel IH]; intros s acc Hf; [lia|]. cbn [split_string_loop].
  destruct s as [|c s].
  - exists []. rewrite app_nil_r. split; auto. constructor.
  - destruct (find_if p (c :: s)) as [k|] eqn:Hk.
    + apply find_if_some in Hk as (a & d & b & E & <- & Hd & Ha). rewrite E, skipn_S_app, firstn_length_app.
      assert (Hl : (length b < fuel)%nat).
      { apply (f_equal (@length N)) in E. rewrite app_length in E. simpl in E, Hf. lia. }
      destruct a as [|a0 a].
      * simpl. destruct (IH b acc Hl) as (ts & -> & Ht). exists ts. split; auto. now constructor.
      * cbn [length Nat.eqb]. destruct (IH b (acc ++ [a0 :: a]) Hl) as (ts & -> & Ht).
        exists ((a0 :: a) :: ts). rewrite <- app_assoc. split; auto. apply tok_more; auto. congruence.
    + apply find_if_none in Hk. exists [c :: s]. split; auto. apply tok_last; auto. discriminate.
Qed.

Lemma split_string_ok s p : exists ts, split_string s p = Some ts /\ Tokens p ts s.
Proof. apply (split_string_loop_ok p (S (length s)) s []). lia. Qed.

Lemma Tokens_shape p ts s : Tokens p ts s -> Forall (fun t => t <> [] /\ Forall (fun c => p c = false) t) ts.
Proof. induction 1; repeat constructor; auto. Qed.

Lemma Tokens_flat p ts s : Tokens p ts s -> concat ts = filter (fun c => negb (p c)) s.
Proof.
  assert (F : forall t, Forall (fun c => p c = false) t -> filter (fun c => negb (p c)) t = t).
  { induction 1 as [|c t Hc Ht IH]; simpl; auto. rewrite Hc. simpl. now rewrite IH. }
  induction 1; simpl; auto.
  - now rewrite H.
  - rewrite app_nil_r. now rewrite F.
  - rewrite filter_app, F by auto. simpl. rewrite H1. simpl. congruence.
Qed.

Lemma Tokens_app_det p t d s : t <> [] -> Forall (fun c => p c = false) t -> p d = true ->
  forall us, Tokens p us (t ++ d :: s) -> exists us', us = t :: us' /\ Tokens p us' s.
Proof.
  intros Hne Ht Hd us H. inversion H as [E0 E|d' ts' s' Hd' H' E0 E|t' Hne' Ht' E0 E|t' d' ts' s' Hne' Ht' Hd' H' E0 E]; subst.
  - destruct t; discriminate.
  - destruct t as [|x t]; [congruence|]. simpl in E. injection E as -> E.
    inversion Ht; congruence.
  - apply Forall_app in Ht' as [_ Ht']. inversion Ht'; congruence.
  - assert (t' = t /\ s' = s /\ d' = d) as (-> & -> & ->).
    { clear - E Ht Ht' Hd Hd'. revert t' E Ht'. induction Ht as [|x t Hx Ht IH]; intros [|y t'] E Ht'; simpl in E.
      - injection E; auto.
      - injection E as -> _. inversion Ht'; congruence.
      - injection E as -> _. congruence.
      - injection E as -> E. inversion Ht'; subst. destruct (IH t' E) as (-> & -> & ->); auto. }
    eauto.
Qed.

Lemma Tokens_det p ts s : Tokens p ts s -> forall us, Tokens p us s -> ts = us.
Proof.
  induction 1 as [|d ts s Hd H IH|t Hne Ht|t d ts s Hne Ht Hd H IH]; intros us Hus.
  - inversion Hus; subst; auto; [congruence|]. destruct t; discriminate.
  - inversion Hus as [E0 E|d' ts' s' Hd' H' E0 E|t' Hne' Ht' E0 E|t' d' ts' s' Hne' Ht' Hd' H' E0 E]; subst; auto.
    + inversion Ht'; congruence.
    + destruct t' as [|x t']; [congruence|]. simpl in E. injection E as -> E. inversion Ht'; congruence.
  - inversion Hus as [E0 E|d' ts' s' Hd' H' E0 E|t' Hne' Ht' E0 E|t' d' ts' s' Hne' Ht' Hd' H' E0 E]; subst; auto.
    + congruence.
    + inversion Ht; congruence.
    + apply Forall_app in Ht as [_ Ht]. inversion Ht; congruence.
  - destruct (Tokens_app_det p t d s Hne Ht Hd us Hus) as (us' & -> & Hus'). f_equal. auto.
Qed.

(** trimming *)
Lemma is_ws_spec c : is_http_whitespace c = true <-> Ows c.
Proof. unfold is_http_whitespace, Ows. lia. Qed.

Lemma drop_ws_spec s : exists a, s = a ++ drop_ws s /\ Forall Ows a /\ (forall c r, drop_ws s = c :: r -> ~ Ows c).
Proof.
  induction s as [|c s (a & H1 & H2 & H3)]; simpl.
  - exists []. repeat split; auto. discriminate.
  - destruct (is_http_whitespace c) eqn:E.
    + exists (c :: a). split; [simpl; congruence|]. split; auto. constructor; auto. now apply is_ws_spec.
    + exists []. repeat split; auto. intros d r E'. injection E' as <- <-. intros Hw. apply is_ws_spec in Hw. congruence.
Qed.

Lemma trim_spec s : Trimmed s (trim_http_whitespace s).
Proof.
  unfold trim_http_whitespace. destruct (drop_ws_spec s) as (a & H1 & H2 & H3).
  destruct (drop_ws_spec (rev (drop_ws s))) as (b & H4 & H5 & H6).
  set (t := drop_ws (rev (drop_ws s))) in *.
  assert (E : drop_ws s = rev t ++ rev b) by (rewrite <- rev_app_distr, <- H4, rev_involutive; reflexivity).
  exists a, (rev b). split; [congruence|]. split; auto. split; [now apply Forall_rev|]. split.
  - intros c r Er. rewrite Er in E. simpl in E. eapply H3. exact E.
  - intros c r Er. apply (f_equal (@rev N)) in Er. rewrite rev_involutive, rev_app_distr in Er. simpl in Er. eapply H6; eauto.
Qed.

Lemma ows_prefix_unique a t b a' t' b' :
  a ++ t ++ b = a' ++ t' ++ b' -> Forall Ows a -> Forall Ows a' -> Forall Ows b -> Forall Ows b' ->
  (forall c r, t = c :: r -> ~ Ows c) -> (forall c r, t' = c :: r -> ~ Ows c) ->
  t ++ b = t' ++ b' \/ t = [] /\ t' = [].
Proof.
  revert a'. induction a as [|x a IH]; intros [|y a'] E Ha Ha' Hb Hb' Ht Ht'; simpl in *.
  - auto.
  - destruct t as [|c t].
    + simpl in E. destruct t' as [|c' t']; auto. exfalso.
      rewrite E in Hb. inversion Hb as [|? ? Hy Hr]; subst. apply Forall_app in Hr as [_ Hr]. inversion Hr; subst.
      eapply Ht'; eauto.
    + simpl in E. injection E as -> E. inversion Ha'; subst. exfalso. eapply Ht; eauto.
  - destruct t' as [|c t'].
    + simpl in E. destruct t as [|c' t]; auto. exfalso.
      rewrite <- E in Hb'. inversion Hb' as [|? ? Hy Hr]; subst. apply Forall_app in Hr as [_ Hr]. inversion Hr; subst.
      eapply Ht; eauto.
    + simpl in E. injection E as -> E. inversion Ha; subst. exfalso. eapply Ht'; eauto.
  - injection E as -> E. inversion Ha; inversion Ha'; subst. eapply IH; eauto.
Qed.

Lemma Trimmed_det s t t' : Trimmed s t -> Trimmed s t' -> t = t'.
Proof.
  intros (a & b & -> & Ha & Hb & Hh & Hl) (a' & b' & E & Ha' & Hb' & Hh' & Hl').
  destruct (ows_prefix_unique a t b a' t' b' E) as [E2|[-> ->]]; auto.
  apply (f_equal (@rev N)) in E2. rewrite !rev_app_distr in E2.
  destruct (ows_prefix_unique (rev b) (rev t) [] (rev b') (rev t') []) as [E3|[E3 E4]];
    rewrite ?app_nil_r; auto using Forall_rev.
  - intros c r Er. apply (f_equal (@rev N)) in Er. rewrite rev_involutive in Er. simpl in Er. eapply Hl; eauto.
  - intros c r Er. apply (f_equal (@rev N)) in Er. rewrite rev_involutive in Er. simpl in Er. eapply Hl'; eauto.
  - rewrite !app_nil_r in E3. rewrite <- (rev_involutive t), E3. apply rev_involutive.
  - rewrite <- (rev_involutive t), <- (rev_involutive t'), E3, E4. reflexivity.
Qed.

Lemma split_and_trim_ok d : forall fuel s acc, (length s < fuel)%nat ->
  exists pieces, split_and_trim_loop fuel d s acc
      = Some (acc ++ filter (fun t => match t with [] => false | _ => true end) (map trim_http_whitespace pieces))
    /\ pieces <> [] /\ intercalate [d] pieces = s /\ Forall (fun p => ~ In d p) pieces.
Proof.
  induction fuel as [|fuel IH]; intros s acc Hf; [lia|]. cbn [split_and_trim_loop].
  destruct (find_char d s) as [k|] eqn:Hk.
  - apply find_char_some in Hk as (a & b & -> & <- & Ha). rewrite skipn_S_app, firstn_length_app.
    assert (Hl : (length b < fuel)%nat) by (rewrite app_length in Hf; simpl in Hf; lia).
    destruct (IH b (match trim_http_whitespace a with [] => acc | _ => acc ++ [trim_http_whitespace a] end) Hl)
      as (ps & H1 & H2 & H3 & H4).
    exists (a :: ps). rewrite H1. split; [|split; [congruence|split]].
    + simpl. destruct (trim_http_whitespace a); [reflexivity|]. now rewrite <- app_assoc.
    + rewrite intercalate_cons by auto. now rewrite H3.
    + constructor; auto.
  - apply find_char_none in Hk. exists [s]. simpl. split; [|repeat split; auto; congruence].
    destruct (trim_http_whitespace s); [now rewrite app_nil_r|reflexivity].
Qed.

Lemma split_and_trim_items s d : exists items, split_and_trim_header_list s d = Some items /\ HeaderItems d s items.
Proof.
  unfold split_and_trim_header_list.
  destruct (split_and_trim_ok d (S (length s)) s [] ltac:(lia)) as (ps & H1 & H2 & H3 & H4).
  eexists. split; [exact H1|]. exists ps, (map trim_http_whitespace ps). repeat split; auto.
  clear. induction ps; simpl; constructor; auto. apply trim_spec.
Qed.
