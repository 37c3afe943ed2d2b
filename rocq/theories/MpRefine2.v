From Verif Require Import Base UtilModel Http1Model UtilSpec CookieSpec H2FieldSpec Http1Spec Http1Proofs RecvSpec MpModel MpSpec MpAuto MpRefine.
Local Open Scope nat_scope.

Lemma write_len l k c : k < length l -> length (write_ l k c) = length l.
Proof. intros H. unfold write_. rewrite app_length, firstn_length. cbn [length]. rewrite skipn_length. lia. Qed.
Lemma write_firstn l k c : k < length l -> firstn (S k) (write_ l k c) = firstn k l ++ [c].
Proof.
  intros H. unfold write_. rewrite firstn_app, firstn_length. replace (S k - Nat.min k (length l)) with 1 by lia. rewrite firstn_firstn. replace (Nat.min (S k) k) with k by lia. reflexivity.
Qed.
Lemma false_run b a ts c r : Good b -> u_state a = MData -> u_pend a <> [] -> a_step b a c = d_false b a c ->
  a_run b a ts (c :: r) = a_run b (d_hold a []) (ts ++ map KData (u_pend a)) (c :: r).
Proof.
  intros (HB & HH) HS HP E. cbn [a_run]. rewrite E. unfold a_step. cbn [d_hold u_state]. unfold a_data. cbn [d_hold u_pend u_part u_last length app].
  assert (HL : (0 <? length b) = true) by (apply Nat.ltb_lt; lia). rewrite HL. unfold d_false. cbn [d_hold u_pend]. destruct b as [|x b]; [cbn in HB; lia|]. cbn [nth hd]. rewrite (N.eqb_sym c x).
  destruct (x =? c)%N; unfold d_hold; cbn [u_part u_last u_pend].
  - rewrite app_nil_r. reflexivity.
  - rewrite map_app, <- !app_assoc. reflexivity.
Qed.
Lemma sub_over (buf : list N) m : sub_ buf m (S (length buf)) = sub_ buf m (length buf).
Proof.
  unfold sub_. destruct (Nat.le_gt_cases m (length buf)) as [H|H].
  - rewrite !firstn_all2; auto; rewrite skipn_length; lia.
  - rewrite skipn_all2 by lia. now rewrite !firstn_nil.
Qed.
Lemma nth_eqb (b : list N) k (c : N) : k < length b -> nth_error b k = Some (nth k b 0%N).
Proof. intros H. now apply nth_error_nth'. Qed.
Lemma firstn_S (b : list N) k : k < length b -> firstn (S k) b = firstn k b ++ [nth k b 0%N].
Proof. revert b. induction k as [|k IH]; intros [|x b] H; cbn [length] in H; try lia; [reflexivity|]. cbn [firstn nth app]. f_equal. apply IH. lia. Qed.

Definition Moves (b buf : list N) (s : mp) (t : turn) (i : nat) (o : ares) : Prop :=
  exists s1 a1 ts1 i1, t = Go s1 i1 /\ Rel b buf s1 a1 ts1 i1 /\ a_run b a1 ts1 (skipn i1 buf) = o /\ need buf s1 i1 < need buf s i.

Ltac lt0 := repeat match goal with |- context [0 <? 0] => change (0 <? 0) with false | |- context [0 <? S ?n] => change (0 <? S n) with true end; cbv iota.
(** a false lead *)
Lemma false_sim b buf s a ts i c : Good b -> Rel b buf s a ts i -> u_state a = MData -> u_pend a <> [] -> i < length buf -> nth_error buf i = Some c ->
  a_step b a c = d_false b a c -> Moves b buf s (part_tail (m_set s MData 0) (length (u_pend a)) i c) i (a_run b a ts (skipn i buf)).
Proof.
  intros HB ((HS & HP & HL & HK & HX) & HT) HU HN HI HC E. rewrite HU in HX. destruct HX as (HN0 & HIx & HF & HH & HM). rewrite (skipn_nth _ _ _ HC). rewrite (false_run b a ts c _ HB HU HN E).
  unfold part_tail. msg. lt0. assert (HPos : 0 < length (u_pend a)) by (destruct (u_pend a); [congruence|cbn [length]; lia]).
  assert (HM' : marks s None None None) by (destruct (u_pend a); [congruence|exact HM]). rewrite (holding_none _ _ _ HM') in HT. rewrite app_nil_r in HT. destruct HM' as (MF & MV & MD).
  assert (E1 : (0 <? length (u_pend a)) = true) by (apply Nat.ltb_lt; lia). rewrite E1. assert (HLen : length (u_pend a) <= length b + 1).
  { destruct HH as [HH|(x & HH)]; rewrite HH; [rewrite firstn_length; lia|rewrite app_length; cbn [length]; lia]. }
  assert (E2 : (length (m_look s) <? length (u_pend a)) = false) by (apply Nat.ltb_ge; lia). rewrite E2.
  eexists _, (d_hold a []), (ts ++ map KData (u_pend a)), i. split; [reflexivity|]. split; [|split].
  - unfold Rel, Sync, marks, holding. msg. cbn [d_hold u_state u_part u_last u_n u_pend length]. split.
    + repeat split; auto; [left; reflexivity|]. exists i. repeat split; auto.
    + rewrite MF, MV. cbn [held app]. rewrite sub_nil. cbn [map]. rewrite app_nil_r, flat_snoc. cbn [flat1]. rewrite HT. f_equal. f_equal. unfold sub_. rewrite Nat.sub_0_r. cbn [skipn]. exact HF.
  - rewrite (skipn_nth _ _ _ HC). reflexivity.
  - unfold need. msg. rewrite HIx. destruct (length (u_pend a) =? 0) eqn:E3; [apply Nat.eqb_eq in E3; lia|]. cbn [Nat.eqb]. lia.
Qed.
(** one more octet held *)
Lemma more_sim b buf s a ts i c p l : Good b -> Rel b buf s a ts i -> u_state a = MData -> u_pend a <> [] -> i < length buf -> nth_error buf i = Some c ->
  a_step b a c = ANext (mkAu MData p l 0 (u_pend a ++ [c])) [] -> Hold b (u_pend a ++ [c]) -> length (u_pend a) <= length b + 1 ->
  Moves b buf s (part_tail (m_flags (m_set s MData (S (length (u_pend a)))) p l) (length (u_pend a)) i c) i (a_run b a ts (skipn i buf)).
Proof.
  intros HB ((HS & HP & HL & HK & HX) & HT) HU HN HI HC E HHold HLen. rewrite HU in HX. destruct HX as (HN0 & HIx & HF & HH & HM). rewrite (skipn_nth _ _ _ HC). cbn [a_run]. rewrite E.
  assert (HM' : marks s None None None) by (destruct (u_pend a); [congruence|exact HM]). rewrite (holding_none _ _ _ HM') in HT. rewrite app_nil_r in HT. destruct HM' as (MF & MV & MD).
  unfold part_tail. msg. lt0. assert (E2 : (length (m_look s) <=? S (length (u_pend a)) - 1) = false) by (apply Nat.leb_gt; lia). rewrite E2.
  eexists _, _, (ts ++ []), (S i). split; [reflexivity|]. split; [|split; [reflexivity|apply need_next; lia]].
  unfold Rel, Sync, marks, holding. msg. cbn [u_state u_part u_last u_n u_pend length]. rewrite MF, MV, MD. cbn [held app]. rewrite !app_nil_r. split; [|exact HT].
  replace (S (length (u_pend a)) - 1) with (length (u_pend a)) by lia. rewrite write_len by lia. rewrite app_length. cbn [length]. rewrite Nat.add_1_r, write_firstn by lia. rewrite HF.
  destruct (u_pend a ++ [c]) eqn:EP; [destruct (u_pend a); discriminate EP|]. repeat split; auto.
Qed.
Lemma m_set_self s st ix : m_flags (m_set s st ix) (m_part s) (m_last s) = m_set s st ix.
Proof. reflexivity. Qed.
Lemma data_core b buf s a ts i : Good b -> Rel b buf s a ts i -> u_state a = MData -> i < length buf ->
  Moves b buf s (part_data b buf s i) i (a_run b a ts (skipn i buf)).
Proof.
  intros HB HR HU HI. pose proof HR as ((HS & HP & HL & HK & HX) & HT). rewrite HU in HX. destruct HX as (HN0 & HIx & HF & HH & HM). unfold part_data.
  destruct (u_pend a) as [|p0 p] eqn:EP.
  - cbn [length] in HIx. rewrite HIx. cbn [Nat.eqb andb]. destruct HM as (m & Hm & MF & MV & MD). unfold holding in HT. rewrite MF, MV, MD in HT. cbn [held app] in HT.
    destruct (skip_total b buf ltac:(destruct HB; lia) (S (length buf)) i ltac:(lia) ltac:(lia)) as (i2 & ES). rewrite ES. destruct (skip_run b buf a HB _ _ _ ts ES) as (H1 & H2 & H3). specialize (H2 ltac:(lia)).
    assert (HA : a = d_hold a []). { destruct a as [st p l n pe]. cbn [u_state u_pend u_n d_hold u_part u_last] in *. subst. reflexivity. }
    rewrite <- HA in H3. assert (HT2 : flat (m_evs s) ++ map KData (sub_ buf m i2) = ts ++ map KData (sub_ buf i i2)).
    { rewrite (sub_split buf m i i2) by lia. rewrite map_app, app_assoc, HT. reflexivity. }
    destruct (i2 =? length buf) eqn:E2.
    + apply Nat.eqb_eq in E2. eexists s, a, (ts ++ map KData (sub_ buf i i2)), i2. split; [reflexivity|]. split; [|split].
      * unfold Rel, Sync, holding. rewrite HU, EP, MF, MV, MD. cbn [held app length]. split; [repeat split; auto; try congruence; try (left; reflexivity); exists m; (split; [lia|repeat split; auto])|].
        exact HT2.
      * now rewrite H3.
      * apply need_next; lia.
    + apply Nat.eqb_neq in E2. destruct (nth_error buf i2) as [c|] eqn:EC; [|apply nth_error_None in EC; lia]. destruct HB as (HB & HHd). rewrite H3. rewrite (skipn_nth _ _ _ EC).
      assert (EL : (0 <? length b) = true) by (apply Nat.ltb_lt; lia). rewrite EL. destruct b as [|x b]; [cbn in HB; lia|]. cbn [nth_error]. cbn [a_run]. unfold a_step. rewrite HU. unfold a_data. rewrite EP. cbn [length nth app]. lt0.
      destruct (x =? c)%N eqn:EX.
      * assert (ER : range_ok (m_data s) i2 = true) by (rewrite MD; apply Nat.leb_le; lia). rewrite ER. cbn [negb]. unfold part_tail. msg. lt0. destruct (cut_same s EData (m_data s) buf i2 false) as (C1 & C2 & C3 & C4 & C5 & C6 & C7 & C8). rewrite C8, HK.
        replace (1 - 1) with 0 by lia. cbn [Nat.leb length Nat.add]. eexists _, _, _, (S i2). split; [reflexivity|]. split; [|split; [reflexivity|apply need_next; lia]].
        apply N.eqb_eq in EX. subst x. unfold Rel, Sync, marks, holding. msg. cbn [d_hold u_state u_part u_last u_n u_pend length]. rewrite C1, C2, C3, C5, C6, cut_evs by reflexivity. rewrite MF, MV, MD. cbn [held app flat1].
        rewrite !app_nil_r. split; [|exact HT2]. cbn [length] in HK. rewrite write_len by lia. rewrite write_firstn by lia. cbn [firstn app].
        repeat split; auto; try congruence. left. reflexivity.
      * unfold d_false. cbn [hd]. rewrite N.eqb_sym, EX. rewrite EP. cbn [app map]. unfold part_tail. msg. lt0. eexists _, _, _, (S i2). split; [reflexivity|]. split; [|split; [reflexivity|apply need_next; lia]].
        unfold Rel, Sync, marks, holding. msg. cbn [d_hold u_state u_part u_last u_n u_pend length]. rewrite MF, MV, MD. split.
        { repeat split; auto; try congruence; try (left; reflexivity). exists m. split; [lia|repeat split; auto]. }
        { rewrite (held_snoc KData m buf i2 c) by (auto; lia). cbn [held app]. rewrite app_assoc, HT2. reflexivity. }
  - assert (HNe : u_pend a <> []) by (rewrite EP; discriminate). rewrite <- EP in *. assert (HPos : (m_index s =? 0) = false) by (rewrite HIx; apply Nat.eqb_neq; destruct (u_pend a); [congruence|cbn [length]; lia]).
    rewrite HPos. cbn [andb]. destruct (nth_error buf i) as [c|] eqn:EC; [|apply nth_error_None in EC; lia]. rewrite HIx, HS, HU.
    destruct HB as (HB & HHd). assert (HB' : Good b) by (split; auto). assert (HFS : a_step b a c = a_data b a c) by (unfold a_step; now rewrite HU).
    assert (HLen : length (u_pend a) <= length b + 1). { destruct HH as [HH|(x & HH)]; rewrite HH; [rewrite firstn_length; lia|rewrite app_length; cbn [length]; lia]. }
    pose proof HFS as HFS'. unfold a_data in HFS'. cbn zeta.
    destruct (length (u_pend a) <? length b) eqn:E1.
    { apply Nat.ltb_lt in E1. rewrite (nth_eqb b _ c E1). rewrite HIx in HPos. destruct (nth (length (u_pend a)) b 0 =? c)%N eqn:EX.
      - rewrite <- (m_set_self s MData). apply N.eqb_eq in EX. assert (EQ : m_state s = MData) by congruence. rewrite HP, HL. apply more_sim; auto.
        left. rewrite app_length. cbn [length]. rewrite Nat.add_1_r, firstn_S by exact E1. rewrite EX. destruct HH as [HH|(x & HH)]; [now rewrite <- HH|]. exfalso. rewrite HH, app_length in E1. cbn [length] in E1. lia.
      - apply false_sim with (ts := ts); auto. }
    apply Nat.ltb_ge in E1. destruct (length (u_pend a) =? length b) eqn:E2.
    { apply Nat.eqb_eq in E2. assert (EPb : u_pend a = b). { destruct HH as [HH|(x & HH)]; [rewrite HH, E2; now apply firstn_all|]. exfalso. rewrite HH, app_length in E2. cbn [length] in E2. lia. }
      assert (HHold : Hold b (u_pend a ++ [c])) by (right; exists c; now rewrite EPb).
      destruct (c =? 13)%N; [|destruct (c =? 45)%N].
      - msg. rewrite HL. apply more_sim; auto; lia.
      - msg. rewrite HP. apply more_sim; auto; lia.
      - apply false_sim with (ts := ts); auto. }
    apply Nat.eqb_neq in E2. assert (E3 : length (u_pend a) = length b + 1) by lia. assert (E4 : (length (u_pend a) - 1 =? length b) = true) by (apply Nat.eqb_eq; lia). rewrite E4.
    assert (HM' : marks s None None None) by (destruct (u_pend a); [congruence|exact HM]). pose proof HM' as (MF & MV & MD). rewrite (holding_none _ _ _ HM') in HT. rewrite app_nil_r in HT.
    rewrite HP, HL. destruct (u_part a) eqn:EPt.
    { destruct (c =? 10)%N eqn:EC10.
      - rewrite (skipn_nth _ _ _ EC). cbn [a_run]. rewrite HFS'. eexists _, _, _, (S i). split; [reflexivity|]. split; [|split; [reflexivity|apply need_next; lia]].
        unfold Rel, Sync, marks, holding. msg. cbn [u_state u_part u_last u_n u_pend]. rewrite MF, MV, MD. cbn [held app]. rewrite app_nil_r, !flat_snoc. cbn [flat1]. rewrite HT, <- app_assoc. repeat split; auto.
      - apply false_sim with (ts := ts); auto. }
    destruct (u_last a) eqn:ELt.
    { destruct (c =? 45)%N eqn:EC45.
      - rewrite (skipn_nth _ _ _ EC). cbn [a_run]. rewrite HFS'. unfold part_tail. msg. assert (E5 : (0 <? length (u_pend a)) = true) by (apply Nat.ltb_lt; lia). rewrite E5.
        assert (E6 : (length (m_look s) <=? length (u_pend a) - 1) = false) by (apply Nat.leb_gt; lia). rewrite E6.
        eexists _, _, _, (S i). split; [reflexivity|]. split; [|split; [reflexivity|apply need_next; lia]].
        unfold Rel, Sync, marks, holding. msg. cbn [u_state u_part u_last u_n u_pend]. rewrite MF, MV, MD. cbn [held app]. rewrite app_nil_r, !flat_snoc. cbn [flat1]. rewrite HT, <- app_assoc.
        rewrite write_len by lia. repeat split; auto.
      - apply false_sim with (ts := ts); auto. }
    apply false_sim with (ts := ts); auto.
Qed.

Lemma data_sim b buf s a ts i : Good b -> Rel b buf s a ts i -> (u_state a = MDataStart \/ u_state a = MData) -> i < length buf ->
  Moves b buf s (turn_ b buf s i) i (a_run b a ts (skipn i buf)).
Proof.
  intros HB HR HU HI. pose proof HR as ((HS & HP & HL & HK & HX) & HT). unfold turn_. destruct (nth_error buf i) as [c|] eqn:EC; [|apply nth_error_None in EC; lia]. rewrite HS.
  destruct HU as [HU|HU]; rewrite HU in *; [|now apply data_core].
  destruct HX as (HI0 & HPe & MF & MV & MD). set (s1 := m_setd (m_set s MData (m_index s)) (Some i)). set (a1 := mkAu MData (u_part a) (u_last a) 0 []).
  assert (HR1 : Rel b buf s1 a1 ts i).
  { unfold s1, a1, Rel, Sync, marks, holding. msg. cbn [u_state u_part u_last u_n u_pend length]. rewrite (holding_none s) in HT by (repeat split; auto). rewrite app_nil_r in HT. rewrite MF, MV. cbn [held app]. rewrite sub_nil.
    cbn [map]. rewrite app_nil_r. split; [|exact HT]. repeat split; auto; try (left; reflexivity). exists i. repeat split; auto. }
  assert (HE : a_run b a ts (skipn i buf) = a_run b a1 ts (skipn i buf)).
  { rewrite (skipn_nth _ _ _ EC). cbn [a_run]. unfold a_step, a1. rewrite HU. cbn [u_state]. unfold a_data, d_false, d_hold. cbn [u_part u_last u_pend]. rewrite HPe. reflexivity. }
  rewrite HE. destruct (data_core b buf s1 a1 ts i HB HR1 eq_refl HI) as (s2 & a2 & ts2 & i2 & H1 & H2 & H3 & H4). exists s2, a2, ts2, i2. repeat split; auto; apply H2.
Qed.
Lemma err_sim b buf s a ts i c : Rel b buf s a ts i -> nth_error buf i = Some c -> a_step b a c = AErr -> exists s1, turn_ b buf s i = Leave s1 /\ m_state s1 = MError.
Proof.
  intros ((HS & HP & HL & HK & HX) & HT) HC E. unfold turn_. rewrite HC, HS. unfold a_step in E. destruct (u_state a).
  - unfold a_first in E. unfold first_boundary. msg. repeat match goal with |- context [if ?x then _ else _] => destruct x; try discriminate E end; try (eexists; split; reflexivity).
    destruct (nth_error b (0 + 2)); [|discriminate E]. destruct (c =? n)%N; [discriminate E|]. eexists; split; reflexivity.
  - destruct HX as (HI & _). unfold a_first in E. unfold first_boundary. msg. rewrite <- HI in E. repeat match goal with |- context [if ?x then _ else _] => destruct x; try discriminate E end; try (eexists; split; reflexivity).
    destruct (nth_error b (m_index s + 2)); [|discriminate E]. destruct (c =? n)%N; [discriminate E|]. eexists; split; reflexivity.
  - unfold a_field in E. unfold header_field. msg. cbn [Nat.eqb] in *. destruct (c =? 13)%N; [discriminate E|]. destruct (c =? 58)%N; [eexists; split; reflexivity|]. destruct (field_char c); [discriminate E|]. eexists; split; reflexivity.
  - destruct HX as (HI & HN & _). unfold a_field in E. unfold header_field. msg. rewrite <- HI in E, HN. assert (EZ : (m_index s =? 0) = false) by now apply Nat.eqb_neq. rewrite EZ in E. destruct (c =? 13)%N; [discriminate E|]. destruct (c =? 58)%N; [discriminate E|].
    destruct (field_char c); [discriminate E|]. eexists; split; reflexivity.
  - unfold a_value in E. destruct (c =? 32)%N; [discriminate E|]. destruct (c =? 13)%N; discriminate E.
  - unfold a_value in E. destruct (c =? 13)%N; discriminate E.
  - destruct (c =? 10)%N; [discriminate E|]. eexists; split; reflexivity.
  - destruct (c =? 10)%N; [discriminate E|]. eexists; split; reflexivity.
  - exfalso. unfold a_data, d_false in E. repeat match type of E with context [if ?x then _ else _] => destruct x; try discriminate E end.
  - exfalso. unfold a_data, d_false in E. repeat match type of E with context [if ?x then _ else _] => destruct x; try discriminate E end.
  - discriminate E.
  - discriminate E.
Qed.
Lemma data_next b a c : u_state a = MDataStart \/ u_state a = MData -> exists a1 t, a_step b a c = ANext a1 t.
Proof. intros H. unfold a_step. assert (E : exists a1 t, a_data b a c = ANext a1 t) by (unfold a_data, d_false; repeat match goal with |- context [if ?x then _ else _] => destruct x end; eauto). destruct H as [->| ->]; exact E. Qed.

Lemma sub_ge (buf : list N) m i : length buf <= i -> sub_ buf m i = sub_ buf m (length buf).
Proof.
  intros HI. unfold sub_. destruct (Nat.le_gt_cases m (length buf)) as [H|H].
  - rewrite !firstn_all2; auto; rewrite skipn_length; lia.
  - rewrite skipn_all2 by lia. now rewrite !firstn_nil.
Qed.
Lemma at_end_rel b buf s a ts i buf2 : Rel b buf s a ts i -> length buf <= i -> Rel b buf2 (at_end s buf) a ts 0.
Proof.
  intros ((HS & HP & HL & HK & HX) & HT) HI. unfold at_end.
  set (s1 := cut s EField (m_field s) buf (length buf) false). destruct (cut_same s EField (m_field s) buf (length buf) false) as (A1 & A2 & A3 & A4 & A5 & A6 & A7 & A8). fold s1 in A1, A2, A3, A4, A5, A6, A7, A8.
  set (z := fun o : option nat => match o with None => None | Some _ => Some 0 end).
  change (match m_field s with | Some _ => Some 0 | None => None end) with (z (m_field s)). set (s2 := m_setf s1 (z (m_field s))). cbn zeta.
  assert (V2 : m_value s2 = m_value s) by (unfold s2; msg; exact A6). assert (D2 : m_data s2 = m_data s) by (unfold s2; msg; exact A7).
  set (s3 := cut s2 EValue (m_value s2) buf (length buf) false). destruct (cut_same s2 EValue (m_value s2) buf (length buf) false) as (B1 & B2 & B3 & B4 & B5 & B6 & B7 & B8). fold s3 in B1, B2, B3, B4, B5, B6, B7, B8.
  change (match m_value s2 with | Some _ => Some 0 | None => None end) with (z (m_value s2)). set (s4 := m_setv s3 (z (m_value s2))).
  assert (D4 : m_data s4 = m_data s) by (unfold s4; msg; congruence).
  set (s5 := cut s4 EData (m_data s4) buf (length buf) false). destruct (cut_same s4 EData (m_data s4) buf (length buf) false) as (C1 & C2 & C3 & C4 & C5 & C6 & C7 & C8). fold s5 in C1, C2, C3, C4, C5, C6, C7, C8.
  change (match m_data s4 with | Some _ => Some 0 | None => None end) with (z (m_data s4)).
  assert (E1 : m_state s5 = m_state s) by (rewrite C1; unfold s4; msg; rewrite B1; unfold s2; msg; exact A1).
  assert (E2 : m_part s5 = m_part s) by (rewrite C2; unfold s4; msg; rewrite B2; unfold s2; msg; exact A2).
  assert (E3 : m_last s5 = m_last s) by (rewrite C3; unfold s4; msg; rewrite B3; unfold s2; msg; exact A3).
  assert (E4 : m_index s5 = m_index s) by (rewrite C4; unfold s4; msg; rewrite B4; unfold s2; msg; exact A4).
  assert (E5 : m_field s5 = z (m_field s)) by (rewrite C5; unfold s4; msg; rewrite B5; unfold s2; msg; reflexivity).
  assert (E6 : m_value s5 = z (m_value s)) by (rewrite C6; unfold s4; msg; rewrite V2; reflexivity).
  assert (E8 : m_look s5 = m_look s) by (rewrite C8; unfold s4; msg; rewrite B8; unfold s2; msg; exact A8).
  assert (EV : flat (m_evs s5) = flat (m_evs s) ++ holding s buf (length buf)).
  { unfold s5. rewrite cut_evs by reflexivity. unfold s4 at 1. msg. unfold s3. rewrite cut_evs by reflexivity. unfold s2 at 1. msg. unfold s1. rewrite cut_evs by reflexivity. rewrite D4, V2.
    rewrite <- !app_assoc. reflexivity. }
  split.
  - unfold Sync, marks. msg. rewrite E1, E2, E3, E4, E5, E6, E8, D4. repeat (split; [assumption|]). unfold marks in HX.
    destruct (u_state a); try contradiction HX.
    all: try (destruct HX as (M1 & M2 & M3); rewrite M1, M2, M3; repeat split; fail).
    + destruct HX as (HI0 & M1 & M2 & M3). rewrite M1, M2, M3. repeat split; auto.
    + destruct HX as (HI0 & HN & m & Hm & M1 & M2 & M3). rewrite M1, M2, M3. cbn [z]. repeat split; auto. exists 0. repeat split; auto.
    + destruct HX as (m & Hm & M1 & M2 & M3). rewrite M1, M2, M3. exists 0. repeat split; auto.
    + destruct HX as (HI0 & HQ & M1 & M2 & M3). rewrite M1, M2, M3. repeat split; auto.
    + destruct HX as (HI0 & HQ & M1 & M2 & M3). rewrite M1, M2, M3. repeat split; auto.
    + destruct HX as (HN & HI0 & HF & HH & HM). repeat (split; [assumption|]). destruct (u_pend a).
      * destruct HM as (m & Hm & M1 & M2 & M3). rewrite M1, M2, M3. exists 0. repeat split; auto.
      * destruct HM as (M1 & M2 & M3). rewrite M1, M2, M3. repeat split; auto.
  - assert (HT' : flat (m_evs s) ++ holding s buf (length buf) = ts).
    { rewrite <- HT. f_equal. unfold holding, held. destruct (m_field s), (m_value s), (m_data s); rewrite ?(sub_ge buf _ i) by exact HI; reflexivity. }
    msg. rewrite EV, HT'. unfold holding. msg. rewrite E5, E6, D4. unfold held, z. destruct (m_field s), (m_value s), (m_data s); rewrite ?sub_nil; cbn [map app]; now rewrite ?app_nil_r.
Qed.
Lemma skip_le b buf : forall fuel i i1, skip_ fuel b buf i = Some i1 -> i <= length buf -> i <= i1 <= length buf.
Proof.
  induction fuel as [|fuel IH]; intros i i1 E HI; [discriminate E|]. cbn [skip_] in E. destruct (i + length b <=? length buf) eqn:E1; [|injection E as <-; lia]. apply Nat.leb_le in E1.
  destruct (nth_error buf (i + (length b - 1))) as [c|]; [|discriminate E]. destruct (existsb (N.eqb c) b); [injection E as <-; lia|]. apply IH in E; lia.
Qed.
Lemma tail_pos s prev i c s' i' : part_tail s prev i c = Go s' i' -> i' <= S i.
Proof. unfold part_tail. destruct (0 <? m_index s). - destruct (length (m_look s) <=? m_index s - 1); intros E; [discriminate E|]. injection E as <- <-. lia. - destruct (0 <? prev). + destruct (length (m_look s) <? prev); intros E; [discriminate E|]. injection E as <- <-. lia. + intros E. injection E as <- <-. lia. Qed.
Ltac pos_ E := first [discriminate E | apply tail_pos in E; lia | injection E; intros; subst; lia].
Ltac pos1 E := match type of E with context [if ?x then _ else _] => destruct x | context [match ?x with Some _ => _ | None => _ end] => destruct x end.
Lemma data_pos b buf s i s' i' : i < length buf -> part_data b buf s i = Go s' i' -> i' <= length buf.
Proof.
  intros HI. unfold part_data. destruct (if m_index s =? 0 then skip_ (S (length buf)) b buf i else Some i) as [i1|] eqn:ES; [|discriminate].
  assert (H1 : i1 <= length buf) by (destruct (m_index s =? 0); [apply skip_le in ES; lia|injection ES as <-; lia]).
  destruct ((m_index s =? 0) && (i1 =? length buf)); [intros E; injection E as <- <-; exact H1|]. destruct (nth_error buf i1) as [c|] eqn:EC; [|discriminate]. assert (H2 : i1 < length buf) by (apply nth_error_Some; congruence). cbn zeta.
  destruct (m_index s <? length b). { destruct (nth_error b (m_index s)) as [x|]; [|discriminate]. destruct (x =? c)%N; intros E; [|pos_ E]. destruct ((m_index s =? 0) && negb (range_ok (m_data s) i1)); pos_ E. }
  intros E. repeat pos1 E; pos_ E.
Qed.
Lemma turn_pos b buf s i s' i' : i < length buf -> turn_ b buf s i = Go s' i' -> i' <= length buf.
Proof.
  intros HI. unfold turn_. destruct (nth_error buf i) as [c|]; [|discriminate]. destruct (m_state s); try (intros E; eapply data_pos; eassumption); unfold first_boundary, header_field, header_value; cbn zeta; intros E; repeat pos1 E; pos_ E.
Qed.
Lemma sync_ranges b buf s a ts i : Rel b buf s a ts i -> i <= length buf -> range_ok (m_field s) (length buf) && range_ok (m_value s) (length buf) && range_ok (m_data s) (length buf) = true.
Proof.
  intros ((_ & _ & _ & _ & HX) & _) HI. assert (HM : exists f v d, marks s f v d /\ range_ok f (length buf) = true /\ range_ok v (length buf) = true /\ range_ok d (length buf) = true).
  { destruct (u_state a); repeat match goal with H : _ /\ _ |- _ => destruct H | H : exists _, _ |- _ => destruct H | H : False |- _ => contradiction H end; try destruct (u_pend a); repeat match goal with H : _ /\ _ |- _ => destruct H | H : exists _, _ |- _ => destruct H end;
    (do 3 eexists; split; [eassumption|]); cbn [range_ok]; repeat split; try reflexivity; apply Nat.leb_le; lia. }
  destruct HM as (f & v & d & (-> & -> & ->) & -> & -> & ->). reflexivity.
Qed.
Lemma loop_sim b buf s0 : Good b -> forall fuel s a ts i, i <= length buf -> Rel b buf s a ts i -> need buf s i < fuel ->
  match a_run b a ts (skipn i buf) with
  | ANext a' ts' => exists s', feed_loop fuel b buf s0 s i = Fed s' /\ forall buf2, Rel b buf2 s' a' ts' 0
  | AErr => exists s', feed_loop fuel b buf s0 s i = Fed s' /\ m_state s' = MError
  | _ => True
  end.
Proof.
  intros HB. induction fuel as [|fuel IH]; intros s a ts i HL HR HN; [lia|]. cbn [feed_loop]. destruct (i <? length buf) eqn:EI.
  - apply Nat.ltb_lt in EI. destruct (nth_error buf i) as [c|] eqn:EC; [|apply nth_error_None in EC; lia]. destruct (simple (m_state s)) eqn:ES.
    + rewrite (skipn_nth _ _ _ EC). cbn [a_run]. destruct (a_step b a c) as [a1 t| | |] eqn:E; auto.
      * destruct (simple_sim b buf s a ts i c a1 t HB HR EC ES E) as (s1 & E1 & HR1). rewrite E1. apply IH; [lia|exact HR1|]. pose proof (need_next buf s s1 i (S i) EI ltac:(lia)). lia.
      * destruct (err_sim b buf s a ts i c HR EC E) as (s1 & E1 & E2). rewrite E1. eexists. split; [reflexivity|]. unfold unsaved. cbn [m_state]. now rewrite E2.
    + pose proof HR as ((HS & _ & _ & _ & HX) & _). destruct (u_state a) eqn:EU; rewrite HS in ES; try discriminate ES; try contradiction HX.
      * destruct (data_sim b buf s a ts i HB HR (or_introl EU) EI) as (s1 & a1 & ts1 & i1 & E1 & HR1 & E2 & E3). rewrite E1, <- E2. apply IH; [eapply turn_pos; eassumption|exact HR1|lia].
      * destruct (data_sim b buf s a ts i HB HR (or_intror EU) EI) as (s1 & a1 & ts1 & i1 & E1 & HR1 & E2 & E3). rewrite E1, <- E2. apply IH; [eapply turn_pos; eassumption|exact HR1|lia].
      * rewrite (skipn_nth _ _ _ EC). cbn [a_run]. unfold a_step. rewrite EU. exact I.
  - apply Nat.ltb_ge in EI. rewrite skipn_all2 by exact EI. cbn [a_run]. rewrite (sync_ranges b buf s a ts i HR HL). eexists. split; [reflexivity|]. intros buf2. now apply (at_end_rel b buf s a ts i).
Qed.
Lemma need_start buf s : need buf s 0 < S (2 * length buf).
Proof. unfold need. destruct (m_index s =? 0); lia. Qed.
Lemma feed_sim b s a ts buf : Good b -> (forall x, Rel b x s a ts 0) ->
  match a_run b a ts buf with
  | ANext a' ts' => exists s', feed b s buf = Fed s' /\ forall x, Rel b x s' a' ts' 0
  | AErr => exists s', feed b s buf = Fed s' /\ m_state s' = MError
  | _ => True
  end.
Proof.
  intros HB HR. destruct buf as [|c buf]; [cbn [a_run]; exists s; unfold feed; destruct (m_state s); auto|].
  assert (HN : m_state s <> MError). { destruct (HR []) as ((HS & _ & _ & _ & HX) & _). rewrite HS. intros E. rewrite E in HX. exact HX. }
  assert (HE : feed b s (c :: buf) = feed_loop (S (2 * length (c :: buf))) b (c :: buf) s s 0) by (unfold feed; destruct (m_state s); auto; congruence).
  rewrite HE. apply (loop_sim b (c :: buf) s HB _ s a ts 0 (Nat.le_0_l _) (HR _)). apply need_start.
Qed.
Lemma feed_error b s buf : m_state s = MError -> feed b s buf = Fed s.
Proof. intros E. unfold feed. rewrite E. reflexivity. Qed.
Lemma feeds_error b s l : m_state s = MError -> feeds b s l = Some s.
Proof. intros E. induction l as [|x l IH]; [reflexivity|]. cbn [feeds]. rewrite feed_error by exact E. exact IH. Qed.
Lemma feeds_sim b : Good b -> forall pieces s a ts, (forall x, Rel b x s a ts 0) ->
  match a_run b a ts (concat pieces) with
  | ANext a' ts' => exists s', feeds b s pieces = Some s' /\ forall x, Rel b x s' a' ts' 0
  | AErr => exists s', feeds b s pieces = Some s' /\ m_state s' = MError
  | _ => True
  end.
Proof.
  intros HB. induction pieces as [|x l IH]; intros s a ts HR; cbn [concat feeds]; [cbn [a_run]; eauto|]. rewrite a_run_app. pose proof (feed_sim b s a ts x HB HR) as HF.
  destruct (a_run b a ts x) as [a1 ts1| | |]; auto.
  - destruct HF as (s1 & E & HR1). rewrite E. now apply IH.
  - destruct HF as (s1 & E & HR1). rewrite E. exists s1. split; [now apply feeds_error|exact HR1].
Qed.
Lemma init_rel bd buf : BoundaryText bd -> Rel (stored_boundary bd) buf (set_boundary bd) a_init [] 0.
Proof.
  intros (HL & HF). unfold set_boundary. assert (E1 : (length bd =? 0) || (MAX_BOUNDARY_LENGTH <? length bd) = false).
  { apply orb_false_iff. split; [apply Nat.eqb_neq; lia|apply Nat.ltb_ge; unfold MAX_BOUNDARY_LENGTH; lia]. }
  rewrite E1. assert (E2 : existsb (fun c => (c <? 32) || (c =? 127))%N bd = false).
  { clear - HF. induction HF as [|c bd [H1 H2] _ IH]; [reflexivity|]. cbn [existsb]. rewrite IH. apply orb_false_iff. split; [|reflexivity]. apply orb_false_iff. split; lia. }
  rewrite E2. unfold Rel, Sync, marks, holding. cbn [m_state m_part m_last m_index m_field m_value m_data m_look m_evs a_init u_state u_part u_last]. rewrite repeat_length. repeat split.
Qed.
Lemma good_boundary bd : BoundaryText bd -> Good (stored_boundary bd).
Proof. intros (HL & _). split; [unfold stored_boundary; rewrite app_length; cbn [length]; lia|reflexivity]. Qed.
Theorem feeds_run bd pieces : BoundaryText bd ->
  match a_run (stored_boundary bd) a_init [] (concat pieces) with
  | ANext a' ts' => exists s', feeds (stored_boundary bd) (set_boundary bd) pieces = Some s' /\ m_state s' = u_state a' /\ flat (m_evs s') = ts'
  | AErr => exists s', feeds (stored_boundary bd) (set_boundary bd) pieces = Some s' /\ m_state s' = MError
  | _ => True
  end.
Proof.
  intros HB. pose proof (feeds_sim _ (good_boundary bd HB) pieces (set_boundary bd) a_init [] (fun x => init_rel bd x HB)) as H.
  destruct (a_run _ _ _ _); auto. destruct H as (s' & E & HR). exists s'. split; [exact E|]. destruct (HR []) as ((HS & _ & _ & _ & HX) & HT). split; [exact HS|].
  rewrite <- HT. unfold holding, held. destruct (m_field s'), (m_value s'), (m_data s'); unfold sub_; rewrite ?skipn_nil, ?firstn_nil; cbn [map app]; now rewrite ?app_nil_r.
Qed.
