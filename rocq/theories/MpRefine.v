(** The parser does what the octet-at-a-time reader does, however the input is cut. *)
From Verif Require Import Base UtilModel Http1Model UtilSpec CookieSpec H2FieldSpec Http1Spec Http1Proofs RecvSpec MpModel MpSpec MpAuto.
Local Open Scope nat_scope.

Definition Good (b : list N) : Prop := 5 <= length b /\ hd 0%N b = 13%N.
Definition Hold (b p : list N) : Prop := p = firstn (length p) b \/ exists x, p = b ++ [x].
Definition marks (s : mp) (f v d : option nat) : Prop := m_field s = f /\ m_value s = v /\ m_data s = d.
Definition Sync (b : list N) (s : mp) (a : au) (i : nat) : Prop :=
  m_state s = u_state a /\ m_part s = u_part a /\ m_last s = u_last a /\ length (m_look s) = length b + 8 /\
  match u_state a with
  | MStart | MFieldStart | MValueStart | MValueAlmost => marks s None None None
  | MStartBoundary => m_index s = u_n a /\ marks s None None None
  | MField => m_index s = u_n a /\ u_n a <> 0 /\ exists m, m <= i /\ marks s (Some m) None None
  | MValue => exists m, m <= i /\ marks s None (Some m) None
  | MHeadersAlmost | MDataStart => m_index s = 0 /\ u_pend a = [] /\ marks s None None None
  | MData => u_n a = 0 /\ m_index s = length (u_pend a) /\ firstn (length (u_pend a)) (m_look s) = u_pend a /\ Hold b (u_pend a) /\
      match u_pend a with [] => exists m, m <= i /\ marks s None None (Some m) | _ => marks s None None None end
  | MEnd => marks s None None None
  | MError => False
  end.
Definition held (k : N -> tok) (m : option nat) (buf : list N) (i : nat) : list tok :=
  match m with None => [] | Some m => map k (sub_ buf m i) end.
Definition holding (s : mp) (buf : list N) (i : nat) : list tok :=
  held KName (m_field s) buf i ++ held KValue (m_value s) buf i ++ held KData (m_data s) buf i.
Definition Rel (b buf : list N) (s : mp) (a : au) (ts : list tok) (i : nat) : Prop :=
  Sync b s a i /\ flat (m_evs s) ++ holding s buf i = ts.

Lemma flat_snoc es e : flat (es ++ [e]) = flat es ++ flat1 e.
Proof. unfold flat. rewrite flat_map_app. cbn [flat_map]. now rewrite app_nil_r. Qed.
Lemma sub_nil buf i : sub_ buf i i = []. Proof. unfold sub_. now rewrite Nat.sub_diag. Qed.
Lemma sub_snoc buf m i c : m <= i -> nth_error buf i = Some c -> sub_ buf m (S i) = sub_ buf m i ++ [c].
Proof.
  intros H E. unfold sub_. replace (S i - m) with (S (i - m)) by lia. assert (E' : nth_error (skipn m buf) (i - m) = Some c).
  { rewrite <- E. clear E. revert i H. induction m as [|m IH] in buf |- *; intros i H; [cbn; f_equal; lia|]. destruct buf as [|x buf]; cbn [skipn].
    - destruct (i - S m); destruct i; reflexivity.
    - destruct i; [lia|]. cbn [nth_error]. rewrite <- (IH buf i) by lia. reflexivity. }
  revert E'. generalize (skipn m buf) as l, (i - m) as k. intros l k. revert l. induction k as [|k IH]; intros [|x l] E'; try discriminate E'; cbn in *; [now injection E' as ->|].
  f_equal. now apply IH.
Qed.
Lemma skipn_nth (buf : list N) i c : nth_error buf i = Some c -> skipn i buf = c :: skipn (S i) buf.
Proof. revert i. induction buf as [|x buf IH]; intros [|i] E; try discriminate E; cbn in *; [now injection E as ->|auto]. Qed.
Lemma cut_evs s mk mark buf i empty : flat1 (mk []) = [] ->
  flat (m_evs (cut s mk mark buf i empty)) = flat (m_evs s) ++ match mark with None => [] | Some m => flat1 (mk (sub_ buf m i)) end.
Proof.
  intros HE. unfold cut. destruct mark as [m|]; [|now rewrite app_nil_r]. destruct ((m =? i) && negb empty) eqn:E.
  - apply andb_prop in E as [E _]. apply Nat.eqb_eq in E. subst. rewrite sub_nil, HE. now rewrite app_nil_r.
  - unfold m_emit. cbn [m_evs]. now rewrite flat_snoc.
Qed.
Lemma cut_same s mk mark buf i empty : let s' := cut s mk mark buf i empty in
  m_state s' = m_state s /\ m_part s' = m_part s /\ m_last s' = m_last s /\ m_index s' = m_index s /\ m_field s' = m_field s /\ m_value s' = m_value s /\
  m_data s' = m_data s /\ m_look s' = m_look s.
Proof. unfold cut. destruct mark; [|repeat split]. destruct (_ && _); repeat split. Qed.

(** skipping *)
Lemma hold_run b a u : 1 <= length b -> forall p ts, p = firstn (length p) b -> length p + length u < length b ->
  exists p' t, a_run b (d_hold a p) ts u = ANext (d_hold a p') (ts ++ t) /\ t ++ map KData p' = map KData (p ++ u) /\ p' = firstn (length p') b /\ length p' <= length p + length u.
Proof.
  intros HB. induction u as [|c u IH]; intros p ts HP HL; cbn [length] in HL.
  - exists p, []. cbn [a_run]. rewrite !app_nil_r. repeat split; auto. lia.
  - cbn [a_run]. unfold a_step. cbn [d_hold u_state]. unfold a_data. cbn [d_hold u_pend u_part u_last].
    assert (HL1 : (length p <? length b) = true) by (apply Nat.ltb_lt; lia). rewrite HL1. destruct (nth (length p) b 0 =? c)%N eqn:EC.
    + apply N.eqb_eq in EC. destruct (IH (p ++ [c]) (ts ++ [])) as (p' & t & E1 & E2 & E3 & E4).
      { rewrite app_length. cbn [length]. assert (E : firstn (length p + 1) b = firstn (length p) b ++ [c]).
        { rewrite <- EC. clear - HL. revert HL. generalize (length p) as k. intros k HL. assert (HK : k < length b) by lia. clear HL. revert k HK.
          induction b as [|x b IHb]; intros [|k] HK; cbn [length] in HK; try lia; cbn; [reflexivity|]. f_equal. apply IHb. lia. }
        rewrite E, <- HP. reflexivity. }
      { rewrite app_length. cbn [length]. lia. }
      rewrite app_nil_r in E1. unfold d_hold in E1 |- *. cbn [u_part u_last] in E1 |- *. rewrite app_nil_r. exists p', t. rewrite E1. split; [reflexivity|]. split; [rewrite E2, <- app_assoc; reflexivity|]. split; [exact E3|].
      rewrite app_length in E4. cbn [length] in E4. cbn [length]. lia.
    + unfold d_false. cbn [d_hold u_pend]. destruct (c =? hd 0 b)%N eqn:EH.
      * apply N.eqb_eq in EH. destruct (IH [c] (ts ++ map KData p)) as (p' & t & E1 & E2 & E3 & E4).
        { cbn [length]. destruct b as [|x b]; [cbn in HB; lia|]. cbn in *. now subst. }
        { cbn [length]. destruct p as [|y p]; [|cbn [length] in *; lia]. cbn [length nth] in EC. destruct b; [cbn in HB; lia|]. cbn [nth hd] in *. apply N.eqb_neq in EC. congruence. }
        unfold d_hold in E1 |- *. cbn [u_part u_last] in E1 |- *. exists p', (map KData p ++ t). rewrite E1. split; [now rewrite <- app_assoc|]. split; [rewrite <- app_assoc, E2, <- map_app; reflexivity|].
        split; [exact E3|]. cbn [length] in *. lia.
      * destruct (IH [] (ts ++ map KData (p ++ [c]))) as (p' & t & E1 & E2 & E3 & E4); [reflexivity|cbn [length]; lia|].
        unfold d_hold in E1 |- *. cbn [u_part u_last] in E1 |- *. exists p', (map KData (p ++ [c]) ++ t). rewrite E1. split; [now rewrite <- app_assoc|].
        split; [rewrite <- app_assoc, E2, <- map_app, <- app_assoc; reflexivity|]. split; [exact E3|]. cbn [length] in *. lia.
Qed.
Lemma not_in_nth (b : list N) k c : ~ In c b -> k < length b -> (nth k b 0 =? c)%N = false.
Proof. intros H HK. apply N.eqb_neq. intros E. apply H. rewrite <- E. now apply nth_In. Qed.
Lemma window_run b a u c ts : Good b -> length u = length b - 1 -> ~ In c b ->
  a_run b (d_hold a []) ts (u ++ [c]) = ANext (d_hold a []) (ts ++ map KData (u ++ [c])).
Proof.
  intros (HB & HH) HL HC. rewrite a_run_app. destruct (hold_run b a u ltac:(lia) [] ts) as (p & t & E1 & E2 & E3 & E4); [reflexivity|cbn [length]; lia|].
  rewrite E1. cbn [a_run]. unfold a_step. cbn [d_hold u_state]. unfold a_data. cbn [d_hold u_pend u_part u_last]. cbn [length] in E4.
  assert (HP : (length p <? length b) = true) by (apply Nat.ltb_lt; lia). rewrite HP. rewrite not_in_nth by (auto; lia). unfold d_false. cbn [d_hold u_pend].
  assert (EH : (c =? hd 0 b)%N = false). { apply N.eqb_neq. intros ->. apply HC. destruct b; [cbn in HB; lia|now left]. }
  rewrite EH. unfold d_hold. cbn [u_part u_last]. f_equal. rewrite <- app_assoc. f_equal. cbn [app] in E2. rewrite !map_app, app_assoc, E2, <- map_app. reflexivity.
Qed.
Lemma skipn_twice (x y : nat) (l : list N) : skipn x (skipn y l) = skipn (x + y) l.
Proof. revert y. induction l as [|c l IH]; intros [|y]; rewrite ?skipn_nil, ?Nat.add_0_r, ?Nat.add_succ_r; cbn [skipn]; auto. Qed.
Lemma sub_split buf i j k : i <= j -> j <= k -> sub_ buf i k = sub_ buf i j ++ sub_ buf j k.
Proof.
  intros H1 H2. unfold sub_. replace (k - i) with ((j - i) + (k - j)) by lia. rewrite <- (firstn_skipn (j - i) (firstn (j - i + (k - j)) (skipn i buf))).
  rewrite firstn_firstn. replace (Nat.min (j - i) (j - i + (k - j))) with (j - i) by lia. f_equal. rewrite skipn_firstn_comm. replace (j - i + (k - j) - (j - i)) with (k - j) by lia. f_equal.
  rewrite skipn_twice. f_equal. lia.
Qed.
Lemma sub_skipn (buf : list N) i j : i <= j -> skipn i buf = sub_ buf i j ++ skipn j buf.
Proof. intros H. unfold sub_. rewrite <- (firstn_skipn (j - i) (skipn i buf)) at 1. f_equal. rewrite skipn_twice. f_equal. lia. Qed.
Lemma skip_run b buf a : Good b -> forall fuel i i1 ts, skip_ fuel b buf i = Some i1 -> i <= i1 /\
  (i <= length buf -> i1 <= length buf) /\ a_run b (d_hold a []) ts (skipn i buf) = a_run b (d_hold a []) (ts ++ map KData (sub_ buf i i1)) (skipn i1 buf).
Proof.
  intros HB. induction fuel as [|fuel IH]; intros i i1 ts E; [discriminate E|]. cbn [skip_] in E.
  destruct (i + length b <=? length buf) eqn:E1; [|injection E as <-; rewrite sub_nil; cbn [map]; now rewrite app_nil_r].
  apply Nat.leb_le in E1. destruct (nth_error buf (i + (length b - 1))) as [c|] eqn:EC; [|discriminate E].
  destruct (existsb (N.eqb c) b) eqn:EX; [injection E as <-; rewrite sub_nil; cbn [map]; now rewrite app_nil_r|].
  destruct (IH _ _ (ts ++ map KData (sub_ buf i (i + length b))) E) as (H1 & H2 & H3). destruct HB as [HB HH]. split; [lia|]. split; [intros _; apply H2; lia|].
  rewrite (sub_skipn buf i (i + length b)) by lia. rewrite a_run_app. replace (i + length b) with (S (i + (length b - 1))) by lia.
  rewrite (sub_snoc buf i (i + (length b - 1)) c) by (auto; lia). rewrite window_run.
  - replace (S (i + (length b - 1))) with (i + length b) by lia. rewrite (sub_split buf i (i + length b) i1) by lia. rewrite (map_app KData (sub_ buf i (i + length b))), app_assoc. rewrite <- H3.
    do 3 f_equal. replace (i + length b) with (S (i + (length b - 1))) by lia. symmetry. apply sub_snoc; [lia|exact EC].
  - now split.
  - unfold sub_. rewrite firstn_length, skipn_length. lia.
  - intros HI. assert (existsb (N.eqb c) b = true); [|congruence]. apply existsb_exists. exists c. split; [exact HI|apply N.eqb_refl].
Qed.
Lemma skip_total b buf : 1 <= length b -> forall fuel i, length buf < fuel + i -> i <= length buf -> exists i1, skip_ fuel b buf i = Some i1.
Proof.
  intros HB. induction fuel as [|fuel IH]; intros i HF HI; [lia|]. cbn [skip_]. destruct (i + length b <=? length buf) eqn:E1; [|eauto]. apply Nat.leb_le in E1.
  destruct (nth_error buf (i + (length b - 1))) as [c|] eqn:EC; [|apply nth_error_None in EC; lia]. destruct (existsb (N.eqb c) b); [eauto|]. apply IH; lia.
Qed.

(** one turn *)
Definition need (buf : list N) (s : mp) (i : nat) : nat := 2 * (length buf - i) - (if m_index s =? 0 then 1 else 0).
Lemma need_next buf s s' i j : i < length buf -> i < j -> need buf s' j < need buf s i.
Proof. intros H HJ. unfold need. destruct (m_index s' =? 0), (m_index s =? 0); lia. Qed.
Ltac msg := cbn [m_set m_flags m_setf m_setv m_setd m_setl m_emit m_state m_part m_last m_index m_field m_value m_data m_look m_evs] in *.
Ltac nomarks H := let A := fresh "MF" in let B := fresh "MV" in let C := fresh "MD" in destruct H as (A & B & C).
Lemma held_snoc k m buf i c : m <= i -> nth_error buf i = Some c -> held k (Some m) buf (S i) = held k (Some m) buf i ++ [k c].
Proof. intros H E. cbn [held]. rewrite (sub_snoc buf m i c) by auto. now rewrite map_app. Qed.
Lemma holding_none s buf i : marks s None None None -> holding s buf i = [].
Proof. intros (A & B & C). unfold holding. now rewrite A, B, C. Qed.

Definition simple (st : pst) : bool := match st with MDataStart | MData | MEnd | MError => false | _ => true end.
Lemma first_sim b buf s a ts i c a1 t : length b >= 2 -> m_part s = u_part a -> m_last s = u_last a -> length (m_look s) = length b + 8 -> marks s None None None ->
  flat (m_evs s) = ts -> a_first b a (m_index s) c = ANext a1 t ->
  exists s1, first_boundary b s i c = Go s1 (S i) /\ Rel b buf s1 a1 (ts ++ t) (S i).
Proof.
  intros HB HP HL HK HM HT E. unfold a_first in E. unfold first_boundary. destruct HM as (MF & MV & MD).
  destruct (m_index s =? length b - 2).
  { destruct (c =? 13)%N; [|discriminate E]. injection E as <- <-. eexists. split; [reflexivity|]. unfold Rel, Sync. msg. cbn [u_state u_part u_last u_n u_pend].
    split; [repeat split; auto|]. unfold holding. msg. rewrite MF, MV, MD. cbn [held app]. now rewrite !app_nil_r. }
  destruct (m_index s - 1 =? length b - 2).
  { destruct (c =? 10)%N; [|discriminate E]. injection E as <- <-. eexists. split; [reflexivity|]. unfold Rel, Sync. msg. cbn [u_state u_part u_last u_n u_pend].
    split; [repeat split; auto|]. unfold holding. msg. rewrite MF, MV, MD, flat_snoc. cbn [held app flat1]. now rewrite !app_nil_r, HT. }
  destruct (nth_error b (m_index s + 2)) as [x|]; [|discriminate E]. destruct (c =? x)%N; [|discriminate E]. injection E as <- <-. eexists. split; [reflexivity|].
  unfold Rel, Sync. msg. cbn [u_state u_part u_last u_n u_pend]. split; [repeat split; auto|]. unfold holding. msg. rewrite MF, MV, MD. cbn [held app]. now rewrite !app_nil_r.
Qed.
Lemma field_sim b buf s a ts i c a1 t m : m_part s = u_part a -> m_last s = u_last a -> length (m_look s) = length b + 8 -> m <= i -> nth_error buf i = Some c ->
  (m_index s = 0 -> m = i) -> marks s (Some m) None None -> flat (m_evs s) ++ holding s buf i = ts -> a_field a (m_index s) c = ANext a1 t ->
  exists s1, header_field buf s i c = Go s1 (S i) /\ Rel b buf s1 a1 (ts ++ t) (S i).
Proof.
  intros HP HL HK Hm HC HZ HM HT E. unfold a_field in E. unfold header_field. destruct HM as (MF & MV & MD). unfold holding in HT. rewrite MF, MV, MD in HT. cbn [held app] in HT. rewrite app_nil_r in HT.
  destruct (c =? 13)%N.
  { destruct (m_index s =? 0) eqn:EZ; [|discriminate E]. apply Nat.eqb_eq in EZ. injection E as <- <-. eexists. split; [reflexivity|]. unfold Rel, Sync, marks. msg. cbn [u_state u_part u_last u_n u_pend].
    split; [repeat split; auto|]. unfold holding. msg. rewrite MV, MD. cbn [held app]. rewrite (HZ EZ), sub_nil in HT. cbn [map] in HT. rewrite !app_nil_r in *. exact HT. }
  msg. destruct (c =? 58)%N.
  { cbn [Nat.eqb]. destruct (m_index s =? 0) eqn:EZ; [discriminate E|]. injection E as <- <-. assert (ER : range_ok (m_field s) i = true) by (rewrite MF; now apply Nat.leb_le). rewrite ER. eexists. split; [reflexivity|].
    match goal with |- context [cut ?x EField _ _ _ _] => set (s0 := x) end.
    destruct (cut_same s0 EField (m_field s) buf i false) as (C1 & C2 & C3 & C4 & C5 & C6 & C7 & C8). unfold Rel, Sync, marks, holding. msg. cbn [u_state u_part u_last u_n u_pend]. rewrite C2, C3, C6, C7, C8, cut_evs by reflexivity. unfold s0. msg.
    split; [repeat split; auto|]. rewrite MF, MV, MD. cbn [held app flat1]. now rewrite !app_nil_r. }
  destruct (field_char c); [|discriminate E]. injection E as <- <-. eexists. split; [reflexivity|]. unfold Rel, Sync, marks. msg. cbn [u_state u_part u_last u_n u_pend].
  split; [repeat split; auto; exists m; split; [lia|repeat split; auto]|]. unfold holding. msg. rewrite MF, MV, MD. rewrite (held_snoc _ m buf i c) by auto. cbn [held app].
  rewrite app_nil_r. now rewrite app_assoc, HT.
Qed.
Lemma value_sim b buf s a ts i c a1 t m : m_state s = MValue -> m_part s = u_part a -> m_last s = u_last a -> length (m_look s) = length b + 8 -> m <= i -> nth_error buf i = Some c ->
  marks s None (Some m) None -> flat (m_evs s) ++ holding s buf i = ts -> a_value a c = ANext a1 t ->
  exists s1, header_value buf s i c = Go s1 (S i) /\ Rel b buf s1 a1 (ts ++ t) (S i).
Proof.
  intros HS HP HL HK Hm HC HM HT E. unfold a_value in E. unfold header_value. destruct HM as (MF & MV & MD). unfold holding in HT. rewrite MF, MV, MD in HT. cbn [held app] in HT. rewrite app_nil_r in HT.
  destruct (c =? 13)%N; injection E as <- <-.
  - assert (ER : range_ok (m_value s) i = true) by (rewrite MV; now apply Nat.leb_le). rewrite ER. eexists. split; [reflexivity|]. destruct (cut_same s EValue (m_value s) buf i true) as (C1 & C2 & C3 & C4 & C5 & C6 & C7 & C8). unfold Rel, Sync, marks, holding. msg. cbn [u_state u_part u_last u_n u_pend]. rewrite C2, C3, C5, C7, C8, flat_snoc, cut_evs by reflexivity.
    split; [repeat split; auto|]. rewrite MF, MV, MD. cbn [held app flat1]. now rewrite !app_nil_r, HT.
  - eexists. split; [reflexivity|]. unfold Rel, Sync. cbn [u_state u_part u_last u_n u_pend]. split; [repeat split; auto; exists m; split; [lia|repeat split; auto]|].
    unfold holding. rewrite MF, MV, MD. rewrite (held_snoc _ m buf i c) by auto. cbn [held app]. rewrite app_nil_r. now rewrite app_assoc, HT.
Qed.
Lemma simple_sim b buf s a ts i c a1 t : Good b -> Rel b buf s a ts i -> nth_error buf i = Some c -> simple (m_state s) = true -> a_step b a c = ANext a1 t ->
  exists s1, turn_ b buf s i = Go s1 (S i) /\ Rel b buf s1 a1 (ts ++ t) (S i).
Proof.
  intros (HB & HH) ((HS & HP & HL & HK & HX) & HT) HC Hs E. unfold turn_. rewrite HC. unfold a_step in E. rewrite HS in *. destruct (u_state a) eqn:EU; try discriminate Hs.
  - rewrite (holding_none s) in HT by auto. rewrite app_nil_r in HT. eapply first_sim; msg; eauto; lia.
  - destruct HX as (HI & HM). rewrite (holding_none s) in HT by auto. rewrite app_nil_r in HT. rewrite <- HI in E. eapply first_sim; msg; eauto; lia.
  - destruct HX as (MF & MV & MD). rewrite (holding_none s) in HT by (repeat split; auto). rewrite app_nil_r in HT. eapply (field_sim b buf _ a ts i c a1 t i); msg; eauto; [repeat split; auto|].
    unfold holding. msg. rewrite MV, MD. cbn [held app]. rewrite sub_nil. cbn [map app]. now rewrite app_nil_r.
  - destruct HX as (HI & HN & m & Hm & HM). rewrite <- HI in E.
    eapply (field_sim b buf s a ts i c a1 t m); eauto. intros HZ. congruence.
  - destruct (c =? 32)%N.
    + injection E as <- <-. eexists. split; [reflexivity|]. unfold Rel, Sync. rewrite EU. rewrite (holding_none s) in * by auto. rewrite !app_nil_r in *. repeat split; auto; apply HX.
    + destruct HX as (MF & MV & MD). rewrite (holding_none s) in HT by (repeat split; auto). rewrite app_nil_r in HT. eapply (value_sim b buf _ a ts i c a1 t i); msg; eauto; [repeat split; auto|].
      unfold holding. msg. rewrite MF, MD. cbn [held app]. rewrite sub_nil. cbn [map app]. now rewrite app_nil_r.
  - destruct HX as (m & Hm & HM). eapply (value_sim b buf s a ts i c a1 t m); eauto.
  - destruct (c =? 10)%N; [|discriminate E]. injection E as <- <-. eexists. split; [reflexivity|]. rewrite (holding_none s) in HT by auto. unfold Rel, Sync. msg. cbn [u_state u_part u_last u_n u_pend].
    split; [repeat split; auto; apply HX|]. rewrite holding_none by exact HX. rewrite !app_nil_r in *. exact HT.
  - destruct HX as (HI & HQ & HM). destruct (c =? 10)%N; [|discriminate E]. injection E as <- <-. eexists. split; [reflexivity|]. rewrite (holding_none s) in HT by auto. unfold Rel, Sync. msg. cbn [u_state u_part u_last u_n u_pend].
    split; [repeat split; auto; apply HM|]. rewrite holding_none by exact HM. rewrite flat_snoc. cbn [flat1]. rewrite app_nil_r in *. now rewrite HT.
Qed.
