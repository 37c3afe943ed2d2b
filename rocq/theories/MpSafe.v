(** The parser stays inside its buffers and stops, whatever it is fed. *)
From Verif Require Import Base UtilModel Http1Model UtilSpec CookieSpec H2FieldSpec Http1Spec Http1Proofs RecvSpec MpModel MpSpec MpAuto MpRefine MpRefine2.
Local Open Scope nat_scope.

Definition Inv (b : list N) (s : mp) (i : nat) : Prop :=
  length (m_look s) = length b + 8 /\ range_ok (m_field s) i = true /\ range_ok (m_value s) i = true /\ range_ok (m_data s) i = true /\
  (m_state s = MStartBoundary -> m_index s <= length b - 1) /\ (m_state s = MEnd -> In EEnd (m_evs s)).
Definition Grows (s s' : mp) : Prop := exists e, m_evs s' = m_evs s ++ e.
Lemma grows_refl s : Grows s s. Proof. exists []. now rewrite app_nil_r. Qed.
Lemma grows_trans s t u : Grows s t -> Grows t u -> Grows s u.
Proof. intros (x & E) (y & F). exists (x ++ y). now rewrite F, E, app_assoc. Qed.
Lemma grows_emit s t e : Grows s t -> Grows s (m_emit t e).
Proof. intros (x & E). exists (x ++ [e]). msg. now rewrite E, app_assoc. Qed.
Lemma grows_same s t u : m_evs u = m_evs t -> Grows s t -> Grows s u. Proof. intros E (x & F). exists x. congruence. Qed.
Lemma grows_cut s t mk mark buf i e : Grows s t -> Grows s (cut t mk mark buf i e).
Proof. intros H. unfold cut. destruct mark as [m|]; auto. destruct ((m =? i) && negb e); auto. now apply grows_emit. Qed.
Lemma grows_end s t e : Grows s t -> In e (m_evs s) -> In e (m_evs t). Proof. intros (x & ->) H. apply in_or_app. now left. Qed.

Definition Fine (b buf : list N) (s : mp) (i : nat) (o : turn) : Prop :=
  match o with
  | Go s' i' => Inv b s' i' /\ Grows s s' /\ i' <= length buf /\ need buf s' i' < need buf s i
  | Leave s' => Grows s s' /\ (m_state s' = MEnd -> In EEnd (m_evs s')) /\ (m_state s' = MEnd \/ m_state s' = MError)
  | Throws s' => m_state s' = MError
  | Oob => False
  end.
Lemma range_mono o i j : range_ok o i = true -> i <= j -> range_ok o j = true.
Proof. destruct o as [m|]; cbn [range_ok]; auto. rewrite !Nat.leb_le. lia. Qed.
Lemma need_stay buf s s' i : i < length buf -> m_index s <> 0 -> m_index s' = 0 -> need buf s' i < need buf s i.
Proof. intros H H1 H2. unfold need. rewrite H2. apply Nat.eqb_neq in H1. rewrite H1. cbn [Nat.eqb]. lia. Qed.
Lemma tail_fine b buf s t i0 i c : i0 <= i -> i < length buf -> Inv b t i -> Grows s t -> m_state t <> MStartBoundary -> (m_state t = MData \/ 0 < m_index t) ->
  m_index s <= length b + 3 \/ 0 < m_index t -> (0 < m_index s -> i0 = i) -> Fine b buf s i0 (part_tail t (m_index s) i c).
Proof.
  intros H0 HI (I1 & I2 & I3 & I4 & I5 & I6) HG HS HD HX HE. unfold part_tail. destruct (0 <? m_index t) eqn:E1.
  - apply Nat.ltb_lt in E1. destruct (length (m_look t) <=? m_index t - 1) eqn:E2; [reflexivity|]. apply Nat.leb_gt in E2. cbn [Fine]. unfold Inv. msg. rewrite write_len by lia.
    split; [repeat split; auto; try (eapply range_mono; [eassumption|lia]); intros; congruence|]. split; [now apply (grows_same s t)|]. split; [lia|]. apply need_next; lia.
  - apply Nat.ltb_ge in E1. destruct (0 <? m_index s) eqn:E2.
    + apply Nat.ltb_lt in E2. assert (E3 : (length (m_look t) <? m_index s) = false) by (apply Nat.ltb_ge; lia). rewrite E3. cbn [Fine]. unfold Inv. msg. specialize (HE E2). subst i0.
      split; [repeat split; auto; try congruence; [cbn [range_ok]; apply Nat.leb_refl|intros HEnd; destruct HD; [congruence|lia]]|]. split; [apply (grows_same s (m_emit t (EData (sub_ (m_look t) 0 (m_index s))))); [reflexivity|now apply grows_emit]|]. split; [lia|]. apply need_stay; msg; lia.
    + cbn [Fine]. unfold Inv. split; [repeat split; auto; eapply range_mono; try eassumption; lia|]. split; [exact HG|]. split; [lia|]. apply need_next; lia.
Qed.
Ltac inv_ := unfold Inv; msg; repeat split; auto; try congruence; try (eapply range_mono; [eassumption|lia]).
Ltac gr := first [assumption | apply grows_refl | exists []; msg; rewrite app_nil_r; reflexivity | eexists; msg; rewrite <- ?app_assoc; reflexivity
  | match goal with H : Grows ?s ?t |- Grows ?s _ => let x := fresh in let E := fresh in destruct H as (x & E); exists x; msg; exact E end
  | match goal with H : Grows ?s ?t |- Grows ?s _ => let x := fresh in let E := fresh in destruct H as (x & E); eexists; msg; rewrite E, <- ?app_assoc; reflexivity end].
Lemma data_fine b buf s i : Good b -> Inv b s i -> m_state s = MData -> i < length buf -> Fine b buf s i (part_data b buf s i).
Proof.
  intros (HB & _) HI HS HL. pose proof HI as (I1 & I2 & I3 & I4 & I5 & I6). unfold part_data. destruct (if m_index s =? 0 then skip_ (S (length buf)) b buf i else Some i) as [i1|] eqn:ES.
  2:{ destruct (m_index s =? 0); [|discriminate ES]. destruct (skip_total b buf ltac:(lia) (S (length buf)) i ltac:(lia) ltac:(lia)) as (i2 & E). congruence. }
  assert (H1 : i <= i1 <= length buf /\ (0 < m_index s -> i = i1)). { destruct (m_index s =? 0) eqn:EZ; [apply skip_le in ES; [|lia]; apply Nat.eqb_eq in EZ; lia|injection ES as <-; lia]. }
  destruct H1 as (H1 & H1'). destruct ((m_index s =? 0) && (i1 =? length buf)) eqn:EE.
  { apply andb_true_iff in EE as [EZ EE]. apply Nat.eqb_eq in EE. cbn [Fine]. split; [inv_|]. split; [apply grows_refl|]. split; [lia|]. apply need_next; lia. }
  assert (H2 : i1 < length buf). { apply andb_false_iff in EE. destruct EE as [EE|EE]; apply Nat.eqb_neq in EE; [specialize (H1' ltac:(lia)); lia|lia]. }
  destruct (nth_error buf i1) as [c|] eqn:EC; [|apply nth_error_None in EC; lia]. cbn zeta.
  assert (HT : forall t, Inv b t i1 -> Grows s t -> m_state t <> MStartBoundary -> (m_state t = MData \/ 0 < m_index t) -> m_index s <= length b + 3 \/ 0 < m_index t -> Fine b buf s i (part_tail t (m_index s) i1 c)) by (intros; apply tail_fine; auto; lia).
  destruct (m_index s <? length b) eqn:E1.
  { apply Nat.ltb_lt in E1. destruct (nth_error b (m_index s)) as [x|] eqn:EX; [|apply nth_error_None in EX; lia]. destruct (x =? c)%N.
    - assert (ER : range_ok (m_data s) i1 = true) by (eapply range_mono; [exact I4|lia]). rewrite ER, andb_false_r. destruct (m_index s =? 0) eqn:EZ.
      + destruct (cut_same s EData (m_data s) buf i1 false) as (C1 & C2 & C3 & C4 & C5 & C6 & C7 & C8). apply HT; [|apply (grows_same s (cut s EData (m_data s) buf i1 false)); [reflexivity|apply grows_cut, grows_refl]|msg; congruence|msg; lia|msg; lia].
        unfold Inv. msg. rewrite C1, C5, C6, C8. repeat split; auto; try congruence; try (eapply range_mono; [eassumption|lia]).
      + apply HT; [inv_|gr|msg; congruence|msg; lia|msg; lia].
    - apply HT; [inv_|gr|msg; congruence|msg; auto|lia]. }
  apply Nat.ltb_ge in E1. destruct (m_index s =? length b) eqn:E2.
  { apply Nat.eqb_eq in E2. destruct (c =? 13)%N; [|destruct (c =? 45)%N]; (apply HT; [inv_|gr|msg; congruence|msg; auto|msg; lia]). }
  apply Nat.eqb_neq in E2. destruct (m_index s - 1 =? length b) eqn:E3.
  { apply Nat.eqb_eq in E3. destruct (m_part s).
    - destruct (c =? 10)%N; [|apply HT; [inv_|gr|msg; congruence|msg; auto|msg; lia]]. cbn [Fine]. split; [inv_|]. split; [gr|]. split; [lia|apply need_next; lia].
    - destruct (m_last s); [|apply HT; [inv_|gr|msg; congruence|msg; auto|msg; lia]]. destruct (c =? 45)%N; [|apply HT; [inv_|gr|msg; congruence|msg; auto|msg; lia]].
      apply HT; [inv_|gr|msg; congruence|msg; right; lia|msg; lia]. intros _. apply in_or_app. right. now left. }
  apply Nat.eqb_neq in E3. destruct (m_index s - 2 =? length b) eqn:E4.
  { apply Nat.eqb_eq in E4. destruct (c =? 13)%N; (apply HT; [inv_|gr|msg; congruence|msg; auto|msg; lia]). }
  apply Nat.eqb_neq in E4. destruct (m_index s - length b =? 3) eqn:E5.
  { apply Nat.eqb_eq in E5. destruct (c =? 10)%N; [|apply HT; [inv_|gr|msg; congruence|msg; auto|msg; lia]]. cbn [Fine]. split; [inv_|]. 1: intros _; apply in_or_app; right; now left. split; [gr|]. split; [lia|apply need_next; lia]. }
  apply HT; [inv_|apply grows_refl|congruence|auto|right; lia].
Qed.
Lemma turn_fine b buf s i : Good b -> Inv b s i -> i < length buf -> Fine b buf s i (turn_ b buf s i).
Proof.
  intros HB HI HL. pose proof HI as (I1 & I2 & I3 & I4 & I5 & I6). unfold turn_. destruct (nth_error buf i) as [c|] eqn:EC; [|apply nth_error_None in EC; lia].
  assert (HG : forall t, Inv b t (S i) -> Grows s t -> Fine b buf s i (Go t (S i))) by (intros t H1 H2; cbn [Fine]; split; [exact H1|split; [exact H2|split; [lia|apply need_next; lia]]]).
  assert (HE : forall t, Grows s t -> m_state t = MError -> Fine b buf s i (Leave t)) by (intros t H1 H2; cbn [Fine]; split; [exact H1|split; [congruence|now right]]).
  assert (HF : forall t, Inv b t i -> Grows s t -> m_index t <= length b - 1 -> Fine b buf s i (first_boundary b t i c)).
  { intros t (J1 & J2 & J3 & J4 & J5 & J6) H2 H3. unfold first_boundary. destruct HB as (HB & _). destruct (m_index t =? length b - 2) eqn:E1.
    { apply Nat.eqb_eq in E1. destruct (c =? 13)%N; [apply HG; [inv_; intros; lia|gr]|apply HE; [gr|reflexivity]]. }
    apply Nat.eqb_neq in E1. destruct (m_index t - 1 =? length b - 2) eqn:E2.
    { apply Nat.eqb_eq in E2. destruct (c =? 10)%N; [apply HG; [inv_; intros; lia|gr]|apply HE; [gr|reflexivity]]. }
    apply Nat.eqb_neq in E2. destruct (nth_error b (m_index t + 2)) as [x|] eqn:EX; [|apply nth_error_None in EX; lia]. destruct (c =? x)%N; [apply HG; [inv_; intros; lia|gr]|apply HE; [gr|reflexivity]]. }
  assert (HN : forall t, Inv b t i -> Grows s t -> Fine b buf s i (header_field buf t i c)).
  { intros t (J1 & J2 & J3 & J4 & J5 & J6) H2. unfold header_field. destruct (c =? 13)%N; [apply HG; [inv_|gr]|]. cbn zeta. msg. destruct (c =? 58)%N.
    { destruct (S (m_index t) =? 1); [apply HE; [gr|reflexivity]|]. rewrite J2. cbn [negb]. match goal with |- context [cut ?x EField _ _ _ _] => set (t0 := x) end.
      destruct (cut_same t0 EField (m_field t) buf i false) as (C1 & C2 & C3 & C4 & C5 & C6 & C7 & C8). apply HG; [unfold Inv; msg; rewrite C6, C7, C8; unfold t0; msg; repeat split; auto; try congruence; try (eapply range_mono; [eassumption|lia])|].
      eapply grows_same; [|apply (grows_cut s t0); unfold t0; gr]. reflexivity. }
    destruct (field_char c); [apply HG; [inv_|gr]|apply HE; [gr|reflexivity]]. }
  assert (HV : forall t, m_state t = MValue -> Inv b t i -> Grows s t -> Fine b buf s i (header_value buf t i c)).
  { intros t HSt (J1 & J2 & J3 & J4 & J5 & J6) H2. unfold header_value. destruct (c =? 13)%N; [|apply HG; [inv_|auto]]. rewrite J3. cbn [negb].
    destruct (cut_same t EValue (m_value t) buf i true) as (C1 & C2 & C3 & C4 & C5 & C6 & C7 & C8). apply HG; [unfold Inv; msg; rewrite C5, C7, C8; repeat split; auto; try congruence; try (eapply range_mono; [eassumption|lia])|].
    eapply grows_same; [|apply grows_emit; apply (grows_cut s t); exact H2]. reflexivity. }
  destruct (m_state s) eqn:ES.
  - apply HF; [inv_; intros; lia|gr|msg; lia].
  - apply HF; [exact HI|apply grows_refl|auto].
  - apply HN; [unfold Inv; msg; repeat split; auto; try congruence; apply Nat.leb_refl|gr].
  - apply HN; [exact HI|apply grows_refl].
  - destruct (c =? 32)%N; [apply HG; [inv_|apply grows_refl]|]. apply HV; [reflexivity|unfold Inv; msg; repeat split; auto; try congruence; apply Nat.leb_refl|gr].
  - apply HV; [exact ES|exact HI|apply grows_refl].
  - destruct (c =? 10)%N; [apply HG; [inv_|gr]|apply HE; [gr|reflexivity]].
  - destruct (c =? 10)%N; [apply HG; [inv_|gr]|apply HE; [gr|reflexivity]].
  - match goal with |- Fine _ _ _ _ (part_data b buf ?t i) => assert (H : Fine b buf t i (part_data b buf t i)) end.
    { apply data_fine; auto. unfold Inv; msg; repeat split; auto; try congruence; apply Nat.leb_refl. }
    exact H.
  - now apply data_fine.
  - cbn [Fine]. split; [apply grows_refl|]. split; auto.
  - cbn [Fine]. split; [apply grows_refl|]. split; [congruence|auto].
Qed.
Lemma at_end_grows s buf : Grows s (at_end s buf).
Proof.
  unfold at_end. cbn zeta. set (a := cut s EField _ _ _ _). assert (HA : Grows s a) by (apply grows_cut, grows_refl). set (a1 := m_setf a _). assert (HA1 : Grows s a1) by (apply (grows_same s a); auto).
  set (d := cut a1 EValue _ _ _ _). assert (HD : Grows s d) by (now apply grows_cut). set (d1 := m_setv d _). assert (HD1 : Grows s d1) by (apply (grows_same s d); auto).
  eapply grows_same; [|apply (grows_cut s d1); exact HD1]. reflexivity.
Qed.
Lemma at_end_inv b s i buf : Inv b s i -> Inv b (at_end s buf) 0.
Proof.
  intros (I1 & I2 & I3 & I4 & I5 & I6). pose proof (at_end_grows s buf) as HG. unfold Inv. assert (HX : m_look (at_end s buf) = m_look s /\ m_state (at_end s buf) = m_state s /\ m_index (at_end s buf) = m_index s /\
    range_ok (m_field (at_end s buf)) 0 = true /\ range_ok (m_value (at_end s buf)) 0 = true /\ range_ok (m_data (at_end s buf)) 0 = true).
  { unfold at_end. cbn zeta. match goal with |- context [cut s EField ?a ?b1 ?c ?d] => destruct (cut_same s EField a b1 c d) as (C1 & C2 & C3 & C4 & C5 & C6 & C7 & C8) end. msg. set (a := cut s EField _ _ _ _) in *.
    match goal with |- context [cut (m_setf a ?z) EValue ?p ?q ?r ?t] => destruct (cut_same (m_setf a z) EValue p q r t) as (D1 & D2 & D3 & D4 & D5 & D6 & D7 & D8) end. msg. set (d := cut _ EValue _ _ _ _) in *.
    match goal with |- context [cut (m_setv d ?z) EData ?p ?q ?r ?t] => destruct (cut_same (m_setv d z) EData p q r t) as (F1 & F2 & F3 & F4 & F5 & F6 & F7 & F8) end. msg. set (f := cut _ EData _ _ _ _) in *.
    rewrite F1, F4, F5, F6, F8, D1, D4, D5, D8, C1, C4, C8. repeat split; [destruct (m_field s)|destruct (m_value a)|destruct (m_data d)]; reflexivity. }
  destruct HX as (-> & E1 & -> & R1 & R2 & R3). rewrite E1. repeat split; auto. intros E. eapply grows_end; [exact HG|auto].
Qed.
Lemma loop_fine b buf s0 : Good b -> length (m_look s0) = length b + 8 -> forall fuel s i, Inv b s i -> Grows s0 s -> i <= length buf -> need buf s i < fuel ->
  (exists s', feed_loop fuel b buf s0 s i = FThrow s' /\ m_state s' = MError) \/
  exists s', feed_loop fuel b buf s0 s i = Fed s' /\ Grows s0 s' /\ (m_state s' = MError \/ In EEnd (m_evs s') \/ Inv b s' 0).
Proof.
  intros HB HK. induction fuel as [|fuel IH]; intros s i HI HG HL HN; [lia|]. cbn [feed_loop]. destruct (i <? length buf) eqn:E.
  - apply Nat.ltb_lt in E. pose proof (turn_fine b buf s i HB HI E) as HF. destruct (turn_ b buf s i) as [s' i'|s'|s'|]; cbn [Fine] in HF; [| | |contradiction].
    + destruct HF as (F1 & F2 & F3 & F4). apply IH; auto; [eapply grows_trans; eassumption|lia].
    + right. destruct HF as (F1 & F2 & F3). exists (unsaved s0 s'). split; [reflexivity|]. split; [eapply grows_trans; [exact HG|]; apply (grows_same s s'); auto|]. destruct F3 as [F3|F3]; [right; left; auto|left]. unfold unsaved. cbn [m_state]. now rewrite F3.
    + left. exists (unsaved s0 s'). split; [reflexivity|]. unfold unsaved. cbn [m_state]. now rewrite HF.
  - apply Nat.ltb_ge in E. assert (i = length buf) by lia. subst i. pose proof HI as (I1 & I2 & I3 & I4 & I5 & I6). rewrite I2, I3, I4. cbn [andb]. right. exists (at_end s buf). split; [reflexivity|].
    split; [eapply grows_trans; [exact HG|apply at_end_grows]|]. right. right. eapply at_end_inv. exact HI.
Qed.
Lemma pst_eq_error (st : pst) : {st = MError} + {st <> MError}.
Proof. destruct st; (now left) || (right; discriminate). Qed.
Lemma feed_fine b s buf : Good b -> m_state s = MError \/ Inv b s 0 ->
  (exists s', feed b s buf = FThrow s' /\ m_state s' = MError) \/
  exists s', feed b s buf = Fed s' /\ Grows s s' /\ (m_state s' = MError \/ In EEnd (m_evs s') \/ Inv b s' 0).
Proof.
  intros HB H. destruct H as [H|H]. { right. exists s. split; [now apply feed_error|]. split; [apply grows_refl|auto]. }
  destruct buf as [|c buf]. { right. exists s. split; [unfold feed; destruct (m_state s); reflexivity|]. split; [apply grows_refl|auto]. }
  destruct (pst_eq_error (m_state s)) as [E|E]. { right. exists s. split; [now apply feed_error|]. split; [apply grows_refl|auto]. }
  assert (HE : feed b s (c :: buf) = feed_loop (S (2 * length (c :: buf))) b (c :: buf) s s 0) by (unfold feed; destruct (m_state s); auto; congruence).
  rewrite HE. apply loop_fine; auto; [apply H|apply grows_refl|lia|apply need_start].
Qed.
(** a caller that stops once the end callback has been made *)
Inductive Feeding (bd : list N) : mp -> Prop :=
| feeding_start : Feeding bd (set_boundary bd)
| feeding_more s x s' : Feeding bd s -> ~ In EEnd (m_evs s) -> feed (stored_boundary bd) s x = Fed s' -> Feeding bd s'.
Lemma boundary_ok bd : BoundaryText bd -> Inv (stored_boundary bd) (set_boundary bd) 0.
Proof.
  intros HB. destruct (init_rel bd [] HB) as ((H1 & _ & _ & H4 & H5) & _). cbn [a_init u_state] in H1, H5. destruct H5 as (M1 & M2 & M3). unfold Inv. rewrite H1, M1, M2, M3. repeat split; auto; congruence.
Qed.
Lemma set_boundary_cases bd : m_state (set_boundary bd) = MError \/ (BoundaryText bd /\ Inv (stored_boundary bd) (set_boundary bd) 0).
Proof. destruct (pst_eq_error (m_state (set_boundary bd))) as [E|E]; [now left|right]. assert (HB : BoundaryText bd).
  { unfold set_boundary in E. destruct ((length bd =? 0) || (MAX_BOUNDARY_LENGTH <? length bd)) eqn:E1; [contradiction E; reflexivity|]. destruct (existsb _ bd) eqn:E2; [contradiction E; reflexivity|]. apply orb_false_iff in E1 as [E1 E3].
  apply Nat.eqb_neq in E1. apply Nat.ltb_ge in E3. unfold MAX_BOUNDARY_LENGTH in E3. split; [lia|]. apply Forall_forall. intros c HC. assert (HX : ((c <? 32) || (c =? 127))%N = false).
  { destruct ((c <? 32) || (c =? 127))%N eqn:EX; [|reflexivity]. rewrite <- E2. symmetry. apply existsb_exists. exists c. auto. }
  apply orb_false_iff in HX as [HX1 HX2]. lia. }
  split; [exact HB|now apply boundary_ok]. Qed.
Lemma feeding_inv bd s : Feeding bd s -> m_state s = MError \/ In EEnd (m_evs s) \/ (BoundaryText bd /\ Inv (stored_boundary bd) s 0).
Proof.
  induction 1 as [|s x s' HF IH HN E]; [destruct (set_boundary_cases bd); auto|]. destruct IH as [IH|[IH|(HB & IH)]]; [|contradiction|].
  - rewrite feed_error in E by exact IH. injection E as <-. auto.
  - destruct (feed_fine _ s x (good_boundary bd HB) (or_intror IH)) as [(s1 & E1 & _)|(s1 & E1 & _ & H1)]; rewrite E1 in E; [discriminate E|]. injection E as <-. destruct H1 as [H1|[H1|H1]]; auto.
Qed.
Theorem feed_in_bounds bd s x : Feeding bd s -> ~ In EEnd (m_evs s) -> exists s', feed (stored_boundary bd) s x = Fed s' \/ (feed (stored_boundary bd) s x = FThrow s' /\ m_state s' = MError).
Proof.
  intros HF HN. destruct (feeding_inv bd s HF) as [H|[H|(HB & H)]]; [|contradiction|].
  - exists s. left. now apply feed_error.
  - destruct (feed_fine _ s x (good_boundary bd HB) (or_intror H)) as [(s1 & E1 & H1)|(s1 & E1 & _)]; exists s1; auto.
Qed.
