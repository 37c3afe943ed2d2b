(** Proofs about the route tree: segments, matching, registration. *)
From Verif Require Import Base UtilSpec UtilModel UtilProofs UtilProps RouteSpec RouteModel.
Open Scope N_scope.

Ltac inv H := inversion H; subst; clear H.

Definition slashes (s : list N) : Prop := Forall (fun c => c = 47) s.
Definition ends_seg (s : list N) : Prop := forall c r, s = c :: r -> c = 47.

Lemma skipn_app_len {A} (a b : list A) n : n = length a -> skipn n (a ++ b) = b.
Proof. intros ->. apply skipn_length_app. Qed.

Lemma skipn_skipn' {A} (n m : nat) (l : list A) : skipn n (skipn m l) = skipn (m + n) l.
Proof.
  revert l; induction m as [|m IH]; intros l; [reflexivity|]. destruct l as [|x l]; cbn [skipn Nat.add].
  - now rewrite !skipn_nil.
  - apply IH.
Qed.

(** ** Segments *)

(** What split_path_to_segments returns from a given position of the path on. *)
Inductive Segs (p : list N) : nat -> list (nat * nat) -> Prop :=
| Segs_end pos : slashes (skipn pos p) -> Segs p pos []
| Segs_cons pos sl seg rest segs :
    skipn pos p = sl ++ seg ++ rest -> slashes sl -> seg <> [] -> ~ In 47 seg -> ends_seg rest ->
    Segs p (pos + length sl + length seg) segs ->
    Segs p pos ((pos + length sl, length seg)%nat :: segs).

Lemma split_in_seg p seg : forall rest i start, ~ In 47 seg -> ends_seg rest -> (start < i)%nat ->
  skipn i p = seg ++ rest -> (i <= length p)%nat ->
  split_loop p (seg ++ rest) i start =
  (start, i + length seg - start)%nat :: split_loop p rest (i + length seg) (i + length seg).
Proof.
  induction seg as [|c seg IH]; intros rest i start Hin Hend Hlt Hsk Hi.
  - cbn [app length]. rewrite Nat.add_0_r. destruct rest as [|c r]; cbn [split_loop].
    + assert (length p = i) by (apply (f_equal (@length N)) in Hsk; rewrite skipn_length in Hsk; cbn in Hsk; lia).
      replace (Nat.ltb start (length p)) with true by (symmetry; apply Nat.ltb_lt; lia).
      replace (Nat.ltb i (length p)) with false by (symmetry; apply Nat.ltb_ge; lia). now subst.
    + rewrite (Hend c r eq_refl). change (47 =? 47) with true. cbv iota.
      replace (Nat.ltb start i) with true by (symmetry; apply Nat.ltb_lt; lia).
      replace (Nat.ltb i i) with false by (symmetry; apply Nat.ltb_ge; lia). reflexivity.
  - cbn [app split_loop]. replace (c =? 47) with false
      by (symmetry; apply N.eqb_neq; intros ->; apply Hin; now left).
    assert (Hl : (S i <= length p)%nat).
    { apply (f_equal (@length N)) in Hsk. rewrite skipn_length in Hsk. cbn in Hsk. lia. }
    rewrite IH; [cbn [length]; repeat (f_equal; try lia) | intros H; apply Hin; now right | exact Hend | lia | | exact Hl].
    rewrite <- (Nat.add_1_r i), <- skipn_skipn', Hsk. reflexivity.
Qed.

Lemma seg_scan (s : list N) : exists seg rest, s = seg ++ rest /\ ~ In 47 seg /\ ends_seg rest.
Proof.
  induction s as [|c s (seg & rest & -> & Hn & He)].
  - exists [], []. repeat split; auto. intros c r; discriminate.
  - destruct (N.eq_dec c 47) as [->|Hc].
    + exists [], (47 :: seg ++ rest). repeat split; auto. intros c r E. now injection E.
    + exists (c :: seg), rest. repeat split; auto. intros [->|H]; auto.
Qed.

Lemma slash_scan (s : list N) : exists sl rest, s = sl ++ rest /\ slashes sl /\ (forall c r, rest = c :: r -> c <> 47).
Proof.
  induction s as [|c s (sl & rest & -> & Hn & He)].
  - exists [], []. repeat split; [constructor|]. intros c r; discriminate.
  - destruct (N.eq_dec c 47) as [->|Hc].
    + exists (47 :: sl), rest. repeat split; auto. now constructor.
    + exists [], (c :: sl ++ rest). repeat split; [constructor|]. intros c' r E. injection E as <- <-. exact Hc.
Qed.

Lemma split_slashes p sl : forall rest i, slashes sl -> split_loop p (sl ++ rest) i i = split_loop p rest (i + length sl) (i + length sl).
Proof.
  induction sl as [|c sl IH]; intros rest i Hs; [now rewrite Nat.add_0_r|].
  inv Hs. cbn [app split_loop]. change (47 =? 47) with true. cbv iota.
  replace (Nat.ltb i i) with false by (symmetry; apply Nat.ltb_ge; lia). cbn [app].
  rewrite IH by assumption. cbn [length]. f_equal; lia.
Qed.

Lemma Segs_split p : forall n pos, (n = length p - pos)%nat -> (pos <= length p)%nat ->
  Segs p pos (split_loop p (skipn pos p) pos pos).
Proof.
  induction n as [n IH] using lt_wf_ind. intros pos -> Hpos.
  destruct (slash_scan (skipn pos p)) as (sl & r & E & Hsl & Hr).
  destruct (seg_scan r) as (seg & rest & -> & Hn & He).
  rewrite E, split_slashes by exact Hsl.
  assert (Hlen : length (skipn pos p) = (length p - pos)%nat) by apply skipn_length.
  rewrite E, !app_length in Hlen.
  destruct seg as [|c seg].
  - destruct rest as [|c rest].
    + cbn [app split_loop]. replace (Nat.ltb _ _) with false by (symmetry; apply Nat.ltb_ge; cbn in Hlen; lia).
      constructor. rewrite E, !app_nil_r. exact Hsl.
    + exfalso. apply (Hr c rest eq_refl). now apply (He c rest).
  - set (i := (pos + length sl)%nat). set (sg := c :: seg) in *.
    assert (Hc : c <> 47) by (intros ->; apply Hn; now left).
    assert (Hski : skipn i p = sg ++ rest) by (unfold i; rewrite <- skipn_skipn', E; now apply skipn_app_len).
    assert (Hloop : split_loop p (sg ++ rest) i i =
             (i, length sg) :: split_loop p rest (i + length sg) (i + length sg)).
    { unfold sg. cbn [app split_loop]. replace (c =? 47) with false by (symmetry; now apply N.eqb_neq).
      rewrite (split_in_seg p seg rest (S i) i).
      - cbn [length]. repeat (f_equal; try lia).
      - intros H. apply Hn. now right.
      - exact He.
      - lia.
      - rewrite <- (Nat.add_1_r i), <- skipn_skipn', Hski. reflexivity.
      - unfold i, sg in *. cbn [length] in Hlen. lia. }
    rewrite Hloop.
    assert (Hnext : skipn (i + length sg) p = rest) by (rewrite <- skipn_skipn', Hski; now apply skipn_app_len).
    rewrite <- Hnext. unfold i.
    apply (Segs_cons p pos sl sg rest); try assumption; [discriminate|].
    fold i. unfold sg in *. cbn [length] in *.
    eapply IH; [|reflexivity|]; unfold i; lia.
Qed.

Lemma split_path_segs p : Segs p 0 (split_path_to_segments p).
Proof.
  assert (split_path_to_segments p = split_loop p (skipn 0 p) 0 0) as ->.
  { destruct p as [|c r]; [reflexivity|]. cbn [split_path_to_segments skipn].
    destruct (c =? 47) eqn:E; [|reflexivity]. cbn [split_loop]. rewrite E.
    now replace (Nat.ltb 0 0) with false by reflexivity. }
  eapply Segs_split; [reflexivity|lia].
Qed.

Lemma substr_seg p pos sl seg rest : skipn pos p = sl ++ seg ++ rest -> substr p (pos + length sl, length seg)%nat = seg.
Proof.
  intros E. unfold substr. cbn [fst snd]. rewrite <- skipn_skipn', E, skipn_app_len by reflexivity.
  apply firstn_length_app.
Qed.

Lemma tokens_slashes sl ts s : slashes sl -> Tokens slash ts s -> Tokens slash ts (sl ++ s).
Proof. induction sl as [|c sl IH]; intros Hs Ht; [exact Ht|]. inv Hs. apply tok_delim; [reflexivity|auto]. Qed.

Lemma Segs_tokens p pos segs : Segs p pos segs -> Tokens slash (map (substr p) segs) (skipn pos p).
Proof.
  induction 1 as [pos Hs | pos sl seg rest segs E Hsl Hne Hin Hend HS IH]; cbn [map].
  - rewrite <- (app_nil_r (skipn pos p)). apply tokens_slashes; [exact Hs|constructor].
  - rewrite (substr_seg p pos sl seg rest E), E. apply tokens_slashes; [exact Hsl|].
    assert (Hf : Forall (fun c => slash c = false) seg).
    { apply Forall_forall. intros c Hc. apply N.eqb_neq. intros ->. auto. }
    assert (Hnext : skipn (pos + length sl + length seg) p = rest).
    { rewrite <- !skipn_skipn', E, skipn_app_len by reflexivity. now apply skipn_app_len. }
    rewrite Hnext in IH. destruct rest as [|c r].
    + rewrite app_nil_r. assert (Ht0 : map (substr p) segs = []).
      { remember (map (substr p) segs) as ts. remember (@nil N) as e. destruct IH as [|? ? ? ? ?|t Ht|t ? ? ? Ht]; subst;
          try discriminate; try reflexivity; [congruence|]. destruct t; discriminate. }
      rewrite Ht0. now apply tok_last.
    + rewrite (Hend c r eq_refl) in *. apply tok_more; auto.
      remember (map (substr p) segs) as ts. remember (47 :: r) as e. destruct IH as [|d ts s Hd Ht|t Ht Hf'|t d ts s Ht Hf' Hd Ht'].
      * discriminate.
      * injection Heqe as -> ->. exact Ht.
      * subst t. inv Hf'. discriminate.
      * destruct t as [|x t]; [congruence|]. cbn in Heqe. injection Heqe as -> _. inv Hf'. discriminate.
Qed.

Lemma split_path_tokens p : Tokens slash (map (substr p) (split_path_to_segments p)) p.
Proof. apply (Segs_tokens p 0), split_path_segs. Qed.

Lemma tokens_nonempty d ts s : Tokens d ts s -> ~ In [] ts.
Proof.
  induction 1; cbn [In]; auto; intros [E|E]; congruence || auto.
Qed.

(** ** Matching a pattern against the segments *)

Inductive SMatch (p : list N) : list pseg -> list (nat * nat) -> list (list N * list N) -> Prop :=
| SM_end : SMatch p [] [] []
| SM_static v q segs caps : SMatch p q segs caps -> SMatch p (Static (substr p v) :: q) (v :: segs) caps
| SM_param n v q segs caps : SMatch p q segs caps -> SMatch p (Param n :: q) (v :: segs) ((n, substr p v) :: caps)
| SM_wild0 n : SMatch p [Wild n] [] [(n, [])]
| SM_wild n v segs : SMatch p [Wild n] (v :: segs) [(n, wild_slice p (v :: segs))].

Definition trimmed_slashes (raw : list N) : Prop :=
  (forall c r, raw = c :: r -> c <> 47) /\ (forall c r, raw = r ++ [c] -> c <> 47).

Lemma last_cons_irrel {A} (l : list A) : forall x d d', last (x :: l) d = last (x :: l) d'.
Proof. induction l as [|y l IH]; intros x d d'; [reflexivity|]. apply (IH y). Qed.

Lemma wild_slice_spec p pos segs : Segs p pos segs -> segs <> [] -> (pos <= length p)%nat ->
  exists sl sl', skipn pos p = sl ++ wild_slice p segs ++ sl' /\ slashes sl /\ slashes sl'
    /\ trimmed_slashes (wild_slice p segs) /\ wild_slice p segs <> []
    /\ exists v r, segs = v :: r /\ fst v = (pos + length sl)%nat /\
       (fst (last segs v) + snd (last segs v) = fst v + length (wild_slice p segs))%nat.
Proof.
  intros HS. induction HS as [pos Hs | pos sl seg rest segs E Hsl Hne Hin Hend HS IH]; [congruence|]. intros _ Hpos.
  assert (Hlen : (pos + length sl + length seg + length rest = length p)%nat).
  { apply (f_equal (@length N)) in E. rewrite skipn_length, !app_length in E. lia. }
  assert (Hnext : skipn (pos + length sl + length seg) p = rest).
  { rewrite <- !skipn_skipn', E, skipn_app_len by reflexivity. now apply skipn_app_len. }
  assert (Hfirst : forall c r, seg = c :: r -> c <> 47) by (intros c r -> ->; apply Hin; now left).
  destruct segs as [|v segs].
  - assert (Hsr : slashes rest) by (inversion HS as [? Hs|]; rewrite <- Hnext; exact Hs).
    assert (W : wild_slice p [(pos + length sl, length seg)%nat] = seg).
    { cbn [wild_slice last fst snd]. replace (pos + length sl + length seg - (pos + length sl))%nat with (length seg) by lia.
      apply (substr_seg p pos sl seg rest E). }
    rewrite W. exists sl, rest. repeat split; auto.
    + intros c r ->. intros ->. apply Hin, in_app_iff. right; now left.
    + eexists _, _. split; [reflexivity|]. cbn [fst snd last]. split; [reflexivity|]. lia.
  - destruct IH as (sl1 & sl2 & E1 & Hsl1 & Hsl2 & (Ht1 & Ht2) & Hwne & v' & r' & Ev & Hv & Hl); [discriminate|lia|].
    injection Ev as <- <-. rewrite Hnext in E1.
    set (w := wild_slice p (v :: segs)) in *.
    assert (Hl2 : last ((pos + length sl, length seg)%nat :: v :: segs) (pos + length sl, length seg)%nat = last (v :: segs) v).
    { change (last ((pos + length sl, length seg)%nat :: v :: segs) (pos + length sl, length seg)%nat)
        with (last (v :: segs) (pos + length sl, length seg)%nat).
      apply last_cons_irrel. }
    assert (W : wild_slice p ((pos + length sl, length seg)%nat :: v :: segs) = seg ++ sl1 ++ w).
    { unfold wild_slice at 1. rewrite Hl2. cbn [fst snd]. rewrite Hl, Hv. unfold substr. cbn [fst snd].
      rewrite <- skipn_skipn', E, skipn_app_len by reflexivity. rewrite E1.
      replace (pos + length sl + length seg + length sl1 + length w - (pos + length sl))%nat
        with (length (seg ++ sl1 ++ w)) by (rewrite !app_length; lia).
      replace (seg ++ sl1 ++ w ++ sl2) with ((seg ++ sl1 ++ w) ++ sl2) by (rewrite <- !app_assoc; reflexivity).
      apply firstn_length_app. }
    rewrite W. exists sl, sl2. split; [|repeat split; auto].
    + rewrite E, E1, <- !app_assoc. reflexivity.
    + intros c r Ec. destruct seg as [|d seg]; [congruence|]. injection Ec as -> _. now apply (Hfirst c seg).
    + intros c r Ec. destruct w as [|d w'] eqn:Ew using rev_ind; [congruence|].
      rewrite !app_assoc in Ec. apply app_inj_tail in Ec as [_ <-]. now apply (Ht2 d w').
    + destruct seg; [congruence|discriminate].
    + eexists _, _. split; [reflexivity|]. rewrite Hl2. cbn [fst snd]. split; [reflexivity|].
      rewrite Hl, Hv, !app_length. lia.
Qed.

(** decompositions of a path are unique *)
Lemma slashes_split_unique sl1 : forall r1 sl2 r2, slashes sl1 -> slashes sl2 ->
  (forall c r, r1 = c :: r -> c <> 47) -> (forall c r, r2 = c :: r -> c <> 47) ->
  sl1 ++ r1 = sl2 ++ r2 -> sl1 = sl2 /\ r1 = r2.
Proof.
  induction sl1 as [|c sl1 IH]; intros r1 sl2 r2 H1 H2 N1 N2 E.
  - destruct sl2 as [|d sl2]; [now split|]. exfalso. inv H2. cbn in E. now apply (N1 47 (sl2 ++ r2)).
  - inv H1. destruct sl2 as [|d sl2].
    + exfalso. cbn in E. symmetry in E. now apply (N2 47 (sl1 ++ r1)).
    + inv H2. cbn in E. injection E as E. destruct (IH r1 sl2 r2) as [-> ->]; auto.
Qed.

Lemma seg_split_unique s1 : forall r1 s2 r2, ~ In 47 s1 -> ~ In 47 s2 -> ends_seg r1 -> ends_seg r2 ->
  s1 ++ r1 = s2 ++ r2 -> s1 = s2 /\ r1 = r2.
Proof.
  induction s1 as [|c s1 IH]; intros r1 s2 r2 H1 H2 N1 N2 E.
  - destruct s2 as [|d s2]; [now split|]. exfalso. cbn in E. pose proof (N1 d _ E) as ->. apply H2; now left.
  - destruct s2 as [|d s2].
    + exfalso. cbn in E. symmetry in E. pose proof (N2 c _ E) as ->. apply H1; now left.
    + cbn in E. injection E as -> E. destruct (IH r1 s2 r2) as [-> ->]; auto.
      * intros H; apply H1; now right. 
      * intros H; apply H2; now right.
Qed.

Lemma trim_unique sl1 raw1 sr1 sl2 raw2 sr2 :
  slashes sl1 -> slashes sr1 -> slashes sl2 -> slashes sr2 -> trimmed_slashes raw1 -> trimmed_slashes raw2 ->
  sl1 ++ raw1 ++ sr1 = sl2 ++ raw2 ++ sr2 -> raw1 = raw2.
Proof.
  intros A1 B1 A2 B2 [T1 T1'] [T2 T2'] E.
  assert (Hrev : forall s, slashes s -> slashes (rev s)).
  { intros s Hs. apply Forall_rev, Hs. }
  destruct raw1 as [|c1 raw1].
  - cbn [app] in E. destruct raw2 as [|c2 raw2]; [reflexivity|]. exfalso.
    assert (Hall : slashes (sl2 ++ (c2 :: raw2) ++ sr2)) by (rewrite <- E; apply Forall_app; auto).
    apply Forall_app in Hall as [_ Hall]. inv Hall. now apply (T2 47 raw2).
  - destruct raw2 as [|c2 raw2].
    + exfalso. cbn [app] in E.
      assert (Hall : slashes (sl1 ++ (c1 :: raw1) ++ sr1)) by (cbn [app] in *; rewrite E; apply Forall_app; auto).
      apply Forall_app in Hall as [_ Hall]. inv Hall. now apply (T1 47 raw1).
    + apply slashes_split_unique in E as [_ E]; auto.
      2:{ intros c r Ec. injection Ec as <- _. now apply (T1 c1 raw1). }
      2:{ intros c r Ec. injection Ec as <- _. now apply (T2 c2 raw2). }
      apply (f_equal (@rev N)) in E. rewrite !rev_app_distr in E.
      apply slashes_split_unique in E as [_ E]; auto.
      * apply (f_equal (@rev N)) in E. now rewrite !rev_involutive in E.
      * intros c r Ec. apply (f_equal (@rev N)) in Ec. rewrite rev_involutive in Ec. cbn [rev] in Ec. now apply (T1' c (rev r)).
      * intros c r Ec. apply (f_equal (@rev N)) in Ec. rewrite rev_involutive in Ec. cbn [rev] in Ec. now apply (T2' c (rev r)).
Qed.

Lemma slashes_no_seg sl seg rest : seg <> [] -> ~ In 47 seg -> ~ slashes (sl ++ seg ++ rest).
Proof.
  intros Hne Hin H. apply Forall_app in H as [_ H]. apply Forall_app in H as [H _].
  destruct seg as [|c seg]; [congruence|]. inv H. apply Hin; now left.
Qed.

Lemma seg_head seg rest : seg <> [] -> ~ In 47 seg -> forall c r, seg ++ rest = c :: r -> c <> 47.
Proof. intros Hne Hin c r E. destruct seg as [|d seg]; [congruence|]. injection E as -> _. intros ->. apply Hin; now left. Qed.

Lemma smatch_pmatch p q segs caps : SMatch p q segs caps -> forall pos, (pos <= length p)%nat -> Segs p pos segs ->
  PMatch q (skipn pos p) caps.
Proof.
  induction 1; intros pos Hpos HS; inv HS.
  - now constructor.
  - match goal with E : skipn pos p = sl ++ seg ++ rest |- _ => pose proof (substr_seg _ _ _ _ _ E) as ->; rewrite E;
      assert (Hnext : skipn (pos + length sl + length seg) p = rest)
        by (rewrite <- !skipn_skipn', E, skipn_app_len by reflexivity; now apply skipn_app_len);
      apply (f_equal (@length N)) in E; rewrite skipn_length, !app_length in E end.
    constructor; auto. rewrite <- Hnext. apply IHSMatch; [lia|assumption].
  - match goal with E : skipn pos p = sl ++ seg ++ rest |- _ => pose proof (substr_seg _ _ _ _ _ E) as ->; rewrite E;
      assert (Hnext : skipn (pos + length sl + length seg) p = rest)
        by (rewrite <- !skipn_skipn', E, skipn_app_len by reflexivity; now apply skipn_app_len);
      apply (f_equal (@length N)) in E; rewrite skipn_length, !app_length in E end.
    constructor; auto. rewrite <- Hnext. apply IHSMatch; [lia|assumption].
  - rewrite <- (app_nil_r (skipn pos p)). change (skipn pos p ++ []) with (skipn pos p ++ [] ++ []).
    constructor; auto; try constructor; intros c [|? ?]; discriminate.
  - match goal with E : skipn pos p = _, HS : Segs p _ segs |- _ =>
      pose proof (Segs_cons p pos sl seg rest segs E ltac:(assumption) ltac:(assumption) ltac:(assumption) ltac:(assumption) HS) as HS' end.
    destruct (wild_slice_spec p pos _ HS') as (sl1 & sl2 & E1 & Ha & Hb & (Hc & Hd) & _); [discriminate|exact Hpos|].
    rewrite E1. now constructor.
Qed.

Lemma Segs_inv p pos segs : Segs p pos segs -> forall path, skipn pos p = path -> (pos <= length p)%nat ->
  (segs = [] /\ slashes path)
  \/ exists sl seg rest segs', segs = (pos + length sl, length seg)%nat :: segs' /\ path = sl ++ seg ++ rest /\ slashes sl
     /\ seg <> [] /\ ~ In 47 seg /\ ends_seg rest /\ Segs p (pos + length sl + length seg) segs'
     /\ skipn (pos + length sl + length seg) p = rest /\ (pos + length sl + length seg <= length p)%nat
     /\ substr p (pos + length sl, length seg)%nat = seg.
Proof.
  intros HS path Ep Hpos. destruct HS as [pos Hs | pos sl seg rest segs E Hsl Hne Hin Hend HS].
  - left. subst. now split.
  - right. exists sl, seg, rest, segs. subst path. repeat split; auto.
    + rewrite <- !skipn_skipn', E, skipn_app_len by reflexivity; now apply skipn_app_len.
    + apply (f_equal (@length N)) in E; rewrite skipn_length, !app_length in E. lia.
    + now apply substr_seg in E.
Qed.

Lemma decomp_unique sl1 seg1 r1 sl2 seg2 r2 : slashes sl1 -> slashes sl2 -> seg1 <> [] -> seg2 <> [] ->
  ~ In 47 seg1 -> ~ In 47 seg2 -> ends_seg r1 -> ends_seg r2 ->
  sl1 ++ seg1 ++ r1 = sl2 ++ seg2 ++ r2 -> sl1 = sl2 /\ seg1 = seg2 /\ r1 = r2.
Proof.
  intros A1 A2 B1 B2 C1 C2 D1 D2 E. apply slashes_split_unique in E as [-> E]; try (apply seg_head); auto.
  apply seg_split_unique in E as [-> ->]; auto.
Qed.

Lemma pmatch_smatch p q path caps : PMatch q path caps -> forall pos segs, (pos <= length p)%nat -> Segs p pos segs ->
  skipn pos p = path -> SMatch p q segs caps.
Proof.
  induction 1 as [sl Hsl | sl seg rest q caps Hsl Hne Hin Hend HP IH | sl n seg rest q caps Hsl Hne Hin Hend HP IH
                 | sl n raw sl' Hsl Hsl' Hr1 Hr2]; intros pos segs Hpos HS E;
    pose proof HS as HS0;
    apply (Segs_inv p pos segs) with (2 := E) in HS
      as [[-> Hs] | (sl0 & seg0 & rest0 & segs' & -> & E2 & Hsl0 & Hne0 & Hin0 & Hend0 & HS1 & Hnext & Hle & Hsub)]; auto.
  - constructor.
  - exfalso. subst sl. now apply slashes_no_seg in Hsl.
  - exfalso. now apply slashes_no_seg in Hs.
  - apply decomp_unique in E2 as (-> & -> & ->); auto. rewrite <- Hsub at 1. constructor. now apply (IH _ segs' Hle).
  - exfalso. now apply slashes_no_seg in Hs.
  - apply decomp_unique in E2 as (-> & -> & ->); auto. rewrite <- Hsub at 2. constructor. now apply (IH _ segs' Hle).
  - destruct raw as [|c raw]; [constructor|]. exfalso. apply Forall_app in Hs as [_ Hs]. inv Hs. now apply (Hr1 47 raw).
  - destruct (wild_slice_spec p pos _ HS0) as (sl1 & sl2 & E1 & H1' & H2' & H3' & _); [discriminate|exact Hpos|].
    rewrite E in E1. apply trim_unique in E1; auto; [|split; assumption]. rewrite E1. constructor.
Qed.

Lemma pmatch_iff p q caps : PMatch q p caps <-> SMatch p q (split_path_to_segments p) caps.
Proof.
  split; intros Hm.
  - apply (pmatch_smatch p q p caps Hm 0%nat); [lia|apply split_path_segs|reflexivity].
  - apply (smatch_pmatch p q _ caps Hm 0%nat); [lia|apply split_path_segs].
Qed.
