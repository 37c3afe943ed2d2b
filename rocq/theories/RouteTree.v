(** Proofs about the route tree: what it holds, what matching finds, what registration changes. *)
From Coq Require Sorted.
From Verif Require Import Base UtilSpec UtilModel UtilProofs UtilProps RouteSpec RouteModel RouteProofs.
Open Scope N_scope.

Section Tree.
Context {H : Type}.
Notation node := (node H).

(** The handler stored at the end of a pattern. *)
Fixpoint lookup (t : node) (q : list pseg) (slot : N) : option H :=
  let '(Node hs st pc wc) := t in
  match q with
  | [] => hs slot
  | Static s :: q' => match find_static s st with Some c => lookup c q' slot | None => None end
  | Param n :: q' => match pc with Some (m, c) => if beq m n then lookup c q' slot else None | None => None end
  | [Wild n] => match wc with Some (m, whs) => if beq m n then whs slot else None | None => None end
  | Wild n :: _ => None
  end.

Fixpoint set_all (ps : params) (caps : list (list N * list N)) : params :=
  match caps with
  | [] => ps
  | (k, v) :: r => set_all (params_set k v ps) r
  end.

Lemma Prefer_irrefl q : ~ Prefer q q.
Proof. induction q as [|x q IH]; intros P; inversion P; subst; auto. Qed.

(** ** match_rec finds the preferred pattern *)

Definition BestAt (p : list N) (t : node) (segs : list (nat * nat)) (slot : N) (q : list pseg) : Prop :=
  forall q' h' caps', lookup t q' slot = Some h' -> SMatch p q' segs caps' -> q' = q \/ Prefer q q'.

Lemma match_rec_spec p : forall segs t slot ps,
  match match_rec p t segs slot ps with
  | Some (ps', h) => exists q caps, lookup t q slot = Some h /\ SMatch p q segs caps /\ ps' = set_all ps caps
      /\ BestAt p t segs slot q
  | None => forall q h caps, lookup t q slot = Some h -> SMatch p q segs caps -> False
  end.
Proof.
  induction segs as [|v segs IH]; intros [hs st pc wc] slot ps; cbn [match_rec].
  - destruct (hs slot) as [h|] eqn:Eh.
    { exists [], []. repeat split; auto; [constructor|]. intros q' h' caps' Hl Hm. inv Hm; [now left|].
      right. constructor. }
    destruct wc as [[n whs]|].
    + destruct (whs slot) as [h|] eqn:Ew.
      * exists [Wild n], [(n, [])]. repeat split; auto; [cbn; now rewrite beq_refl|constructor|].
        intros q' h' caps' Hl Hm. inv Hm; [cbn in Hl; congruence|]. cbn in Hl. destruct (beq n n0) eqn:Eb; [|discriminate].
        apply beq_eq in Eb as ->. now left.
      * intros q h caps Hl Hm. inv Hm; cbn in Hl; [congruence|]. destruct (beq n n0); congruence.
    + intros q h caps Hl Hm. inv Hm; cbn in Hl; congruence.
  - set (seg := substr p v).
    assert (HS : match match find_static seg st with Some child => match_rec p child segs slot ps | None => None end with
      | Some (ps', h) => exists q caps, lookup (Node hs st pc wc) (Static seg :: q) slot = Some h /\ SMatch p q segs caps
          /\ ps' = set_all ps caps
          /\ forall q' h' caps', lookup (Node hs st pc wc) (Static seg :: q') slot = Some h' -> SMatch p q' segs caps' -> q' = q \/ Prefer q q'
      | None => forall q h caps, lookup (Node hs st pc wc) (Static seg :: q) slot = Some h -> SMatch p q segs caps -> False
      end).
    { cbn [lookup]. destruct (find_static seg st) as [child|]; [|discriminate]. apply (IH child slot ps). }
    destruct (match find_static seg st with Some child => match_rec p child segs slot ps | None => None end) as [[ps' h]|].
    { destruct HS as (q & caps & Hl & Hm & -> & Hb). exists (Static seg :: q), caps. repeat split; auto.
      - unfold seg. now constructor.
      - intros q' h' caps' Hl' Hm'. inv Hm'.
        + match goal with Hq : SMatch p ?qq segs _ |- context [?qq] => destruct (Hb _ _ _ Hl' Hq) as [->|P] end; [now left|right; now constructor].
        + right. constructor.
        + right. constructor. }
    assert (HP : match match pc with Some (n, child) => match_rec p child segs slot (params_set n seg ps) | None => None end with
      | Some (ps', h) => exists n q caps, lookup (Node hs st pc wc) (Param n :: q) slot = Some h /\ SMatch p q segs caps
          /\ ps' = set_all ps ((n, seg) :: caps)
          /\ forall n' q' h' caps', lookup (Node hs st pc wc) (Param n' :: q') slot = Some h' -> SMatch p q' segs caps' ->
               n' = n /\ (q' = q \/ Prefer q q')
      | None => forall n q h caps, lookup (Node hs st pc wc) (Param n :: q) slot = Some h -> SMatch p q segs caps -> False
      end).
    { cbn [lookup]. destruct pc as [[n child]|]; [|discriminate]. specialize (IH child slot (params_set n seg ps)).
      destruct (match_rec p child segs slot (params_set n seg ps)) as [[ps' h]|].
      - destruct IH as (q & caps & Hl & Hm & -> & Hb). exists n, q, caps. rewrite beq_refl. repeat split; auto.
        + match goal with H : (if beq n n' then _ else _) = _ |- _ => destruct (beq n n') eqn:Eb; [now apply beq_eq in Eb|discriminate] end.
        + match goal with H : (if beq n n' then _ else _) = _ |- _ => destruct (beq n n') eqn:Eb; [|discriminate]; eapply Hb; eauto end.
      - intros m q h caps Hl Hm. destruct (beq n m); [|discriminate]. eauto. }
    destruct (match pc with Some (n, child) => match_rec p child segs slot (params_set n seg ps) | None => None end) as [[ps' h]|].
    { destruct HP as (n & q & caps & Hl & Hm & -> & Hb). exists (Param n :: q), ((n, seg) :: caps). repeat split; auto.
      - unfold seg. now constructor.
      - intros q' h' caps' Hl' Hm'. inv Hm'.
        + exfalso. eapply HS; eauto.
        + match goal with Hq : SMatch p ?qq segs _ |- context [?qq] => destruct (Hb _ _ _ _ Hl' Hq) as [-> [->|P]] end; [now left|right; now constructor].
        + right. constructor. }
    destruct wc as [[n whs]|].
    + destruct (whs slot) as [h|] eqn:Ew.
      * exists [Wild n], [(n, wild_slice p (v :: segs))]. repeat split; auto; [cbn; now rewrite beq_refl|constructor|].
        intros q' h' caps' Hl Hm. inv Hm; [exfalso; eapply HS; eauto|exfalso; eapply HP; eauto|].
        cbn in Hl. destruct (beq n n0) eqn:Eb; [|discriminate]. apply beq_eq in Eb as ->. now left.
      * intros q h caps Hl Hm. inv Hm; [eapply HS; eauto|eapply HP; eauto|]. cbn in Hl. destruct (beq n n0); congruence.
    + intros q h caps Hl Hm. inv Hm; [eapply HS; eauto|eapply HP; eauto|]. cbn in Hl. discriminate.
Qed.

(** ** what a registration changes *)

Lemma find_put_same s n l : find_static (H := H) s (put_static s n l) = Some n.
Proof.
  induction l as [|[k m] l IH]; cbn; [now rewrite beq_refl|]. destruct (beq k s) eqn:E; cbn; rewrite E; auto.
Qed.

Lemma find_put_other s s' n l : s' <> s -> find_static (H := H) s' (put_static s n l) = find_static s' l.
Proof.
  intros Hne. induction l as [|[k m] l IH]; cbn.
  - replace (beq s s') with false; [reflexivity|]. symmetry. apply beq_neq. congruence.
  - destruct (beq k s) eqn:E; cbn; [|now rewrite IH]. apply beq_eq in E as ->.
    replace (beq s s') with false; [reflexivity|]. symmetry. apply beq_neq. congruence.
Qed.

Lemma lookup_empty q slot : lookup empty_node q slot = None.
Proof. destruct q as [|[s|n|n] [|]]; reflexivity. Qed.

Definition pseg_eq_dec (a b : pseg) : {a = b} + {a <> b}.
Proof. decide equality; apply bytes_eq_dec. Defined.
Definition pat_eq_dec (a b : list pseg) : {a = b} + {a <> b} := list_eq_dec pseg_eq_dec a b.

Lemma read_segment_cases c name :
  (c = 42 /\ read_segment (c :: name) = Wild name) \/ (c = 58 /\ read_segment (c :: name) = Param name)
  \/ (c <> 42 /\ c <> 58 /\ read_segment (c :: name) = Static (c :: name)).
Proof.
  cbn [read_segment]. destruct (c =? 42) eqn:E1; [apply N.eqb_eq in E1; auto|]. destruct (c =? 58) eqn:E2; [apply N.eqb_eq in E2; auto|].
  apply N.eqb_neq in E1, E2. auto.
Qed.

(** Condition on the segments alone for a registration to be possible. *)
Definition wf_from (seen : list (list N)) (q : list pseg) : Prop :=
  ~ In [] (names q) /\ NoDup (names q) /\ (forall n, In n (names q) -> ~ In n seen)
  /\ (forall a n b, q = a ++ Wild n :: b -> b = []).

(** Condition on the names already present in the tree. *)
Fixpoint compat (t : node) (q : list pseg) : Prop :=
  let '(Node hs st pc wc) := t in
  match q with
  | [] => True
  | Static s :: q' => match find_static s st with Some c => compat c q' | None => True end
  | Param n :: q' => match pc with Some (m, c) => m = n /\ compat c q' | None => True end
  | Wild n :: _ => match wc with Some (m, _) => m = n | None => True end
  end.

Lemma compat_empty q : compat empty_node q.
Proof. destruct q as [|[s|n|n] q]; cbn; auto. Qed.

Lemma mem_name_spec n seen : mem_name n seen = true <-> In n seen.
Proof.
  unfold mem_name. rewrite existsb_exists. split.
  - intros (x & Hx & E). now apply beq_eq in E as ->.
  - intros Hx. exists n. split; [exact Hx|apply beq_refl].
Qed.

Lemma wf_static seen s q : wf_from seen (Static s :: q) <-> wf_from seen q.
Proof.
  unfold wf_from. cbn [names flat_map app]. fold (names q). split; intros (A & B & C & D); repeat split; auto.
  - intros a n b ->. now apply (D (Static s :: a) n b).
  - intros a n b E. destruct a as [|x a]; [discriminate|]. injection E as <- ->. now apply (D a n b).
Qed.

Lemma wf_param seen n q : wf_from seen (Param n :: q) <-> n <> [] /\ ~ In n seen /\ wf_from (n :: seen) q.
Proof.
  unfold wf_from. cbn [names flat_map app]. fold (names q). split.
  - intros (A & B & C & D). inversion B as [|? ? B1 B2]; subst. repeat split; auto.
    + intros ->. apply A. now left.
    + apply C. now left.
    + intros Hin. apply A. now right.
    + intros m Hm [->|Hin]; [auto|]. now apply (C m); [right|].
    + intros a m b ->. now apply (D (Param n :: a) m b).
  - intros (A & B & C1 & C2 & C3 & C4). repeat split.
    + intros [->|Hin]; auto.
    + constructor; auto. intros Hin. apply (C3 n Hin). now left.
    + intros m [<-|Hm]; auto. intros Hin. apply (C3 m Hm). now right.
    + intros a m b E. destruct a as [|x a]; [discriminate|]. injection E as <- ->. now apply (C4 a m b).
Qed.

Lemma wf_wild seen n q : wf_from seen (Wild n :: q) <-> n <> [] /\ ~ In n seen /\ q = [].
Proof.
  unfold wf_from. cbn [names flat_map app]. fold (names q). split.
  - intros (A & B & C & D). repeat split.
    + intros ->. apply A. now left.
    + apply C. now left.
    + now apply (D [] n q).
  - intros (A & B & ->). cbn. repeat split.
    + intros [->|[]]; auto.
    + constructor; [auto|constructor].
    + intros m [<-|[]]; auto.
    + intros a m b E. destruct a as [|x [|y a]]; try discriminate. now injection E.
Qed.

Lemma store_spec (hs : N -> option H) slot h hs' ok : store hs slot h = (hs', ok) ->
  (ok = true /\ slot < 64 /\ (forall s, hs' s = if s =? slot then Some h else hs s))
  \/ (ok = false /\ 64 <= slot /\ hs' = hs).
Proof.
  unfold store, METHOD_SLOT_COUNT. destruct (slot <? 64) eqn:E; intros X; injection X as <- <-.
  - left. apply N.ltb_lt in E. auto.
  - right. apply N.ltb_ge in E. auto.
Qed.

Definition after (q : list pseg) (slot : N) (h : H) (t : node) (q' : list pseg) (s : N) : option H :=
  if pat_eq_dec q' q then if s =? slot then Some h else lookup t q' s else lookup t q' s.

Lemma after_cons x q slot h t q' s : after (x :: q) slot h t (x :: q') s =
  if pat_eq_dec q' q then if s =? slot then Some h else lookup t (x :: q') s else lookup t (x :: q') s.
Proof. unfold after. destruct (pat_eq_dec (x :: q') (x :: q)), (pat_eq_dec q' q); congruence. Qed.

Lemma add_from_spec : forall segs t seen slot h, ~ In [] segs ->
  let q := map read_segment segs in
  let '(t', ok) := add_from t segs seen slot h in
  (ok = true <-> slot < 64 /\ wf_from seen q /\ compat t q)
  /\ (ok = true -> forall q' s, lookup t' q' s = after q slot h t q' s)
  /\ (ok = false -> forall q' s, lookup t' q' s = lookup t q' s).
Proof.
  induction segs as [|seg rest IH]; intros [hs st pc wc] seen slot h Hne.
  { cbn [map add_from]. destruct (store hs slot h) as [hs' ok] eqn:Es. apply store_spec in Es as [(-> & Hs & E)|(-> & Hs & ->)].
    - split; [|split; [|discriminate]].
      + split; [intros _|reflexivity]. split; [exact Hs|]. split; [|exact I]. repeat split; cbn; auto; try constructor.
        intros a n b E0. now destruct a.
      + intros _ q' s. unfold after. destruct (pat_eq_dec q' []) as [->|Hq]; cbn [lookup]; [now rewrite E|].
        destruct q' as [|[?|?|?] ?]; [congruence|reflexivity..].
    - split; [|split; [discriminate|reflexivity]]. split; [discriminate|]. intros (Hs' & _). lia. }
  cbn [map add_from]. destruct seg as [|c name]; [exfalso; apply Hne; now left|].
  assert (Hne' : ~ In [] rest) by (intros X; apply Hne; now right).
  destruct (read_segment_cases c name) as [(-> & Er)|[(-> & Er)|(Hc1 & Hc2 & Er)]]; rewrite Er.
  - change (42 =? 42) with true. cbv iota.
    destruct name as [|c name].
    { split; [|split; [discriminate|reflexivity]]. rewrite wf_wild. split; [discriminate|]. intros (_ & (X & _) & _). congruence. }
    destruct rest as [|r1 rest].
    2:{ split; [|split; [discriminate|reflexivity]]. rewrite wf_wild. split; [discriminate|]. intros (_ & (_ & _ & X) & _). discriminate. }
    set (nm := c :: name) in *. cbn [map].
    destruct (mem_name nm seen) eqn:Em.
    { split; [|split; [discriminate|reflexivity]]. rewrite wf_wild. split; [discriminate|]. intros (_ & (_ & X & _) & _).
      now apply mem_name_spec in Em. }
    assert (Hwf : wf_from seen [Wild nm]).
    { apply wf_wild. repeat split; auto; [discriminate|]. rewrite <- mem_name_spec, Em. discriminate. }
    destruct wc as [[wname whs]|].
    + destruct (beq wname nm) eqn:Ew.
      2:{ split; [|split; [discriminate|reflexivity]]. split; [discriminate|]. cbn. intros (_ & _ & X). apply beq_neq in Ew. congruence. }
      apply beq_eq in Ew as ->. destruct (store whs slot h) as [hs' ok] eqn:Es.
      apply store_spec in Es as [(-> & Hs & E)|(-> & Hs & ->)].
      * split; [|split; [|discriminate]]; [cbn; tauto|]. intros _ q' s. unfold after.
        destruct (pat_eq_dec q' [Wild nm]) as [->|Hq]; [cbn [lookup]; rewrite beq_refl; apply E|].
        destruct q' as [|[?|?|n] [|? ?]]; try reflexivity. cbn [lookup]. destruct (beq nm n) eqn:Eb; [|reflexivity].
        apply beq_eq in Eb as <-. congruence.
      * split; [|split; [discriminate|reflexivity]]. split; [discriminate|]. intros (Hs' & _). lia.
    + destruct (store no_handlers slot h) as [hs' ok] eqn:Es.
      apply store_spec in Es as [(-> & Hs & E)|(-> & Hs & ->)].
      * split; [|split; [|discriminate]]; [cbn; tauto|]. intros _ q' s. unfold after.
        destruct (pat_eq_dec q' [Wild nm]) as [->|Hq]; [cbn [lookup]; rewrite beq_refl; apply E|].
        destruct q' as [|[?|?|n] [|? ?]]; try reflexivity. cbn [lookup]. destruct (beq nm n) eqn:Eb; [|reflexivity].
        apply beq_eq in Eb as <-. congruence.
      * split; [|split; [discriminate|]].
        -- split; [discriminate|]. intros (Hs' & _). lia.
        -- intros _ q' s. destruct q' as [|[?|?|n] [|? ?]]; try reflexivity. cbn [lookup]. now destruct (beq nm n).
  - change (58 =? 42) with false. change (58 =? 58) with true. cbv iota.
    destruct name as [|c name].
    { split; [|split; [discriminate|reflexivity]]. rewrite wf_param. split; [discriminate|]. intros (_ & (X & _) & _). congruence. }
    set (nm := c :: name) in *. set (q := map read_segment rest) in *.
    destruct (mem_name nm seen) eqn:Em.
    { split; [|split; [discriminate|reflexivity]]. rewrite wf_param. split; [discriminate|]. intros (_ & (_ & X & _) & _).
      now apply mem_name_spec in Em. }
    assert (Hwf : wf_from seen (Param nm :: q) <-> wf_from (nm :: seen) q).
    { rewrite wf_param. split; [tauto|]. intros X. split; [discriminate|]. split; [|exact X].
      rewrite <- mem_name_spec, Em. discriminate. }
    destruct pc as [[pname child0]|].
    + destruct (beq pname nm) eqn:Ew.
      2:{ split; [|split; [discriminate|reflexivity]]. split; [discriminate|]. cbn. intros (_ & _ & X & _). apply beq_neq in Ew. congruence. }
      apply beq_eq in Ew as ->. specialize (IH child0 (nm :: seen) slot h Hne'). fold q in IH. cbv zeta in IH.
      destruct (add_from child0 rest (nm :: seen) slot h) as [child ok]. destruct IH as (I1 & I2 & I3).
      split; [|split].
      * rewrite I1, Hwf. cbn [compat]. tauto.
      * intros Hok q' s. specialize (I2 Hok). destruct q' as [|[?|n|?] q'].
        1,2,4: unfold after; destruct (pat_eq_dec _ _) as [E|_]; [discriminate|reflexivity].
        destruct (bytes_eq_dec n nm) as [->|Hn].
        -- rewrite after_cons. cbn [lookup]. rewrite beq_refl, I2. reflexivity.
        -- unfold after. destruct (pat_eq_dec _ _) as [E|_]; [congruence|]. cbn [lookup].
           replace (beq nm n) with false by (symmetry; apply beq_neq; congruence). reflexivity.
      * intros Hok q' s. specialize (I3 Hok). destruct q' as [|[?|n|?] q']; try reflexivity.
        cbn [lookup]. destruct (beq nm n); auto.
    + specialize (IH empty_node (nm :: seen) slot h Hne'). fold q in IH. cbv zeta in IH.
      destruct (add_from empty_node rest (nm :: seen) slot h) as [child ok]. destruct IH as (I1 & I2 & I3).
      split; [|split].
      * rewrite I1, Hwf. cbn [compat]. pose proof (compat_empty q). tauto.
      * intros Hok q' s. specialize (I2 Hok). destruct q' as [|[?|n|?] q'].
        1,2,4: unfold after; destruct (pat_eq_dec _ _) as [E|_]; [discriminate|reflexivity].
        destruct (bytes_eq_dec n nm) as [->|Hn].
        -- rewrite after_cons. cbn [lookup]. rewrite beq_refl, I2. unfold after. rewrite lookup_empty. reflexivity.
        -- unfold after. destruct (pat_eq_dec _ _) as [E|_]; [congruence|]. cbn [lookup].
           replace (beq nm n) with false by (symmetry; apply beq_neq; congruence). reflexivity.
      * intros Hok q' s. specialize (I3 Hok). destruct q' as [|[?|n|?] q']; try reflexivity.
        cbn [lookup]. destruct (beq nm n); auto. rewrite I3. apply lookup_empty.
  - replace (c =? 42) with false by (symmetry; now apply N.eqb_neq).
    replace (c =? 58) with false by (symmetry; now apply N.eqb_neq).
    set (sg := c :: name) in *. set (q := map read_segment rest) in *. cbv zeta.
    set (child0 := match find_static sg st with Some n => n | None => empty_node end).
    specialize (IH child0 seen slot h Hne'). fold q in IH. cbv zeta in IH.
    destruct (add_from child0 rest seen slot h) as [child ok]. destruct IH as (I1 & I2 & I3).
    assert (Hlook : forall q' s, lookup (Node hs st pc wc) (Static sg :: q') s = lookup child0 q' s).
    { intros q' s. cbn [lookup]. unfold child0. destruct (find_static sg st); [reflexivity|]. now rewrite lookup_empty. }
    split; [|split].
    * rewrite I1, wf_static. cbn [compat]. unfold child0. destruct (find_static sg st); [tauto|]. pose proof (compat_empty q). tauto.
    * intros Hok q' s. specialize (I2 Hok). destruct q' as [|[s'|n|?] q'].
      1,3,4: unfold after; destruct (pat_eq_dec _ _) as [E|_]; [discriminate|reflexivity].
      destruct (bytes_eq_dec s' sg) as [->|Hn].
      -- rewrite after_cons, Hlook. cbn [lookup]. rewrite find_put_same, I2. reflexivity.
      -- unfold after. destruct (pat_eq_dec _ _) as [E|_]; [congruence|]. cbn [lookup]. now rewrite find_put_other.
    * intros Hok q' s. specialize (I3 Hok). destruct q' as [|[s'|n|?] q']; try reflexivity.
      destruct (bytes_eq_dec s' sg) as [->|Hn].
      -- rewrite Hlook. cbn [lookup]. rewrite find_put_same. apply I3.
      -- cbn [lookup]. now rewrite find_put_other.
Qed.

(** ** allowed_methods *)

Lemma in_insert x y l : In y (insert x l) <-> y = x \/ In y l.
Proof.
  induction l as [|z l IH]; cbn [insert]; [cbn; intuition|]. destruct (x <=? z); cbn [In]; [intuition|]. rewrite IH. intuition.
Qed.

Lemma in_sort y l : In y (sort l) <-> In y l.
Proof. induction l as [|x l IH]; cbn [sort fold_right]; [reflexivity|]. rewrite in_insert. fold (sort l). rewrite IH. cbn. intuition. Qed.

Lemma insert_sorted x l : Sorted.StronglySorted N.le l -> Sorted.StronglySorted N.le (insert x l).
Proof.
  induction 1 as [|y l Hs IH Hf]; cbn [insert]; [repeat constructor|]. destruct (x <=? y) eqn:E.
  - apply N.leb_le in E. constructor; [constructor; auto|]. constructor; [exact E|].
    eapply Forall_impl; [|exact Hf]. cbn. intros a Ha. lia.
  - apply N.leb_gt in E. constructor; [exact IH|]. apply Forall_forall. intros z Hz. apply in_insert in Hz as [->|Hz]; [lia|].
    now apply (proj1 (Forall_forall _ _) Hf).
Qed.

Lemma sort_sorted l : Sorted.StronglySorted N.le (sort l).
Proof. induction l as [|x l IH]; cbn [sort fold_right]; [constructor|]. now apply insert_sorted. Qed.

Lemma unique_step x y l : unique (x :: y :: l) = if x =? y then unique (y :: l) else x :: unique (y :: l).
Proof. reflexivity. Qed.

Lemma in_unique y l : In y (unique l) <-> In y l.
Proof.
  induction l as [|x l IH]; [reflexivity|]. destruct l as [|z l]; [reflexivity|]. rewrite unique_step.
  destruct (x =? z) eqn:E; [|cbn [In] in *; rewrite IH; intuition].
  apply N.eqb_eq in E as ->. rewrite IH. cbn [In]. intuition.
Qed.

Lemma unique_sorted l : Sorted.StronglySorted N.le l -> Sorted.StronglySorted N.lt (unique l).
Proof.
  induction 1 as [|x l Hs IH Hf]; [constructor|]. destruct l as [|z l]; [repeat constructor|]. rewrite unique_step.
  destruct (x =? z) eqn:E; [exact IH|]. apply N.eqb_neq in E. constructor; [exact IH|]. apply Forall_forall. intros y Hy.
  rewrite in_unique in Hy. inversion Hf as [|? ? H1 H2]; subst. inversion Hs as [|? ? H3 H4]; subst. destruct Hy as [<-|Hy]; [lia|].
  apply (proj1 (Forall_forall _ _) H4) in Hy. lia.
Qed.

Lemma in_all_slots m : In m all_slots <-> m < 64.
Proof.
  unfold all_slots. rewrite in_map_iff. split.
  - intros (n & <- & Hn). apply in_seq in Hn. lia.
  - intros Hm. exists (N.to_nat m). split; [lia|]. apply in_seq. lia.
Qed.

Lemma in_collect hs m : In m (collect_allowed_methods (H := H) hs) <-> m < 64 /\ hs m <> None.
Proof.
  unfold collect_allowed_methods. rewrite filter_In, in_all_slots. unfold is_set. destruct (hs m); intuition congruence.
Qed.

Lemma has_any_spec hs : has_any_handler (H := H) hs = true <-> exists m, In m (collect_allowed_methods hs).
Proof.
  unfold has_any_handler, collect_allowed_methods. rewrite existsb_exists. split; intros (m & Hm); exists m; rewrite filter_In in *; tauto.
Qed.

(** A set of triples (pattern, captures, method). *)
Definition rset := list pseg -> list (list N * list N) -> N -> Prop.

Definition Good (A : rset) (ps : params) (r : option (params * list N)) : Prop :=
  match r with
  | None => forall q c m, ~ A q c m
  | Some (ps', ms) => ms <> [] /\ Sorted.StronglySorted N.lt ms /\ (forall m, In m ms <-> exists q c, A q c m)
      /\ exists q c m, A q c m /\ ps' = set_all ps c /\ forall q' c' m', A q' c' m' -> q' = q \/ Prefer q q'
  end.

Lemma Good_ext A B ps r : (forall q c m, A q c m <-> B q c m) -> Good A ps r -> Good B ps r.
Proof.
  intros E. destruct r as [[ps' ms]|]; cbn.
  - intros (H1 & H2 & H3 & q & c & m & H4 & H5 & H6). repeat split; auto.
    + intros Hin. apply H3 in Hin as (q' & c' & X). exists q', c'. now apply E.
    + intros (q' & c' & X). apply H3. exists q', c'. now apply E.
    + exists q, c, m. split; [now apply E|]. split; [exact H5|]. intros q' c' m' X. apply (H6 q' c' m'). now apply E.
  - intros H1 q c m X. now apply (H1 q c m), E.
Qed.

Lemma merge_good A B ps r1 r2 : Good A ps r1 -> Good B ps r2 ->
  (forall q c m q' c' m', A q c m -> B q' c' m' -> Prefer q q') ->
  Good (fun q c m => A q c m \/ B q c m) ps (merge_result r1 r2).
Proof.
  intros G1 G2 HP. destruct r2 as [[ps2 ms2]|]; cbn [merge_result].
  2:{ apply (Good_ext A); [|exact G1]. intros q c m. split; [now left|]. intros [X|X]; [exact X|]. now apply G2 in X. }
  destruct G2 as (N2 & S2 & M2 & q2 & c2 & m2 & A2 & E2 & B2).
  destruct ms2 as [|x2 ms2]; [congruence|]. set (l2 := x2 :: ms2) in *.
  destruct r1 as [[ps1 ms1]|].
  - destruct G1 as (N1 & S1 & M1 & q1 & c1 & m1 & A1 & E1 & B1). cbn [Good]. repeat split.
    + intros E. assert (X : In x2 (unique (sort (ms1 ++ l2)))) by (rewrite in_unique, in_sort, in_app_iff; right; now left).
      rewrite E in X. destruct X.
    + apply unique_sorted, sort_sorted.
    + intros Hin. rewrite in_unique, in_sort, in_app_iff in Hin; destruct Hin as [Hin|Hin].
      * apply M1 in Hin as (q & c & X). exists q, c. now left.
      * apply M2 in Hin as (q & c & X). exists q, c. now right.
    + intros (q & c & [X|X]); rewrite in_unique, in_sort, in_app_iff; [left; apply M1|right; apply M2]; eauto.
    + exists q1, c1, m1. split; [now left|]. split; [exact E1|]. intros q' c' m' [X|X]; [eauto|right; eauto].
  - cbn [Good]. repeat split.
    + intros E. assert (X : In x2 (unique (sort l2))) by (rewrite in_unique, in_sort; now left). rewrite E in X. destruct X.
    + apply unique_sorted, sort_sorted.
    + intros Hin. rewrite in_unique, in_sort in Hin. apply M2 in Hin as (q & c & X). exists q, c. now right.
    + intros (q & c & [X|X]); [now apply G1 in X|]. rewrite in_unique, in_sort. apply M2; eauto.
    + exists q2, c2, m2. split; [now right|]. split; [exact E2|]. intros q' c' m' [X|X]; [now apply G1 in X|eauto].
Qed.

Lemma merge_none_good A ps r : Good A ps r -> Good A ps (merge_result None r).
Proof.
  intros G. apply (Good_ext (fun q c m => False \/ A q c m)); [tauto|]. apply merge_good; [now cbn|exact G|tauto].
Qed.

Definition none_set : rset := fun _ _ _ => False.

(** the entry made of one node's handlers *)
Lemma collect_good (hs : N -> option H) q c ps :
  Good (fun q' c' m => q' = q /\ c' = c /\ m < 64 /\ hs m <> None) ps
    (if has_any_handler hs then merge_result None (Some (set_all ps c, collect_allowed_methods hs)) else None).
Proof.
  destruct (has_any_handler hs) eqn:Eh.
  - apply has_any_spec in Eh as (m0 & Hm0). destruct (collect_allowed_methods hs) as [|x l] eqn:Ec; [destruct Hm0|].
    cbn [merge_result]. rewrite <- Ec in *. cbn [Good]. repeat split.
    + intros E. assert (X : In m0 (unique (sort (collect_allowed_methods hs)))) by now rewrite in_unique, in_sort. rewrite E in X. destruct X.
    + apply unique_sorted, sort_sorted.
    + intros Hin. rewrite in_unique, in_sort, in_collect in Hin; destruct Hin as [X Y]. now exists q, c.
    + intros (q' & c' & _ & _ & X). now rewrite in_unique, in_sort, in_collect.
    + exists q, c, m0. rewrite in_collect in Hm0. split; [tauto|]. split; [reflexivity|]. intros q' c' m' (-> & _). now left.
  - cbn. intros q' c' m (-> & -> & X & Y). assert (has_any_handler hs = true); [|congruence].
    apply has_any_spec. exists m. now apply in_collect.
Qed.

Lemma merge_has hs r ps q c (A : rset) : Good A ps r ->
  (forall q0 c0 m0 , A q0 c0 m0 -> Prefer q0 q) ->
  Good (fun q' c' m => A q' c' m \/ (q' = q /\ c' = c /\ m < 64 /\ hs m <> None)) ps
    (if has_any_handler (H := H) hs then merge_result r (Some (set_all ps c, collect_allowed_methods hs)) else r).
Proof.
  intros G HP. destruct (has_any_handler hs) eqn:Eh.
  - apply merge_good; [exact G| |intros q0 c0 m0 q' c' m' X (-> & _); eauto].
    pose proof (collect_good hs q c ps) as G2. rewrite Eh in G2.
    apply has_any_spec in Eh as (m0 & Hm0). cbn [Good]. repeat split.
    + intros E. rewrite E in Hm0. destruct Hm0.
    + unfold collect_allowed_methods. clear. assert (S0 : Sorted.StronglySorted N.lt all_slots).
      { unfold all_slots. generalize 64%nat as n. generalize 0%nat as k. intros k n. revert k. induction n as [|n IH]; intros k; cbn [seq map]; constructor; auto.
        apply Forall_forall. intros y Hy. apply in_map_iff in Hy as (z & <- & Hz). apply in_seq in Hz. lia. }
      induction S0 as [|x l S0 IH Hf]; cbn [filter]; [constructor|]. destruct (is_set (hs x)); [|exact IH]. constructor; [exact IH|].
      apply Forall_forall. intros y Hy. apply filter_In in Hy as [Hy _]. now apply (proj1 (Forall_forall _ _) Hf).
    + intros Hin. apply in_collect in Hin as [X Y]. now exists q, c.
    + intros (q' & c' & _ & _ & X). now apply in_collect.
    + exists q, c, m0. rewrite in_collect in Hm0. split; [tauto|]. split; [reflexivity|]. intros q' c' m' (-> & _). now left.
  - apply (Good_ext A); [|exact G]. intros q' c' m. split; [now left|]. intros [X|(-> & -> & X & Y)]; [exact X|].
    exfalso. assert (has_any_handler hs = true); [|congruence]. apply has_any_spec. exists m. now apply in_collect.
Qed.

Definition Routes (p : list N) (t : node) (segs : list (nat * nat)) : rset :=
  fun q c m => m < 64 /\ lookup t q m <> None /\ SMatch p q segs c.

Lemma find_path_good p : forall segs t ps, Good (Routes p t segs) ps (find_path p t segs ps).
Proof.
  induction segs as [|v segs IH]; intros [hs st pc wc] ps; cbn [find_path].
  - assert (G1 := collect_good hs [] [] ps). cbn [set_all] in G1.
    set (r1 := if has_any_handler hs then _ else _) in *.
    destruct wc as [[n whs]|].
    + pose proof (merge_has whs r1 ps [Wild n] [(n, [])] _ G1) as G2. cbn [set_all] in G2.
      eapply Good_ext; [|apply G2; intros q0 c0 m0 (-> & _); constructor].
      intros q c m. unfold Routes. split.
      * intros [(-> & -> & X & Y)|(-> & -> & X & Y)]; (split; [exact X|]); cbn [lookup]; rewrite ?beq_refl; split; auto; constructor.
      * intros (X & Y & Z). inv Z; cbn [lookup] in Y; [left; auto|]. right. destruct (beq n n0) eqn:Eb; [|congruence].
        apply beq_eq in Eb as ->. auto.
    + eapply Good_ext; [|exact G1]. intros q c m. unfold Routes. split.
      * intros (-> & -> & X & Y). split; [exact X|]. split; [exact Y|constructor].
      * intros (X & Y & Z). inv Z; cbn [lookup] in Y; [auto|congruence].
  - set (seg := substr p v).
    set (r1 := match find_static seg st with Some child => _ | None => None end).
    set (A1 := (fun q c m => exists q', q = Static seg :: q' /\ Routes p (Node hs st pc wc) (v :: segs) q c m) : rset).
    assert (G1 : Good A1 ps r1).
    { unfold r1, A1, Routes. destruct (find_static seg st) as [child|] eqn:Ef.
      - assert (Lk : forall q' m, lookup (Node hs st pc wc) (Static seg :: q') m = lookup child q' m) by (intros; cbn [lookup]; now rewrite Ef).
        apply merge_none_good. specialize (IH child ps). destruct (find_path p child segs ps) as [[ps' ms]|].
        + destruct IH as (N1 & S1 & M1 & q1 & c1 & m1 & (X1 & X2 & X3) & E1 & B1). cbn [Good]. repeat split; auto.
          * intros Hin. apply M1 in Hin as (q & c & X & Y & Z). exists (Static seg :: q), c, q. rewrite Lk. repeat split; auto. unfold seg. now constructor.
          * intros (q & c & q' & -> & X & Y & Z). rewrite Lk in Y. inv Z. apply M1. exists q', c. repeat split; auto.
          * exists (Static seg :: q1), c1, m1. rewrite Lk. split; [exists q1; repeat split; auto; unfold seg; now constructor|].
            split; [exact E1|]. intros q c m (q' & -> & X & Y & Z). rewrite Lk in Y. inv Z.
            match goal with Hq : SMatch p q' segs _ |- _ => destruct (B1 q' _ m (conj X (conj Y Hq))) as [->|P] end; [now left|right; now constructor].
        + cbn. intros q c m (q' & -> & X & Y & Z). rewrite Lk in Y. inv Z. eapply IH. split; [exact X|]. split; [exact Y|eassumption].
      - cbn. intros q c m (q' & -> & X & Y & Z). cbn [lookup] in Y. rewrite Ef in Y. congruence. }
    clearbody r1.
    set (r2 := match pc with Some (n, child) => _ | None => r1 end).
    set (A2 := (fun q c m => exists n q', q = Param n :: q' /\ Routes p (Node hs st pc wc) (v :: segs) q c m) : rset).
    assert (G2 : Good (fun q c m => A1 q c m \/ A2 q c m) ps r2).
    { unfold r2. destruct pc as [[n child]|].
      - apply merge_good; [exact G1| |].
        + assert (Lp : forall q' m, lookup (Node hs st (Some (n, child)) wc) (Param n :: q') m = lookup child q' m) by (intros; cbn [lookup]; now rewrite beq_refl).
          unfold A2, Routes. specialize (IH child (params_set n seg ps)).
          destruct (find_path p child segs (params_set n seg ps)) as [[ps' ms]|].
          * destruct IH as (N1 & S1 & M1 & q1 & c1 & m1 & (X1 & X2 & X3) & E1 & B1). cbn [Good]. repeat split; auto.
            -- intros Hin. apply M1 in Hin as (q & c & X & Y & Z). exists (Param n :: q), ((n, seg) :: c), n, q. rewrite Lp.
               repeat split; auto. unfold seg. now constructor.
            -- intros (q & c & n' & q' & -> & X & Y & Z). cbn [lookup] in Y. destruct (beq n n'); [|congruence]. inv Z. apply M1. eexists q', _. repeat split; eauto.
            -- exists (Param n :: q1), ((n, seg) :: c1), m1. rewrite Lp. split; [exists n, q1; repeat split; auto; unfold seg; now constructor|].
               split; [exact E1|]. intros q c m (n' & q' & -> & X & Y & Z). cbn [lookup] in Y. destruct (beq n n') eqn:Eb; [|congruence].
               apply beq_eq in Eb as ->. inv Z.
               match goal with Hq : SMatch p q' segs _ |- _ => destruct (B1 q' _ m (conj X (conj Y Hq))) as [->|P] end; [now left|right; now constructor].
          * cbn. intros q c m (n' & q' & -> & X & Y & Z). cbn [lookup] in Y. destruct (beq n n'); [|congruence]. inv Z. eapply IH. split; [exact X|]. split; [exact Y|eassumption].
        + intros q c m q' c' m' (q0 & -> & _) (n' & q0' & -> & _). constructor.
      - eapply Good_ext; [|exact G1]. intros q c m. split; [now left|]. intros [X|(n & q' & -> & X & Y & Z)]; [exact X|]. cbn [lookup] in Y. congruence. }
    clearbody r2. destruct wc as [[n whs]|].
    + pose proof (merge_has whs r2 ps [Wild n] [(n, wild_slice p (v :: segs))] _ G2) as G3. cbn [set_all] in G3.
      eapply Good_ext; [|apply G3; intros q0 c0 m0 [(q' & -> & _)|(n' & q' & -> & _)]; constructor].
      intros q c m. unfold A1, A2. split.
      * intros [[(q' & _ & X)|(n' & q' & _ & X)]|(-> & -> & X & Y)]; auto. split; [exact X|]. cbn [lookup]. rewrite beq_refl. split; [exact Y|constructor].
      * intros (X & Y & Z). pose proof Z as Z'. inv Z.
        -- left; left. eexists. split; [reflexivity|]. split; [exact X|]. split; [exact Y|exact Z'].
        -- left; right. eexists _, _. split; [reflexivity|]. split; [exact X|]. split; [exact Y|exact Z'].
        -- right. cbn [lookup] in Y. destruct (beq n n0) eqn:Eb; [|congruence]. apply beq_eq in Eb as ->. auto.
    + eapply Good_ext; [|exact G2]. intros q c m. unfold A1, A2. split.
      * intros [(q' & _ & X)|(n' & q' & _ & X)]; auto.
      * intros (X & Y & Z). pose proof Z as Z'. inv Z.
        -- left. eexists. split; [reflexivity|]. split; [exact X|]. split; [exact Y|exact Z'].
        -- right. eexists _, _. split; [reflexivity|]. split; [exact X|]. split; [exact Y|exact Z'].
        -- cbn [lookup] in Y. congruence.
Qed.

End Tree.
