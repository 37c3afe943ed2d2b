(** Properties of route registration and matching (C56-C60). *)
From Coq Require Sorted.
From Verif Require Import Base UtilSpec UtilModel UtilProofs UtilProps RouteSpec RouteModel RouteProofs RouteTree.
Open Scope N_scope.

(** ** Patterns *)

Lemma pattern_of_string s : Pattern s (map read_segment (map (substr s) (split_path_to_segments s))).
Proof. eexists. split; [apply split_path_tokens|reflexivity]. Qed.

Lemma pattern_unique s p q : Pattern s p -> Pattern s q -> p = q.
Proof. intros (ts & T1 & ->) (us & T2 & ->). now rewrite (tokens_unique _ _ _ _ T1 T2). Qed.

Lemma pattern_is s p : Pattern s p -> p = map read_segment (map (substr s) (split_path_to_segments s)).
Proof. intros Hp. exact (pattern_unique _ _ _ Hp (pattern_of_string s)). Qed.

Lemma segments_nonempty s : ~ In [] (map (substr s) (split_path_to_segments s)).
Proof. exact (tokens_nonempty _ _ _ (split_path_tokens s)). Qed.

Lemma smatch_functional p q segs c : SMatch p q segs c -> forall c', SMatch p q segs c' -> c = c'.
Proof.
  induction 1; intros c' M; inversion M; subst; auto; try (f_equal; auto).
Qed.

Theorem pmatch_captures_unique : forall p path c c', PMatch p path c -> PMatch p path c' -> c = c'.
Proof. intros p path c c'. rewrite !pmatch_iff. intros A B. exact (smatch_functional _ _ _ _ A _ B). Qed.

Lemma prefer_asym p q : Prefer p q -> ~ Prefer q p.
Proof. induction 1; intros P; inversion P; subst; auto. Qed.

Lemma wf_is p : WellFormed p <-> wf_from [] p.
Proof. unfold WellFormed, wf_from. split; [intros (A & B & C)|intros (A & B & _ & C)]; repeat split; auto. Qed.

Lemma smatch_names p q segs c : SMatch p q segs c -> map fst c = names q.
Proof. induction 1; cbn; auto; f_equal; auto. Qed.

Lemma params_set_fresh k v ps : ~ In k (map fst ps) -> params_set k v ps = ps ++ [(k, v)].
Proof.
  induction ps as [|[k' v'] ps IH]; cbn [params_set map In fst]; [reflexivity|]. intros Hn.
  replace (beq k' k) with false by (symmetry; apply beq_neq; intros ->; apply Hn; now left).
  rewrite IH; [reflexivity|]. intros X; apply Hn; now right.
Qed.

Lemma set_all_fresh caps : forall ps, NoDup (map fst caps) -> (forall k, In k (map fst caps) -> ~ In k (map fst ps)) ->
  set_all ps caps = ps ++ caps.
Proof.
  induction caps as [|[k v] caps IH]; intros ps Hn Hd; cbn [set_all]; [now rewrite app_nil_r|].
  cbn in Hn. inversion Hn as [|? ? H1 H2]; subst. rewrite params_set_fresh by (apply Hd; now left).
  rewrite IH; [now rewrite <- app_assoc|exact H2|]. intros k' Hk' X. rewrite map_app, in_app_iff in X. destruct X as [X|[<-|[]]]; [|auto].
  now apply (Hd k'); [right|].
Qed.

(** ** The registry and the tree *)

Section Registry.
Context {H : Type}.
Notation node := (node H).

Lemma method_slot_lt m : method_slot m < 64 <-> (0 <= m < 64)%Z.
Proof.
  unfold method_slot, METHOD_SLOT_COUNT. destruct ((m <? 0)%Z || (64 <=? m)%Z) eqn:E; [|apply orb_false_iff in E as [E1 E2]; lia].
  apply orb_true_iff in E as [E|E]; lia.
Qed.

Lemma method_slot_inj m m' : (0 <= m < 64)%Z -> (0 <= m' < 64)%Z -> method_slot m = method_slot m' -> m = m'.
Proof.
  unfold method_slot. intros A B. replace ((m <? 0)%Z || (64 <=? m)%Z) with false by lia.
  replace ((m' <? 0)%Z || (64 <=? m')%Z) with false by lia. lia.
Qed.

Lemma method_slot_of_N s : s < 64 -> method_slot (Z.of_N s) = s.
Proof. unfold method_slot. intros A. replace ((Z.of_N s <? 0)%Z || (64 <=? Z.of_N s)%Z) with false by lia. lia. Qed.

Lemma add_route_spec (t : node) s m h p : Pattern s p ->
  let '(t', ok) := add_route t s m h in
  (ok = true <-> (0 <= m < 64)%Z /\ WellFormed p /\ compat t p)
  /\ (ok = true -> forall q x, lookup t' q x = after p (method_slot m) h t q x)
  /\ (ok = false -> forall q x, lookup t' q x = lookup t q x).
Proof.
  intros Hp. pose proof (add_from_spec _ t [] (method_slot m) h (segments_nonempty s)) as A. cbv zeta in A.
  unfold add_route. rewrite <- (pattern_is s p Hp) in A.
  destruct (add_from t (map (substr s) (split_path_to_segments s)) [] (method_slot m) h) as [t' ok].
  rewrite method_slot_lt in A. rewrite wf_is. exact A.
Qed.

(** [InForceT t R]: the tree holds exactly the registrations of R, last one winning. *)
Definition holds (t : node) (R : list (call H)) : Prop :=
  forall q x, lookup t q x =
    fold_left (fun acc '(s, m, h) => if pat_eq_dec (map read_segment (map (substr s) (split_path_to_segments s))) q
                                     then if x =? method_slot m then Some h else acc else acc) R None.

Definition all_valid (R : list (call H)) : Prop :=
  Forall (fun '(s, m, h) => (0 <= m < 64)%Z /\ exists p, Pattern s p /\ WellFormed p) R.

Lemma add_all_app (t : node) c1 c2 : add_all t (c1 ++ c2) =
  let '(t1, R1) := add_all t c1 in let '(t2, R2) := add_all t1 c2 in (t2, R1 ++ R2).
Proof.
  revert t; induction c1 as [|[[s m] h] c1 IH]; intros t; cbn [add_all app].
  - now destruct (add_all t c2).
  - destruct (add_route t s m h) as [t1 ok]. rewrite IH. destruct (add_all t1 c1) as [t2 R1]. destruct (add_all t2 c2) as [t3 R2].
    now destruct ok.
Qed.

Lemma holds_history calls : let '(t, R) := add_all (@empty_node H) calls in holds t R /\ all_valid R.
Proof.
  induction calls as [|[[s m] h] calls IH] using rev_ind.
  - cbn. split; [|constructor]. intros q x. apply lookup_empty.
  - rewrite add_all_app. destruct (add_all empty_node calls) as [t R]. cbn [add_all].
    pose proof (add_route_spec t s m h _ (pattern_of_string s)) as A.
    destruct (add_route t s m h) as [t' ok]. destruct A as (A1 & A2 & A3). destruct IH as [I1 I2]. destruct ok.
    + split.
      * intros q x. rewrite (A2 eq_refl), fold_left_app. cbn [fold_left]. unfold after. rewrite <- (I1 q x).
        destruct (pat_eq_dec q _) as [E|E], (pat_eq_dec _ q) as [E'|E']; congruence || reflexivity.
      * apply Forall_app. split; [exact I2|]. destruct (proj1 A1 eq_refl) as (X & Y & _). constructor; [|constructor].
        split; [exact X|]. eexists. split; [apply pattern_of_string|exact Y].
    + rewrite app_nil_r. split; [|exact I2]. intros q x. rewrite (A3 eq_refl). apply I1.
Qed.

Lemma inforce_lookup t R p m h : holds t R -> all_valid R ->
  (InForce R p m h <-> (0 <= m < 64)%Z /\ lookup t p (method_slot m) = Some h).
Proof.
  intros Hh Hv. rewrite Hh. clear Hh t. induction R as [|[[s1 m1] h1] R IH] using rev_ind.
  - cbn. split; [|intros (_ & X); discriminate]. intros (pre & s & post & E & _). destruct pre; discriminate.
  - apply Forall_app in Hv as [Hv Hv1]. apply Forall_inv in Hv1; destruct Hv1 as (Hm1 & p1 & Hp1 & _). specialize (IH Hv).
    rewrite fold_left_app. cbn [fold_left]. pose proof (pattern_of_string s1) as Hp.
    set (p0 := map read_segment (map (substr s1) (split_path_to_segments s1))) in *.
    assert (Hlast : InForce (R ++ [(s1, m1, h1)]) p m h <->
              (p0 = p /\ m1 = m /\ h1 = h) \/ (~ (p0 = p /\ m1 = m) /\ InForce R p m h)).
    { split.
      - intros (pre & s & post & E & Hs & Hpost). destruct post as [|x post _] using rev_ind.
        + apply app_inj_tail in E as [<- E]. injection E as -> -> ->. left. split; [now apply (pattern_unique s)|auto].
        + rewrite app_comm_cons, app_assoc in E. apply app_inj_tail in E as [-> <-]. right. split.
          * intros (E1 & E2). subst m. apply (Hpost s1 h1); [apply in_app_iff; right; now left|]. now rewrite <- E1.
          * exists pre, s, post. split; [reflexivity|]. split; [exact Hs|]. intros s' h' Hin. apply (Hpost s' h'). apply in_app_iff; now left.
      - intros [(<- & -> & ->)|(Hn & pre & s & post & -> & Hs & Hpost)].
        + exists R, s1, []. split; [reflexivity|]. split; [exact Hp|]. intros s' h' [].
        + exists pre, s, (post ++ [(s1, m1, h1)]). split; [now rewrite <- app_assoc|]. split; [exact Hs|].
          intros s' h' Hin. apply in_app_iff in Hin as [Hin|[E|[]]]; [now apply (Hpost s' h')|]. injection E as <- -> <-.
          intros X. apply Hn. split; [|reflexivity]. now apply (pattern_unique s1). }
    rewrite Hlast, IH. clear Hlast IH. destruct (pat_eq_dec p0 p) as [->|Hne].
    + destruct (method_slot m =? method_slot m1) eqn:Em.
      * apply N.eqb_eq in Em. split.
        -- intros [(_ & -> & ->)|(Hn & Hm & _)]; [auto|]. exfalso. apply Hn. split; [reflexivity|]. now apply method_slot_inj.
        -- intros (Hm & E). injection E as ->. left. repeat split. now apply method_slot_inj.
      * apply N.eqb_neq in Em. split; [intros [(_ & -> & _)|(_ & X)]; [congruence|exact X]|]. intros X. right. split; [|exact X].
        intros (_ & ->). congruence.
    + split; [intros [(X & _)|(_ & X)]; [congruence|exact X]|]. intros X. right. split; [|exact X]. intros (Y & _). congruence.
Qed.

Lemma lookup_names t R p x h : holds t R -> all_valid R -> lookup t p x = Some h -> x < 64 /\ NoDup (names p).
Proof.
  intros Hh Hv. rewrite Hh. clear Hh t. induction R as [|[[s1 m1] h1] R IH] using rev_ind; [discriminate|].
  apply Forall_app in Hv as [Hv Hv1]. apply Forall_inv in Hv1; destruct Hv1 as (Hm1 & p1 & Hp1 & Hwf).
  rewrite fold_left_app. cbn [fold_left]. destruct (pat_eq_dec _ p) as [E|E]; [|auto]. destruct (x =? method_slot m1) eqn:Ex; [|auto].
  intros _. apply N.eqb_eq in Ex as ->. split; [now apply method_slot_lt|]. rewrite <- E. apply pattern_is in Hp1. rewrite <- Hp1. apply Hwf.
Qed.

End Registry.

(** ** C56: the route that serves a request *)

Theorem match_serves {H} : forall (calls : list (call H)) path m caps h,
  let '(t, R) := add_all empty_node calls in
  match_route t path m = Some (caps, h) <-> Serves R path m caps h.
Proof.
  intros calls path m caps h. pose proof (holds_history calls) as Hh. destruct (add_all empty_node calls) as [t R].
  destruct Hh as [Hh Hv]. unfold match_route.
  pose proof (match_rec_spec path (split_path_to_segments path) t (method_slot m) []) as A.
  destruct (method_slot m <? METHOD_SLOT_COUNT) eqn:Es.
  2:{ split; [discriminate|]. intros (p & Hf & _). apply (inforce_lookup t R) in Hf as [Hm _]; auto.
      apply method_slot_lt in Hm. apply N.ltb_ge in Es. unfold METHOD_SLOT_COUNT in Es. lia. }
  apply N.ltb_lt in Es. assert (Hm : (0 <= m < 64)%Z) by now apply method_slot_lt.
  destruct (match_rec path t (split_path_to_segments path) (method_slot m) []) as [[ps h0]|].
  - destruct A as (q & c & Hl & Hs & -> & Hb).
    assert (Hset : set_all [] c = c).
    { rewrite set_all_fresh; [reflexivity| |intros k _ []]. rewrite (smatch_names _ _ _ _ Hs). eapply lookup_names; eauto. }
    rewrite Hset. split.
    + intros E. injection E as <- <-. exists q. split; [now apply (inforce_lookup t R)|]. split; [now apply pmatch_iff|].
      intros q' h' c' Hf Hp. apply (inforce_lookup t R) in Hf as [_ Hf]; auto. apply (Hb q' h' c'); [exact Hf|now apply pmatch_iff].
    + intros (p & Hf & Hp & Hbest). apply (inforce_lookup t R) in Hf as [_ Hf]; auto. apply pmatch_iff in Hp.
      assert (p = q) as ->.
      { destruct (Hb p h caps Hf Hp) as [->|P]; [reflexivity|].
        destruct (Hbest q h0 c) as [->|P']; [now apply (inforce_lookup t R)|now apply pmatch_iff|reflexivity|].
        now apply prefer_asym in P. }
      rewrite Hl in Hf. injection Hf as ->. now rewrite (smatch_functional _ _ _ _ Hs _ Hp).
  - split; [discriminate|]. intros (p & Hf & Hp & _). exfalso. apply (inforce_lookup t R) in Hf as [_ Hf]; auto.
    apply (A p h caps Hf). now apply pmatch_iff.
Qed.

Theorem match_none {H} : forall (calls : list (call H)) path m,
  let '(t, R) := add_all empty_node calls in
  match_route t path m = None <-> ~ Allows R path m.
Proof.
  intros calls path m. pose proof (match_serves calls path m) as A. pose proof (holds_history calls) as Hh.
  destruct (add_all empty_node calls) as [t R]. destruct Hh as [Hh Hv]. split.
  - intros E (p & h & c & Hf & Hp). apply (inforce_lookup t R) in Hf as [Hm Hf]; auto. unfold match_route in E.
    apply method_slot_lt in Hm. replace (method_slot m <? METHOD_SLOT_COUNT) with true in E by (symmetry; now apply N.ltb_lt).
    pose proof (match_rec_spec path (split_path_to_segments path) t (method_slot m) []) as B. rewrite E in B.
    apply (B p h c Hf). now apply pmatch_iff.
  - intros Hn. destruct (match_route t path m) as [[c h]|] eqn:E; [|reflexivity]. exfalso. apply Hn.
    destruct (proj1 (A c h) eq_refl) as (p & Hf & Hp & _). now exists p, h, c.
Qed.

(** ** C58: the methods a path supports *)

Theorem allowed_methods_exact {H} : forall (calls : list (call H)) path,
  let '(t, R) := add_all empty_node calls in
  match allowed_methods t path with
  | Some (_, ms) => ms <> [] /\ Sorted.StronglySorted N.lt ms /\ forall m, In m ms <-> Allows R path (Z.of_N m)
  | None => forall m, ~ Allows R path m
  end.
Proof.
  intros calls path. pose proof (holds_history calls) as Hh. destruct (add_all empty_node calls) as [t R].
  destruct Hh as [Hh Hv]. unfold allowed_methods.
  pose proof (find_path_good path (split_path_to_segments path) t []) as G.
  destruct (find_path path t (split_path_to_segments path) []) as [[ps ms]|].
  - destruct G as (N1 & S1 & M1 & _). repeat split; auto.
    + intros Hin. apply M1 in Hin as (q & c & Hm & Hl & Hs). destruct (lookup t q m) as [h|] eqn:El; [|congruence].
      exists q, h, c. split; [|now apply pmatch_iff]. apply (inforce_lookup t R); auto. split; [lia|]. now rewrite method_slot_of_N.
    + intros (q & h & c & Hf & Hp). apply (inforce_lookup t R) in Hf as [Hm Hf]; auto. apply M1. exists q, c.
      rewrite method_slot_of_N in Hf by lia. split; [lia|]. split; [congruence|now apply pmatch_iff].
  - intros m (q & h & c & Hf & Hp). apply (inforce_lookup t R) in Hf as [Hm Hf]; auto. apply (G q c (method_slot m)).
    split; [now apply method_slot_lt|]. split; [congruence|now apply pmatch_iff].
Qed.

(** ** C57: which registrations are accepted, and what a rejected one leaves behind *)

Section Claims.
Context {H : Type}.
Notation node := (node H).

(** The capture name in use below the pattern prefix pre: of a parameter (k = true) or of a wildcard. *)
Fixpoint claim (k : bool) (t : node) (pre : list pseg) : option (list N) :=
  let '(Node hs st pc wc) := t in
  match pre with
  | [] => if k then option_map fst pc else option_map fst wc
  | Static s :: r => match find_static s st with Some c => claim k c r | None => None end
  | Param n :: r => match pc with Some (m, c) => if beq m n then claim k c r else None | None => None end
  | Wild _ :: _ => None
  end.

Definition capture (k : bool) (n : list N) : pseg := if k then Param n else Wild n.

Lemma claim_empty k pre : claim k empty_node pre = None.
Proof. destruct k, pre as [|[?|?|?] ?]; reflexivity. Qed.

Lemma compat_claims (t : node) q : compat t q <->
  forall k pre n q', q = pre ++ capture k n :: q' -> forall n', claim k t pre = Some n' -> n' = n.
Proof.
  revert t. induction q as [|x q IH]; intros [hs st pc wc].
  { cbn. split; [|auto]. intros _ k pre n q' E. destruct pre; discriminate. }
  split.
  - intros Hc k pre n q' E n' Hn'. destruct pre as [|y pre].
    + cbn in E. injection E as -> ->. destruct k; cbn in Hc, Hn'.
      * destruct pc as [[m c]|]; [|discriminate]. cbn in Hn'. injection Hn' as <-. apply Hc.
      * destruct wc as [[m c]|]; [|discriminate]. cbn in Hn'. injection Hn' as <-. apply Hc.
    + cbn in E. injection E as -> ->. destruct y as [s|m|m]; cbn in Hc, Hn'; [| |discriminate].
      * destruct (find_static s st) as [c|]; [|discriminate]. exact (proj1 (IH c) Hc k pre n q' eq_refl n' Hn').
      * destruct pc as [[m0 c]|]; [|discriminate]. destruct Hc as [-> Hc]. rewrite beq_refl in Hn'. exact (proj1 (IH c) Hc k pre n q' eq_refl n' Hn').
  - intros Hc. destruct x as [s|m|m]; cbn.
    + destruct (find_static s st) as [c|] eqn:Ef; [|exact I]. apply IH. intros k pre n q' -> n' Hn'.
      apply (Hc k (Static s :: pre) n q' eq_refl n'). cbn. now rewrite Ef.
    + destruct pc as [[m0 c]|]; [|exact I]. assert (m0 = m) as -> by (now apply (Hc true [] m q)). split; [reflexivity|].
      apply IH. intros k pre n q' -> n' Hn'. apply (Hc k (Param m :: pre) n q' eq_refl n'). cbn. now rewrite beq_refl.
    + destruct wc as [[m0 c]|]; [|exact I]. now apply (Hc false [] m q).
Qed.

Lemma add_from_claims : forall segs (t : node) seen slot h, ~ In [] segs ->
  let q := map read_segment segs in
  let '(t', ok) := add_from t segs seen slot h in
  (forall k pre n, claim k t pre = Some n -> claim k t' pre = Some n)
  /\ (forall k pre n, claim k t' pre = Some n -> claim k t pre = Some n \/ exists q', q = pre ++ capture k n :: q')
  /\ (ok = true -> forall k pre n q', q = pre ++ capture k n :: q' -> claim k t' pre = Some n).
Proof.
  induction segs as [|seg rest IH]; intros [hs st pc wc] seen slot h Hne.
  { cbn [map add_from]. destruct (store hs slot h) as [hs' ok].
    split; [|split]; [intros k [|[u1|u1|u1] u2] n E; exact E | intros k [|[u1|u1|u1] u2] n E; left; exact E |].
    intros _ k pre n q' E. destruct pre; discriminate. }
  cbn [map add_from]. destruct seg as [|c name]; [exfalso; apply Hne; now left|].
  assert (Hne' : ~ In [] rest) by (intros X; apply Hne; now right).
  destruct (read_segment_cases c name) as [(-> & Er)|[(-> & Er)|(Hc1 & Hc2 & Er)]]; rewrite Er.
  - change (42 =? 42) with true. cbv iota.
    assert (Same : (forall k pre n, claim k (Node hs st pc wc) pre = Some n -> claim k (Node hs st pc wc) pre = Some n)
       /\ (forall k pre n, claim k (Node hs st pc wc) pre = Some n -> claim k (Node hs st pc wc) pre = Some n \/ exists q', Wild name :: map read_segment rest = pre ++ capture k n :: q')
       /\ (false = true -> forall k pre n q', Wild name :: map read_segment rest = pre ++ capture k n :: q' -> claim k (Node hs st pc wc) pre = Some n))
      by (repeat split; auto; discriminate).
    destruct name as [|c name]; [exact Same|]. destruct rest as [|r1 rest]; [|exact Same]. destruct (mem_name (c :: name) seen); [exact Same|].
    set (nm := c :: name) in *. cbn [map].
    assert (New : forall whs0 whs' ok, (wc = None \/ wc = Some (nm, whs0)) ->
       (forall k pre n, claim k (Node hs st pc wc) pre = Some n -> claim k (Node hs st pc (Some (nm, whs'))) pre = Some n)
       /\ (forall k pre n, claim k (Node hs st pc (Some (nm, whs'))) pre = Some n -> claim k (Node hs st pc wc) pre = Some n \/ exists q', [Wild nm] = pre ++ capture k n :: q')
       /\ (ok = true -> forall k pre n q', [Wild nm] = pre ++ capture k n :: q' -> claim k (Node hs st pc (Some (nm, whs'))) pre = Some n)).
    { intros whs0 whs' ok Hwc. split; [|split].
      - intros k [|[u1|u1|u1] u2] n E; try exact E. destruct k; [exact E|]. destruct Hwc as [->| ->]; [discriminate|exact E].
      - intros k [|[u1|u1|u1] u2] n E; try (left; exact E). destruct k; [left; exact E|]. assert (n = nm) as -> by (cbn in E; congruence). right. exists []. reflexivity.
      - intros _ k pre n q' E. destruct pre as [|y [|z pre]]; try discriminate. injection E as E1 E2. destruct k; [discriminate|].
        injection E1 as <-. reflexivity. }
    destruct wc as [[wname whs]|].
    + destruct (beq wname nm) eqn:Ew; [|exact Same]. apply beq_eq in Ew as ->. destruct (store whs slot h) as [whs' ok]. apply (New whs). now right.
    + destruct (store no_handlers slot h) as [whs' ok]. apply (New no_handlers). now left.
  - change (58 =? 42) with false. change (58 =? 58) with true. cbv iota.
    set (q := map read_segment rest) in *.
    assert (Same : (forall k pre n, claim k (Node hs st pc wc) pre = Some n -> claim k (Node hs st pc wc) pre = Some n)
       /\ (forall k pre n, claim k (Node hs st pc wc) pre = Some n -> claim k (Node hs st pc wc) pre = Some n \/ exists q', Param name :: q = pre ++ capture k n :: q')
       /\ (false = true -> forall k pre n q', Param name :: q = pre ++ capture k n :: q' -> claim k (Node hs st pc wc) pre = Some n))
      by (repeat split; auto; discriminate).
    destruct name as [|c name]; [exact Same|]. destruct (mem_name (c :: name) seen); [exact Same|].
    set (nm := c :: name) in *.
    assert (New : forall child0 child ok,
       (pc = None /\ child0 = empty_node \/ pc = Some (nm, child0)) ->
       (forall k pre n, claim k child0 pre = Some n -> claim k child pre = Some n)
       /\ (forall k pre n, claim k child pre = Some n -> claim k child0 pre = Some n \/ exists q', q = pre ++ capture k n :: q')
       /\ (ok = true -> forall k pre n q', q = pre ++ capture k n :: q' -> claim k child pre = Some n) ->
       (forall k pre n, claim k (Node hs st pc wc) pre = Some n -> claim k (Node hs st (Some (nm, child)) wc) pre = Some n)
       /\ (forall k pre n, claim k (Node hs st (Some (nm, child)) wc) pre = Some n -> claim k (Node hs st pc wc) pre = Some n \/ exists q', Param nm :: q = pre ++ capture k n :: q')
       /\ (ok = true -> forall k pre n q', Param nm :: q = pre ++ capture k n :: q' -> claim k (Node hs st (Some (nm, child)) wc) pre = Some n)).
    { intros child0 child ok Hpc (I1 & I2 & I3). split; [|split].
      - intros k [|[u1|m|u1] pre] n E; try exact E.
        + destruct k; [|exact E]. destruct Hpc as [[-> _]| ->]; [discriminate|exact E].
        + cbn [claim] in E |- *. destruct Hpc as [[-> _]| ->]; [discriminate|]. destruct (beq nm m); [now apply I1|discriminate].
      - intros k [|[u1|m|u1] pre] n E; try (left; exact E).
        + destruct k; [|left; exact E]. assert (n = nm) as -> by (cbn in E; congruence). right. exists q. reflexivity.
        + cbn [claim] in E. destruct (beq nm m) eqn:Eb; [|discriminate]. apply beq_eq in Eb as <-. apply I2 in E as [E|(q' & ->)].
          * left. cbn [claim]. destruct Hpc as [[-> ->]| ->]; [rewrite claim_empty in E; discriminate|]. now rewrite beq_refl.
          * right. exists q'. reflexivity.
      - intros Hok k pre n q' E. destruct pre as [|y pre].
        + cbn in E. injection E as E1 E2. destruct k; [|discriminate]. injection E1 as <-. reflexivity.
        + cbn in E. injection E as <- E. cbn [claim]. rewrite beq_refl. eapply I3; eauto. }
    destruct pc as [[pname child0]|].
    + destruct (beq pname nm) eqn:Ew; [|exact Same]. apply beq_eq in Ew as ->. specialize (IH child0 (nm :: seen) slot h Hne').
      cbv zeta in IH. fold q in IH. destruct (add_from child0 rest (nm :: seen) slot h) as [child ok]. apply (New child0); [now right|exact IH].
    + specialize (IH empty_node (nm :: seen) slot h Hne'). cbv zeta in IH. fold q in IH.
      destruct (add_from empty_node rest (nm :: seen) slot h) as [child ok]. apply (New empty_node); [now left|exact IH].
  - replace (c =? 42) with false by (symmetry; now apply N.eqb_neq).
    replace (c =? 58) with false by (symmetry; now apply N.eqb_neq).
    set (sg := c :: name) in *. set (q := map read_segment rest) in *. cbv zeta.
    set (child0 := match find_static sg st with Some n => n | None => empty_node end).
    specialize (IH child0 seen slot h Hne'). fold q in IH. cbv zeta in IH.
    destruct (add_from child0 rest seen slot h) as [child ok]. destruct IH as (I1 & I2 & I3).
    assert (Hcl : forall k pre, claim k (Node hs st pc wc) (Static sg :: pre) = claim k child0 pre).
    { intros k pre. cbn [claim]. unfold child0. destruct (find_static sg st); [reflexivity|]. now rewrite claim_empty. }
    split; [|split].
    + intros k [|[s'|m|u1] pre] n E; try exact E. destruct (bytes_eq_dec s' sg) as [->|Hs'].
      * rewrite Hcl in E. cbn [claim]. rewrite find_put_same. now apply I1.
      * cbn [claim] in *. now rewrite find_put_other.
    + intros k [|[s'|m|u1] pre] n E; try (left; exact E). destruct (bytes_eq_dec s' sg) as [->|Hs'].
      * cbn [claim] in E. rewrite find_put_same in E. rewrite Hcl. apply I2 in E as [E|(q' & ->)]; [now left|right; now exists q'].
      * left. cbn [claim] in *. now rewrite find_put_other in E.
    + intros Hok k pre n q' E. destruct pre as [|y pre]; [destruct k; discriminate|]. cbn in E. injection E as <- E.
      cbn [claim]. rewrite find_put_same. eapply I3; eauto.
Qed.

(** names in use in the tree after a history all of whose calls were accepted *)
Lemma claims_history calls : let '(t, R) := add_all (@empty_node H) calls in
  (forall s m h p, In (s, m, h) R -> Pattern s p -> forall k pre n q', p = pre ++ capture k n :: q' -> claim k t pre = Some n)
  /\ (R = calls -> forall k pre n, claim k t pre = Some n -> exists s m h p q', In (s, m, h) R /\ Pattern s p /\ p = pre ++ capture k n :: q').
Proof.
  induction calls as [|[[s m] h] calls IH] using rev_ind.
  - cbn. split; [intros s m h p []|]. intros _ k pre n E. destruct k, pre as [|[?|?|?] ?]; discriminate.
  - rewrite add_all_app. destruct (add_all empty_node calls) as [t R] eqn:Et. cbn [add_all].
    pose proof (add_from_claims _ t [] (method_slot m) h (segments_nonempty s)) as A. cbv zeta in A.
    fold (add_route t s m h) in A.
    destruct (add_route t s m h) as [t' ok]. destruct A as (A1 & A2 & A3). destruct IH as [I1 I2]. split.
    + intros s0 m0 h0 p0 Hin Hp k pre n q' E. apply in_app_iff in Hin as [Hin|Hin]; [apply A1; eapply I1; eauto|].
      destruct ok; [|destruct Hin]. destruct Hin as [X|[]]. injection X as <- <- <-.
      eapply A3; [reflexivity|]. rewrite <- (pattern_is s p0 Hp). exact E.
    + intros ER k pre n E. destruct ok.
      2:{ exfalso. rewrite app_nil_r in ER.
          assert (Hle : forall c (t : node), (length (snd (add_all t c)) <= length c)%nat).
          { induction c as [|[[? ?] ?] c IHc]; intros t0; cbn [add_all]; [reflexivity|]. destruct (add_route t0 l z h0) as [t1 ok1].
            specialize (IHc t1). destruct (add_all t1 c) as [t2 acc]. destruct ok1; cbn in *; lia. }
          specialize (Hle calls empty_node). rewrite Et in Hle. cbn in Hle. subst R. rewrite app_length in Hle. cbn in Hle. lia. }
      apply app_inj_tail in ER as [ER _]. apply A2 in E as [E|(q' & E)].
      * destruct (I2 ER k pre n E) as (s0 & m0 & h0 & p0 & q0 & X & Y & Z). exists s0, m0, h0, p0, q0. split; [apply in_app_iff; now left|auto].
      * exists s, m, h, (map read_segment (map (substr s) (split_path_to_segments s))), q'. split; [apply in_app_iff; right; now left|]. split; [apply pattern_of_string|exact E].
Qed.

Lemma clash_is p q : Clash p q <-> exists k pre m n p' q', m <> n /\ p = pre ++ capture k m :: p' /\ q = pre ++ capture k n :: q'.
Proof.
  split.
  - intros (pre & m & n & p' & q' & Hn & [(-> & ->)|(-> & ->)]); [exists true|exists false]; now exists pre, m, n, p', q'.
  - intros (k & pre & m & n & p' & q' & Hn & -> & ->). exists pre, m, n, p', q'. split; [exact Hn|]. destruct k; auto.
Qed.

End Claims.

Theorem registration_exact {H} : forall (calls : list (call H)) s m h p, Pattern s p ->
  let '(t, R) := add_all empty_node calls in
  let '(t', ok) := add_route t s m h in
  (ok = true -> (0 <= m < 64)%Z /\ WellFormed p /\ forall s' m' h' p', In (s', m', h') R -> Pattern s' p' -> ~ Clash p p')
  /\ (R = calls -> (0 <= m < 64)%Z -> WellFormed p ->
      (forall s' m' h' p', In (s', m', h') R -> Pattern s' p' -> ~ Clash p p') -> ok = true)
  /\ (ok = false -> forall path m', match_route t' path m' = match_route t path m' /\
        allowed_methods t' path = allowed_methods t path).
Proof.
  intros calls s m h p Hp. pose proof (claims_history calls) as C. pose proof (holds_history calls) as Hh0.
  destruct (add_all empty_node calls) as [t R] eqn:Et.
  pose proof (add_route_spec t s m h p Hp) as A. destruct (add_route t s m h) as [t' ok] eqn:Ea. destruct A as (A1 & A2 & A3).
  destruct C as [C1 C2]. split; [|split].
  - intros Hok. apply A1 in Hok as (X & Y & Z). repeat split; auto; try apply Y; try lia.
    intros s' m' h' p' Hin Hp' Hcl. apply clash_is in Hcl as (k & pre & a & b & p1 & q1 & Hn & -> & ->).
    apply Hn. symmetry. exact (proj1 (compat_claims t _) Z k pre a p1 eq_refl b (C1 s' m' h' _ Hin Hp' k pre b q1 eq_refl)).
  - intros ER Hm Hwf Hcl. apply A1. repeat split; try lia; try apply Hwf. apply compat_claims. intros k pre n q' -> n' Hn'.
    destruct (C2 ER k pre n' Hn') as (s0 & m0 & h0 & p0 & q0 & X & Y & Z). destruct (bytes_eq_dec n' n) as [E|E]; [exact E|].
    exfalso. apply (Hcl s0 m0 h0 p0 X Y). apply clash_is. exists k, pre, n, n', q', q0. repeat split; auto.
  - intros -> path m'. specialize (A3 eq_refl). split.
    + pose proof (match_serves (calls ++ [(s, m, h)]) path m') as B'. pose proof (match_serves calls path m') as B.
      rewrite Et in B. rewrite add_all_app, Et in B'. cbn [add_all] in B'. rewrite Ea, app_nil_r in B'.
      destruct (match_route t' path m') as [[c1 h1]|].
      * symmetry. apply B, B'. reflexivity.
      * destruct (match_route t path m') as [[c1 h1]|]; [|reflexivity]. apply B', B. reflexivity.
    + pose proof (find_path_good path (split_path_to_segments path) t' []) as G'.
      pose proof (find_path_good path (split_path_to_segments path) t []) as G.
      assert (Er : forall q c x, Routes path t' (split_path_to_segments path) q c x <-> Routes path t (split_path_to_segments path) q c x).
      { intros q c x. unfold Routes. now rewrite A3. }
      apply (Good_ext _ _ _ _ Er) in G'. unfold allowed_methods. revert G' G.
      generalize (find_path path t' (split_path_to_segments path) []), (find_path path t (split_path_to_segments path) []). clear.
      intros [[ps1 ms1]|] [[ps2 ms2]|]; cbn.
      * intros (N1 & S1 & M1 & q1 & c1 & m1 & X1 & E1 & B1) (N2 & S2 & M2 & q2 & c2 & m2 & X2 & E2 & B2).
        assert (ms1 = ms2) as ->.
        { assert (Hset : forall x, In x ms1 <-> In x ms2) by (intros x; rewrite M1, M2; reflexivity). clear -S1 S2 Hset.
          revert ms2 S2 Hset. induction S1 as [|x l S1 IH F1]; intros l2 S2 Hset.
          - destruct l2 as [|y l2]; [reflexivity|]. exfalso. apply (Hset y). now left.
          - destruct S2 as [|y l2 S2 F2]; [exfalso; apply (Hset x); now left|].
            assert (x = y) as ->.
            { destruct (proj1 (Hset x) (or_introl eq_refl)) as [E|E]; [auto|]. destruct (proj2 (Hset y) (or_introl eq_refl)) as [E'|E']; [auto|].
              pose proof (proj1 (Forall_forall _ _) F1 y E'). pose proof (proj1 (Forall_forall _ _) F2 x E). lia. }
            f_equal. apply IH; [exact S2|]. intros z. split; intros Hz.
            + destruct (proj1 (Hset z) (or_intror Hz)) as [E|E]; [|exact E]. pose proof (proj1 (Forall_forall _ _) F1 z Hz). lia.
            + destruct (proj2 (Hset z) (or_intror Hz)) as [E|E]; [|exact E]. pose proof (proj1 (Forall_forall _ _) F2 z Hz). lia. }
        assert (q1 = q2) as ->.
        { destruct (B1 _ _ _ X2) as [->|P]; [reflexivity|]. destruct (B2 _ _ _ X1) as [->|P']; [reflexivity|]. now apply prefer_asym in P. }
        destruct X1 as (_ & _ & Z1), X2 as (_ & _ & Z2). now rewrite E1, E2, (smatch_functional _ _ _ _ Z1 _ Z2).
      * intros (_ & _ & _ & q1 & c1 & m1 & X1 & _) Hn. now apply Hn in X1.
      * intros Hn (_ & _ & _ & q1 & c1 & m1 & X1 & _). now apply Hn in X1.
      * reflexivity.
Qed.

(** A rejected registration can still use up a capture name: the full statement, "rejected calls change nothing",
    is false for later registrations. *)
Theorem rejected_registration_keeps_names_refuted :
  exists (bad good : list N), let '(t, ok1) := add_route (@empty_node N) bad 1 7 in
    ok1 = false /\ snd (add_route t good 1 8) = false /\ snd (add_route (@empty_node N) good 1 8) = true.
Proof. exists (str "/a/:x/*rest/b"), (str "/a/:id"). vm_compute. auto. Qed.
