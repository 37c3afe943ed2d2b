(** The schema validator against the meaning of schemas. *)
From Verif Require Import Base UtilModel StaticModel ValJson ValModel ValSpec ValProps.
From Coq Require Import SpecFloat.
Local Open Scope N_scope.

Section Val.
Variable rx : list N -> option (list N -> option bool).
Variable dump : json -> list N.
Variable same : json -> json -> bool.
Notation vr := (validate_recursive rx dump same).

Lemma required_post C p members s path es :
  Post C (match get s "required" with Some def => validate_required_keyword dump p members def path es | None => Done true es end) es
    match get s "required" with
    | None => True
    | Some (JArr l) => forall j, In j l -> exists name x, j = JStr name /\ lookup name members = Some x
    | Some _ => False
    end.
Proof.
  destruct (get s "required") as [def|]; [|now apply post_true]. unfold validate_required_keyword.
  destruct def; try (apply post_add; tauto).
  apply (post_iff C _ es (Forall (fun j => exists name x, j = JStr name /\ lookup name members = Some x) l)); [apply Forall_forall|]. apply each_post0. intros j es' _. cbv beta.
  destruct j as [| | | | |name| |]; try (apply post_add; intros (? & ? & H & _); discriminate H).
  destruct (lookup name members) as [x|] eqn:E; [apply post_true; now exists name, x|]. apply post_add. intros (n & x & H & H2). injection H as <-. congruence.
Qed.

Lemma any_of_post C f (P : json -> Prop) es x : forall l, (forall s, In s l -> VGood C (f s) [] (P s)) ->
  Post C (any_of f l es (Done false (es ++ [x]))) es (Exists P l).
Proof.
  induction l as [|s l IH]; intros Hf; cbn [any_of].
  - apply post_false. intros H. inversion H.
  - pose proof (Hf s (or_introl eq_refl)) as Hs. destruct (f s) as [b es'| |]; cbn [VGood] in Hs; [|exact Hs|contradiction].
    destruct Hs as (new & _ & Hb & _). destruct b.
    + apply post_true. constructor. now apply Hb.
    + eapply post_iff; [|apply IH; intros t Ht; apply Hf; now right]. rewrite Exists_cons. assert (~ P s) by (intros H; apply Hb in H; discriminate H). tauto.
Qed.

Inductive Hits (P : json -> Prop) : list json -> nat -> Prop :=
| hits_nil : Hits P [] 0
| hits_yes s l k : P s -> Hits P l k -> Hits P (s :: l) (S k)
| hits_no s l k : ~ P s -> Hits P l k -> Hits P (s :: l) k.
Lemma hits_zero P l : Hits P l 0 <-> Forall (fun t => ~ P t) l.
Proof.
  split.
  - intros H. remember 0%nat as z eqn:E. induction H; [constructor|discriminate E|]. constructor; [assumption|now apply IHHits].
  - induction 1; [constructor|]. now apply hits_no.
Qed.
Lemma hits_one P l : Hits P l 1 <-> exists a sub b, l = a ++ sub :: b /\ P sub /\ Forall (fun t => ~ P t) (a ++ b).
Proof.
  split.
  - intros H. remember 1%nat as z eqn:E. induction H; [discriminate E| |].
    + injection E as ->. apply hits_zero in H0. exists [], s, l. split; [reflexivity|]. now split.
    + destruct (IHHits E) as (a & sub & b & -> & H1 & H2). exists (s :: a), sub, b. split; [reflexivity|]. split; [exact H1|]. now constructor.
  - intros (a & sub & b & -> & H1 & H2). induction a as [|x a IH]; cbn in *; [apply hits_yes; [exact H1|now apply hits_zero]|].
    apply Forall_cons_iff in H2 as [H2 H3]. apply hits_no; [exact H2|]. now apply IH.
Qed.
Lemma one_of_post C p path f (P : json -> Prop) es x : forall l, (forall s, In s l -> is_object s = true -> VGood C (f s) [] (P s)) ->
  forall n new,
  Post C (one_of dump p path f l n (es ++ new) (fun k es => if (k =? 1)%nat then Done true es else Done false (add dump p path "oneOf" x es))) es
    (new = [] /\ Forall (fun j => is_object j = true) l /\ exists k, Hits P l k /\ (n + k = 1)%nat).
Proof.
  induction l as [|s l IH]; intros Hf n new; cbn [one_of].
  - destruct (n =? 1)%nat eqn:E.
    + exists new. split; [reflexivity|]. split; [|discriminate]. split; [intros [_ H]; split; [exact H|split; [constructor|exists 0%nat; split; [constructor|lia]]]|tauto].
    + unfold add. rewrite <- app_assoc. eexists. split; [reflexivity|]. split.
      * split; [intros [H _]; discriminate H|]. intros (_ & _ & k & H & H2). exfalso. inversion H; subst. lia.
      * intros _ HN. apply app_eq_nil in HN as [_ HN]. discriminate HN.
  - destruct (is_object s) eqn:EO.
    + pose proof (Hf s (or_introl eq_refl) EO) as Hs. destruct (f s) as [b es'| |]; cbn [VGood] in Hs; [|exact Hs|contradiction].
      destruct Hs as (nw & _ & Hb & _). eapply post_iff; [|apply IH; intros t Ht; apply Hf; now right].
      rewrite Forall_cons_iff. destruct b.
      * assert (HP : P s) by now apply Hb. split.
        -- intros (H1 & H2 & k & H3 & H4). split; [exact H1|]. split; [now split|]. exists (S k). split; [now apply hits_yes|lia].
        -- intros (H1 & [_ H2] & k & H3 & H4). split; [exact H1|]. split; [exact H2|]. inversion H3; subst; [|contradiction]. eexists. split; [eassumption|lia].
      * assert (HP : ~ P s) by (intros H; apply Hb in H; discriminate H). split.
        -- intros (H1 & H2 & k & H3 & H4). split; [exact H1|]. split; [now split|]. exists k. split; [now apply hits_no|lia].
        -- intros (H1 & [_ H2] & k & H3 & H4). split; [exact H1|]. split; [exact H2|]. inversion H3; subst; [contradiction|]. eexists. split; [eassumption|lia].
    + unfold add at 1. rewrite <- app_assoc. eapply post_iff; [|apply IH; intros t Ht; apply Hf; now right].
      rewrite Forall_cons_iff. split; [intros [H _]; apply app_eq_nil in H as [_ H]; discriminate H|]. intros (_ & [H _] & _). congruence.
Qed.

Lemma tuple_post C f (P : json -> json -> Prop) p path extra es : forall items defs,
  (forall x s q es, In s defs -> Post C (f x s q es) es (P s x)) ->
  (forall a x q es, extra = Some (JObj a) -> Post C (f x (JObj a) q es) es (P (JObj a) x)) ->
  forall i ok new Q, Inv ok new Q ->
  Post C (tuple dump f p path extra i items defs ok (es ++ new)) es
    (Q /\ forall i x, nth_error items i = Some x ->
      match nth_error defs i with
      | Some sub => P sub x
      | None => match extra with Some (JBool false) => False | Some (JObj a) => P (JObj a) x | _ => True end
      end).
Proof.
  induction items as [|x items IH]; intros defs Hd Ha i ok new Q HI; cbn [tuple].
  - exists new. split; [reflexivity|]. destruct HI as [H1 H2]. split; [|exact H2]. rewrite H1. split; [|tauto]. intros H. split; [exact H|]. intros j y E. destruct j; discriminate E.
  - destruct defs as [|s defs].
    + assert (HG : forall (R : Prop), (match extra with Some (JBool false) => False | Some (JObj a) => P (JObj a) x | _ => True end <-> R) ->
        ((Q /\ R) /\ (forall i0 x0, nth_error items i0 = Some x0 -> match nth_error (@nil json) i0 with Some sub => P sub x0 | None => match extra with Some (JBool false) => False | Some (JObj a) => P (JObj a) x0 | _ => True end end) <->
         Q /\ (forall i0 x0, nth_error (x :: items) i0 = Some x0 -> match nth_error (@nil json) i0 with Some sub => P sub x0 | None => match extra with Some (JBool false) => False | Some (JObj a) => P (JObj a) x0 | _ => True end end))).
      { intros R HR. rewrite <- HR. split.
        - intros [[H1 H2] H3]. split; [exact H1|]. intros [|j] y E; cbn [nth_error] in *; [injection E as <-; exact H2|]. specialize (H3 j y E). destruct j; exact H3.
        - intros [H1 H2]. split; [split; [exact H1|exact (H2 0%nat x eq_refl)]|]. intros j y E. specialize (H2 (S j) y E). destruct j; exact H2. }
      destruct extra as [e|].
      * destruct e.
        all: try (eapply post_iff; [apply (HG True); tauto|]; apply IH; [intros ? ? ? ? []|exact Ha|]; destruct HI as [H1 H2]; split; [rewrite H1; tauto|exact H2]).
        -- destruct b; [eapply post_iff; [apply (HG True); tauto|]; apply IH; [intros ? ? ? ? []|exact Ha|]; destruct HI as [H1 H2]; split; [rewrite H1; tauto|exact H2]|].
           unfold add. rewrite <- app_assoc. eexists. split; [reflexivity|]. split.
           ++ split; [intros [H _]; discriminate H|]. intros [_ H]. destruct (H 0%nat x eq_refl).
           ++ intros _ HN. apply app_eq_nil in HN as [_ HN]. discriminate HN.
        -- apply (also_step C (fun r => Post C r es _) ok new es Q (P (JObj l) x)).
           ++ exact HI.
           ++ now apply Ha.
           ++ intros H. exact H.
           ++ intros b new' H. eapply post_iff; [apply (HG (P (JObj l) x)); tauto|]. apply IH; [intros ? ? ? ? []|exact Ha|exact H].
      * eapply post_iff; [apply (HG True); tauto|]. apply IH; [intros ? ? ? ? []|exact Ha|]. destruct HI as [H1 H2]. split; [rewrite H1; tauto|exact H2].
    + apply (also_step C (fun r => Post C r es _) ok new es Q (P s x)).
      * exact HI.
      * apply Hd. now left.
      * intros H. exact H.
      * intros b new' H. eapply post_iff; [|apply IH; [intros y t q es' Ht; apply Hd; now right|exact Ha|exact H]]. split.
        -- intros [[H1 H2] H3]. split; [exact H1|]. intros [|j] y E; cbn [nth_error] in *; [injection E as <-; exact H2|]. now apply H3.
        -- intros [H1 H2]. split; [split; [exact H1|exact (H2 0%nat x eq_refl)]|]. intros j y E. exact (H2 (S j) y E).
Qed.

Lemma fold_errors {B} (g : B -> error) : forall sub es, fold_left (fun es e => es ++ [g e]) sub es = es ++ map g sub.
Proof. induction sub as [|e sub IH]; intros es; cbn [fold_left map]; [now rewrite app_nil_r|]. rewrite IH, <- app_assoc. reflexivity. Qed.

Lemma existsb_defined k (l : list (list N)) : existsb (fun x => beq x k) l = true <-> In k l.
Proof.
  rewrite existsb_exists. split; [intros (x & Hx & E); apply beq_eq in E; now subst|]. intros H. exists k. split; [exact H|apply beq_refl].
Qed.
Lemma schemas_iff l : l <> [] -> (Schemas l <-> Forall (fun j => is_object j = true) l).
Proof.
  intros HN. unfold Schemas. split.
  - intros [_ H]. eapply Forall_impl; [|exact H]. intros j [m ->]. reflexivity.
  - intros H. split; [exact HN|]. eapply Forall_impl; [|exact H]. intros j Hj. destruct j; try discriminate Hj. now eexists.
Qed.
Lemma first_bad_none l : first_bad l = None <-> Forall (fun j => is_object j = true) l.
Proof.
  unfold first_bad. induction l as [|j l IH]; cbn [find]; [split; [constructor|reflexivity]|]. rewrite Forall_cons_iff. destruct (is_object j); cbn [negb]; [rewrite IH; tauto|].
  split; [discriminate|]. intros [H _]. discriminate H.
Qed.

Lemma also_first (C : Prop) (F : res -> Prop) es P body k :
  Post C body es P -> (~ C -> F Thrown) -> (forall b new, Inv b new P -> F (k b (es ++ new))) -> F (also body k).
Proof.
  intros H1 H2 H3. destruct body as [b es'| |]; cbn [also]; cbn [Post] in H1; [|now apply H2|contradiction]. destruct H1 as (new & -> & H). now apply H3.
Qed.

Lemma indexed_forall (P : json -> Prop) l : Forall (fun ix : nat * json => P (snd ix)) (indexed l) <-> forall x, In x l -> P x.
Proof.
  rewrite <- (Forall_forall P). unfold indexed. generalize 0%nat as i. induction l as [|y l IH]; intros i; cbn [length seq combine]; [split; constructor|].
  rewrite !Forall_cons_iff, IH. reflexivity.
Qed.
Lemma andl (a b : bool) : a && b = true -> a = true.
Proof. destruct a; easy. Qed.
Lemma andr (a b : bool) : a && b = true -> b = true.
Proof. destruct a; easy. Qed.
Definition Main (fuel : nat) : Prop := forall n p v s path es k, (depth s < fuel)%nat -> (depth s < n)%nat -> (n <= 64)%nat -> (depth s < k)%nat ->
  VGood (AllUsable rx s) (vr fuel n p v s path es) es (Sat rx same k s v).

Ltac deep := repeat match goal with
  | H : get _ _ = Some _ |- _ => lazymatch goal with D : (depth _ < depth _)%nat |- _ => fail | _ => pose proof (depth_get _ _ _ H) end
  end.

Lemma main_all : forall fuel, Main fuel.
Proof.
  induction fuel as [|f IH]; intros n p v s path es k Hf Hn H64 Hk; [lia|].
  destruct n as [|n']; [lia|]. destruct k as [|k]; [lia|]. cbn [validate_recursive Sat].
  destruct (is_object s) eqn:EO; cbn [negb].
  2:{ cbn [VGood]. unfold add. eexists. split; [reflexivity|]. split; (split; [discriminate|]); [|intros H; discriminate H]. intros [[m ->] _]. discriminate EO. }
  assert (HSm : exists m, s = JObj m) by (destruct s; try discriminate EO; now eexists).
  (* the parts of the schema *)
  assert (SUB : forall sub, (depth sub < depth s)%nat -> (AllUsable rx s -> AllUsable rx sub) -> forall m p v path es, (n' <= m)%nat -> (m <= 64)%nat ->
                VGood (AllUsable rx s) (vr f m p v sub path es) es (Sat rx same k sub v)).
  { intros sub Hd Hu m p0 v0 path0 es0 H1 H2. eapply vgood_weak; [exact Hu|]. apply IH; lia. }
  assert (GET : forall kw x, get s kw = Some x -> (depth x < depth s)%nat /\ (AllUsable rx s -> AllUsable rx x)).
  { intros kw x H. split; [now apply depth_get with kw|now apply usable_get with kw]. }
  assert (GETI : forall kw l x, get s kw = Some (JArr l) -> In x l -> (depth x < depth s)%nat /\ (AllUsable rx s -> AllUsable rx x)).
  { intros kw l x H HI. apply GET in H as [H1 H2]. split; [apply depth_item in HI; lia|]. intros HC. apply usable_item with l; [exact HI|now apply H2]. }
  set (C := AllUsable rx s) in *.
  set (F := fun r => VGood C r es (Schema rx same (Sat rx same k) s v)).
  apply (also_first C F es (TypeOk s v)); [apply type_post|easy|]. intros t n1 I1. cbv beta.
  apply (also_gate C F t t n1 es _ (LengthOk s v /\ RangeOk s v /\ OtherOk rx same s v) _ _ (fun x => x) I1); [intros _; apply primitives_post|easy|]. intros pr n2 I2. cbv beta.
  apply (also_gate C F (t && pr) t _ es _ ((forall members, v = JObj members -> ObjectOk (Sat rx same k) s members) /\ (forall items, v = JArr items -> ArrayOk (Sat rx same k) s items)) _ _
    (andl _ _) I2); [intros _|easy|].
  { destruct v as [| | | | | |items|members];
      try (apply post_true; split; intros ? H; discriminate H).
    - (* arrays *)
      apply (post_iff C _ _ (ArrayOk (Sat rx same k) s items)); [split; [intros H; split; [intros ? E; discriminate E|intros ? E; injection E as <-; exact H]|intros [_ H]; now apply H]|].
      unfold ArrayOk. destruct (get s "items") as [def|] eqn:EI; [|now apply post_true]. destruct (GET "items"%string def EI) as [Hd Hu].
      destruct def; try (apply post_add; tauto).
      + pose proof (tuple_post C (fun x t q es => vr f n' p x t q es) (fun t x => Sat rx same k t x) p path (get s "additionalItems") (es ++ (n1 ++ n2)) items l) as HT.
        assert (HA : forall a, get s "additionalItems" = Some (JObj a) -> forall x q es, Post C (vr f n' p x (JObj a) q es) es (Sat rx same k (JObj a) x)).
        { intros a Ea x q es'. destruct (GET "additionalItems"%string _ Ea) as [Ha1 Ha2]. apply vgood_post, SUB; [exact Ha1|exact Ha2|lia|lia]. }
        specialize (HT (fun x t q es' Ht => vgood_post _ _ _ _ (SUB t (proj1 (GETI "items"%string l t EI Ht)) (proj2 (GETI "items"%string l t EI Ht)) n' p x q es' ltac:(lia) ltac:(lia)))).
        specialize (HT (fun a x q es' Ea => HA a Ea x q es') 0%nat true [] True (inv_true True I)). rewrite app_nil_r in HT.
        eapply post_iff; [|exact HT]. tauto.
      + apply (post_iff C _ _ (Forall (fun ix => Sat rx same k (JObj l) (snd ix)) (indexed items))).
        * apply indexed_forall.
        * apply each_post0. intros [i y] es' _. cbn [fst snd]. apply vgood_post, SUB; [exact Hd|exact Hu|lia|lia].
    - (* objects *)
      apply (post_iff C _ _ (ObjectOk (Sat rx same k) s members)); [split; [intros H; split; [intros ? E; injection E as <-; exact H|intros ? E; discriminate E]|intros [H _]; now apply H]|].
      unfold ObjectOk. generalize (es ++ (n1 ++ n2)) as es1. intros es1. set (G := fun r => Post C r es1 (ObjectOk (Sat rx same k) s members)).
      match goal with |- Post C ?r es1 _ => change (G r) end.
      apply (also_first C G es1 (match get s "properties" with None => True
        | Some (JObj defs) => forall name sub x, In (name, sub) defs -> lookup name members = Some x -> Sat rx same k sub x | Some _ => False end)); [|easy|].
      { destruct (get s "properties") as [def|] eqn:EP; [|now apply post_true]. destruct def; try (apply post_add; tauto).
        apply (post_iff C _ _ (Forall (fun d => forall x, lookup (fst d) members = Some x -> Sat rx same k (snd d) x) l)).
        { rewrite Forall_forall. split; [intros H name sub x Hd; exact (H (name, sub) Hd x)|]. intros H [name sub] Hd x. cbn [fst snd]. now apply H. }
        apply each_post0. intros [name sub] es' Hd. cbn [fst snd]. destruct (lookup name members) as [x|].
        - apply (post_iff C _ _ (Sat rx same k sub x)); [split; [intros H x' E; injection E as <-; exact H|intros H; now apply H]|]. destruct (GET "properties"%string _ EP) as [Hp1 Hp2].
          apply vgood_post, SUB; [apply depth_member in Hd; lia| |lia|lia]. intros HC. apply usable_member with l name; [exact Hd|now apply Hp2].
        - apply post_true. intros x E. discriminate E. }
      intros b1 m1 J1. cbv beta.
      apply (also_step C G _ _ es1 _ (match get s "required" with None => True | Some (JArr l) => forall j, In j l -> exists name x, j = JStr name /\ lookup name members = Some x | Some _ => False end) _ _ J1);
        [apply required_post|easy|].
      intros b2 m2 J2. cbv beta.
      apply (also_step C G _ _ es1 _ (match get s "additionalProperties" with None => True
        | Some def => forall name x, In (name, x) members -> (forall defs, get s "properties" = Some (JObj defs) -> ~ In name (map fst defs)) ->
            match def with JBool b => b = true | JObj _ => Sat rx same k def x | _ => False end end) _ _ J2); [|easy|].
      { destruct (get s "additionalProperties") as [def|] eqn:EA; [|now apply post_true].
        set (defined := match get s "properties" with Some (JObj defs) => map fst defs | _ => [] end).
        assert (HD : forall name, (forall defs, get s "properties" = Some (JObj defs) -> ~ In name (map fst defs)) <-> existsb (fun x => beq x name) defined = false).
        { intros name. rewrite <- not_true_iff_false, existsb_defined. subst defined. destruct (get s "properties") as [[| | | | | | |defs]|].
          8:{ split; [intros H; now apply H|]. intros H defs' E. injection E as <-. exact H. }
          all: (split; [intros _ []|intros _ ? E; discriminate E]). }
        clearbody defined. generalize (es1 ++ (m1 ++ m2)) as es2. intros es2.
        match goal with |- Post C (?g members true es2) es2 _ => set (go := g) end.
        assert (HG : forall ms ok new Q, Inv ok new Q -> Post C (go ms ok (es2 ++ new)) es2 (Q /\ forall name x, In (name, x) ms -> existsb (fun y => beq y name) defined = false ->
            match def with JBool b => b = true | JObj _ => Sat rx same k def x | _ => False end)).
        { induction ms as [|[key val] ms IHm]; intros ok new Q HI.
          - exists new. split; [reflexivity|]. destruct HI as [H1 H2]. split; [|exact H2]. rewrite H1. split; [|tauto]. intros H. split; [exact H|]. intros ? ? [].
          - assert (HC : forall (R : Prop), ((existsb (fun y => beq y key) defined = false -> match def with JBool b => b = true | JObj _ => Sat rx same k def val | _ => False end) <-> R) ->
              ((Q /\ R) /\ (forall name x, In (name, x) ms -> existsb (fun y => beq y name) defined = false -> match def with JBool b => b = true | JObj _ => Sat rx same k def x | _ => False end) <->
               (Q /\ forall name x, In (name, x) ((key, val) :: ms) -> existsb (fun y => beq y name) defined = false -> match def with JBool b => b = true | JObj _ => Sat rx same k def x | _ => False end))).
            { intros R HR. rewrite <- HR. split.
              - intros [[H1 H2] H3]. split; [exact H1|]. intros name x [E|H]; [injection E as <- <-; exact H2|now apply H3].
              - intros [H1 H2]. split; [split; [exact H1|apply H2; now left]|]. intros name x H. apply H2. now right. }
            assert (HI1 : Inv ok new (Q /\ True)) by (destruct HI as [H1 H2]; split; [rewrite H1; tauto|exact H2]).
            assert (HI0 : forall e new', Inv false (new ++ e :: new') (Q /\ False)).
            { intros e new'. split; [split; [intros [H _]; discriminate H|tauto]|]. intros _ HN. apply app_eq_nil in HN as [_ HN]. discriminate HN. }
            cbn [go]. fold go. destruct (existsb (fun y => beq y key) defined) eqn:ED.
            + eapply post_iff; [apply (HC True); split; [tauto|intros _ HN; discriminate HN]|]. now apply IHm.
            + destruct def as [|b| | | | | |def'].
              1,3,4,5,6,7: unfold add; rewrite <- app_assoc; eexists; split; [reflexivity|]; split; [split; [intros [H _]; discriminate H|intros [_ H]; destruct (H key val (or_introl eq_refl) ED)]|intros _ HN; apply app_eq_nil in HN as [_ HN]; discriminate HN].
              * destruct b.
                -- eapply post_iff; [apply (HC True); tauto|]. now apply IHm.
                -- unfold add. rewrite <- app_assoc. eapply post_iff; [apply (HC False); split; [intros H; specialize (H eq_refl); discriminate H|tauto]|]. apply IHm. apply HI0.
              * destruct (GET "additionalProperties"%string _ EA) as [Ha1 Ha2].
                pose proof (SUB _ Ha1 Ha2 64%nat p val [] [] ltac:(lia) ltac:(lia)) as HS. destruct (vr f 64 p val (JObj def') [] []) as [b sub| |]; cbn [VGood] in HS; [|exact HS|contradiction].
                destruct HS as (new' & Es & HS1 & HS2). cbn [app] in Es. subst sub. destruct b.
                -- eapply post_iff; [apply (HC True); split; [tauto|intros _ _; now apply HS1]|]. now apply IHm.
                -- destruct new' as [|e new']; [exfalso; assert (HX : false = true) by (now apply HS2); discriminate HX|]. rewrite fold_errors, <- app_assoc. cbn [map].
                   eapply post_iff; [apply (HC False); split; [intros H; specialize (H eq_refl); apply HS1 in H; discriminate H|tauto]|]. apply IHm. apply HI0. }
        specialize (HG members true [] True (inv_true True I)). rewrite app_nil_r in HG. eapply post_iff; [|exact HG]. split.
        - intros [_ H] name x Hm Hd. apply H with name; [exact Hm|now apply HD].
        - intros H. split; [exact I|]. intros name x Hm Hd. apply H with name; [exact Hm|now apply HD]. }
      intros b3 m3 J3. cbv beta.
      apply (also_step C G _ _ es1 _ (match get s "propertyNames" with Some (JObj def) => forall name x, In (name, x) members -> Sat rx same k (JObj def) (JStr name) | _ => True end) _ _ J3); [|easy|].
      { destruct (get s "propertyNames") as [def|] eqn:EN; [|now apply post_true]. destruct def; try now apply post_true.
        destruct (GET "propertyNames"%string _ EN) as [Ha1 Ha2].
        apply (post_iff C _ _ (Forall (fun m => Sat rx same k (JObj l) (JStr (fst m))) members)).
        { rewrite Forall_forall. split; [intros H name x Hm; exact (H (name, x) Hm)|]. intros H [name x] Hm. cbn [fst]. now apply H with x. }
        apply each_post0. intros [name x] es' _. cbn [fst].
        pose proof (SUB _ Ha1 Ha2 64%nat default_policy (JStr name) [] [] ltac:(lia) ltac:(lia)) as HS.
        destruct (vr f 64 default_policy (JStr name) (JObj l) [] []) as [b sub| |]; cbn [VGood] in HS; [|exact HS|contradiction].
        destruct HS as (new' & Es & HS1 & HS2). cbn [app] in Es. subst sub. destruct b; [apply post_true; now apply HS1|].
        destruct new' as [|e new']; [exfalso; assert (HX : false = true) by (now apply HS2); discriminate HX|]. rewrite fold_errors. cbn [map]. apply post_false. intros H. apply HS1 in H. discriminate H. }
      intros b4 m4 J4. cbv beta. unfold G. cbn [Post]. exists (((m1 ++ m2) ++ m3) ++ m4). split; [reflexivity|]. unfold ObjectOk. destruct J4 as [J4 J5]. split; [rewrite J4; tauto|exact J5]. }
  intros st n3 I3. cbv beta.
  apply (also_step C F _ _ es _ (match get s "allOf" with None => True | Some (JArr l) => Schemas l /\ Forall (fun sub => Sat rx same k sub v) l | Some _ => False end) _ _ I3);
    [|easy|].
  { destruct (get s "allOf") as [def|] eqn:EA; [|now apply post_true]. destruct def as [| | | | | |[|s0 l]|]; try (apply post_add; tauto).
    { apply post_add. intros [[H _] _]. now apply H. }
    generalize (es ++ ((n1 ++ n2) ++ n3)) as es1. intros es1. set (G := fun r => Post C r es1 (Schemas (s0 :: l) /\ Forall (fun sub => Sat rx same k sub v) (s0 :: l))).
    match goal with |- Post C ?r es1 _ => change (G r) end.
    apply (also_first C G es1 (Forall (fun j => is_object j = true /\ Sat rx same k j v) (s0 :: l))); [|easy|].
    { apply each_post0. intros j es' Hj. destruct (is_object j) eqn:EJ; [|apply post_add; intros [H _]; discriminate H].
      apply (post_iff C _ _ (Sat rx same k j v)); [tauto|]. destruct (GETI "allOf"%string _ j EA Hj) as [Ha1 Ha2]. apply vgood_post, SUB; [exact Ha1|exact Ha2|lia|lia]. }
    intros b m [J1 J2]. assert (HQ : (Schemas (s0 :: l) /\ Forall (fun sub => Sat rx same k sub v) (s0 :: l)) <-> Forall (fun j => is_object j = true /\ Sat rx same k j v) (s0 :: l)).
    { rewrite schemas_iff; [|discriminate]. rewrite !Forall_forall. split; [intros [H1 H2] j Hj; split; [now apply H1|now apply H2]|]. intros H. split; intros j Hj; now apply H. }
    destruct b; unfold G; [exists m; split; [reflexivity|]; split; [rewrite J1, HQ; reflexivity|exact J2]|].
    unfold add. rewrite <- app_assoc. eexists. split; [reflexivity|]. split; [rewrite HQ, <- J1; split; intros [H _]; discriminate H|]. intros _ HN. apply app_eq_nil in HN as [_ HN]. discriminate HN. }
  intros c1 n4 I4. cbv beta.
  apply (also_gate C F _ c1 _ es _ (match get s "anyOf" with None => True | Some (JArr l) => Schemas l /\ Exists (fun sub => Sat rx same k sub v) l | Some _ => False end) _ _
    (andr _ _) I4); [|easy|].
  { intros _. destruct (get s "anyOf") as [def|] eqn:EA; [|now apply post_true]. destruct def as [| | | | | |[|s0 l]|]; try (apply post_add; tauto).
    { apply post_add. intros [[H _] _]. now apply H. }
    destruct (first_bad (s0 :: l)) as [j|] eqn:EB.
    - apply post_add. rewrite schemas_iff; [|discriminate]. intros [H _]. apply first_bad_none in H. congruence.
    - apply first_bad_none in EB. apply (post_iff C _ _ (Exists (fun sub => Sat rx same k sub v) (s0 :: l))); [rewrite schemas_iff; [tauto|discriminate]|].
      unfold add. apply any_of_post. intros j Hj. destruct (GETI "anyOf"%string _ j EA Hj) as [Ha1 Ha2]. apply SUB; [exact Ha1|exact Ha2|lia|lia]. }
  intros c2 n5 I5. cbv beta.
  apply (also_gate C F _ c2 _ es _ (match get s "oneOf" with None => True
    | Some (JArr l) => Schemas l /\ exists a sub b, l = a ++ sub :: b /\ Sat rx same k sub v /\ Forall (fun t => ~ Sat rx same k t v) (a ++ b) | Some _ => False end) _ _
    (andr _ _) I5); [|easy|].
  { intros _. destruct (get s "oneOf") as [def|] eqn:EA; [|now apply post_true]. destruct def as [| | | | | |[|s0 l]|]; try (apply post_add; tauto).
    { apply post_add. intros [[H _] _]. now apply H. }
    generalize (es ++ ((((n1 ++ n2) ++ n3) ++ n4) ++ n5)) as es1. intros es1.
    pose proof (one_of_post C p path (fun s => vr f n' default_policy v s path []) (fun sub => Sat rx same k sub v) es1 (Some v) (s0 :: l)) as HO.
    specialize (HO (fun j Hj _ => SUB j (proj1 (GETI "oneOf"%string _ j EA Hj)) (proj2 (GETI "oneOf"%string _ j EA Hj)) n' default_policy v path [] ltac:(lia) ltac:(lia)) 0%nat []).
    rewrite app_nil_r in HO. eapply post_iff; [|exact HO]. rewrite schemas_iff; [|discriminate]. rewrite <- hits_one. split.
    - intros (_ & H1 & j & H2 & H3). split; [exact H1|]. cbn in H3. now subst j.
    - intros [H1 H2]. split; [reflexivity|]. split; [exact H1|]. now exists 1%nat. }
  intros c3 n6 I6. cbv beta.
  apply (also_gate C F _ c3 _ es _ (match get s "not" with None => True | Some (JObj def) => ~ Sat rx same k (JObj def) v | Some _ => False end) _ _
    (andr _ _) I6); [|easy|].
  { intros _. destruct (get s "not") as [def|] eqn:EA; [|now apply post_true]. destruct def; try (apply post_add; tauto).
    destruct (GET "not"%string _ EA) as [Ha1 Ha2]. pose proof (SUB _ Ha1 Ha2 n' default_policy v path [] ltac:(lia) ltac:(lia)) as HS.
    destruct (vr f n' default_policy v (JObj l) path []) as [b sub| |]; cbn [VGood] in HS; cbn [also]; [|exact HS|contradiction]. destruct HS as (m & _ & HS & _).
    destruct b; [apply post_add; intros H; apply H; now apply HS|]. apply post_true. intros H. apply HS in H. discriminate H. }
  intros c4 n7 I7. cbv beta. revert I7. generalize ((((((n1 ++ n2) ++ n3) ++ n4) ++ n5) ++ n6) ++ n7). intros new [I7 I8]. unfold F. cbn [VGood].
  exists new. split; [reflexivity|]. rewrite app_length.
  assert (HQ : Schema rx same (Sat rx same k) s v <-> t && pr && st && c1 && c2 && c3 && c4 = true /\ new = []).
  { rewrite I7. unfold Schema, CombinedOk. tauto. }
  rewrite HQ. destruct new as [|e new].
  - cbn [length]. destruct (length es <? length es + 0)%nat eqn:E; [lia|].
    destruct (t && pr && st && c1 && c2 && c3 && c4) eqn:EA; [|now destruct (I8 eq_refl)].
    repeat (apply andb_true_iff in EA as [EA ?]). subst. cbn. tauto.
  - cbn [length]. destruct (length es <? length es + S (length new))%nat eqn:E; [|lia]. split; (split; [discriminate|]); [intros [_ H]; discriminate H|intros H; discriminate H].
Qed.
End Val.
