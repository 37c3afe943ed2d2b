(** The schema validator: C124-C127. *)
From Verif Require Import Base UtilModel StaticModel ValJson ValModel ValSpec.
From Coq Require Import SpecFloat.
Local Open Scope N_scope.

(** ** Results and what they mean *)
Definition Inv (ok : bool) (new : list error) (Q : Prop) : Prop := (ok = true /\ new = [] <-> Q) /\ (ok = false -> new <> []).
Definition Post (C : Prop) (r : res) (es : list error) (Q : Prop) : Prop :=
  match r with Done b es' => exists new, es' = es ++ new /\ Inv b new Q | Thrown => ~ C | Stuck => False end.
Definition VGood (C : Prop) (r : res) (es : list error) (Q : Prop) : Prop :=
  match r with Done b es' => exists new, es' = es ++ new /\ (b = true <-> Q) /\ (b = true <-> new = []) | Thrown => ~ C | Stuck => False end.

Lemma vgood_post C r es Q : VGood C r es Q -> Post C r es Q.
Proof.
  destruct r as [b es'| |]; cbn; try easy. intros (new & -> & H1 & H2). exists new. split; [reflexivity|]. split.
  - rewrite <- H1, <- H2. tauto.
  - intros -> HN. apply H2 in HN. discriminate HN.
Qed.
Lemma post_iff C r es Q Q' : (Q <-> Q') -> Post C r es Q -> Post C r es Q'.
Proof. intros HQ. destruct r; cbn; try easy. intros (new & E & H1 & H2). exists new. split; [exact E|]. split; [|exact H2]. rewrite H1. exact HQ. Qed.
Lemma post_weak (C C' : Prop) r es Q : (C -> C') -> Post C' r es Q -> Post C r es Q.
Proof. intros HC. destruct r; cbn; try easy. intros H1 H2. apply H1, HC, H2. Qed.
Lemma vgood_weak (C C' : Prop) r es Q : (C -> C') -> VGood C' r es Q -> VGood C r es Q.
Proof. intros HC. destruct r; cbn; try easy. intros H1 H2. apply H1, HC, H2. Qed.
Lemma vgood_iff C r es Q Q' : (Q <-> Q') -> VGood C r es Q -> VGood C r es Q'.
Proof. intros HQ. destruct r; cbn; try easy. intros (new & E & H1 & H2). exists new. split; [exact E|]. split; [|exact H2]. rewrite H1. exact HQ. Qed.
Lemma post_true C es (Q : Prop) : Q -> Post C (Done true es) es Q.
Proof. intros H. exists []. rewrite app_nil_r. split; [reflexivity|]. split; [tauto|discriminate]. Qed.
Lemma post_false C es x l (Q : Prop) : ~ Q -> Post C (Done false (es ++ x :: l)) es Q.
Proof. intros H. exists (x :: l). split; [reflexivity|]. split; [split; [intros [H1 _]; discriminate H1|tauto]|discriminate]. Qed.
Lemma post_add dump C p path name v es (Q : Prop) : ~ Q -> Post C (Done false (add dump p path name v es)) es Q.
Proof. intros H. unfold add. now apply post_false. Qed.
Lemma inv_true (Q : Prop) : Q -> Inv true [] Q.
Proof. intros H. split; [tauto|discriminate]. Qed.

(** One part after another; [g] says whether the part runs. *)
Lemma also_gate (C : Prop) (F : res -> Prop) (a g : bool) new es Q P body k :
  (a = true -> g = true) -> Inv a new Q -> (g = true -> Post C body (es ++ new) P) -> (~ C -> F Thrown) ->
  (forall b new', Inv (a && b) (new ++ new') (Q /\ P) -> F (k b (es ++ (new ++ new')))) ->
  F (also (if g then body else Done false (es ++ new)) k).
Proof.
  intros Hg [H1 H2] HB HT HK. destruct g.
  - specialize (HB eq_refl). destruct body as [b es'| |]; cbn [also]; cbn [Post] in HB; [|now apply HT|contradiction].
    destruct HB as (new' & -> & H3 & H4). rewrite <- app_assoc. apply HK. split.
    + rewrite <- H1, <- H3, andb_true_iff. split.
      * intros [[-> ->] E]. apply app_eq_nil in E as [-> ->]. tauto.
      * intros [[-> ->] [-> ->]]. tauto.
    + intros E HN. apply app_eq_nil in HN as [-> ->]. destruct a; [destruct b; [discriminate E|now apply H4]|now apply H2].
  - destruct a; [discriminate (Hg eq_refl)|]. cbn [also]. specialize (HK false []). rewrite app_nil_r in HK. apply HK.
    split; [|exact H2]. split; [intros [E _]; discriminate E|]. intros [HQ _]. apply H1 in HQ as [E _]. discriminate E.
Qed.
Lemma also_step (C : Prop) (F : res -> Prop) (a : bool) new es Q P body k :
  Inv a new Q -> Post C body (es ++ new) P -> (~ C -> F Thrown) ->
  (forall b new', Inv (a && b) (new ++ new') (Q /\ P) -> F (k b (es ++ (new ++ new')))) -> F (also body k).
Proof. intros H1 H2 H3 H4. exact (also_gate C F a true new es Q P body k (fun _ => eq_refl) H1 (fun _ => H2) H3 H4). Qed.

Lemma each_post {A} (C : Prop) (f : A -> list error -> res) (P : A -> Prop) : forall l,
  (forall a es, In a l -> Post C (f a es) es (P a)) ->
  forall ok es new Q, Inv ok new Q -> Post C (each f l ok (es ++ new)) es (Q /\ Forall P l).
Proof.
  induction l as [|x l IH]; intros Hf ok es new Q HI; cbn [each].
  - exists new. split; [reflexivity|]. destruct HI as [H1 H2]. split; [rewrite H1|exact H2]. split; [intros H; split; [exact H|constructor]|tauto].
  - apply (also_step C (fun r => Post C r es (Q /\ Forall P (x :: l))) ok new es Q (P x) (f x (es ++ new))).
    + exact HI.
    + apply Hf. now left.
    + intros H. exact H.
    + intros b new' H. apply (post_iff C _ es ((Q /\ P x) /\ Forall P l)).
      * rewrite Forall_cons_iff. tauto.
      * apply IH; [|exact H]. intros a es0 Ha. apply Hf. now right.
Qed.
Lemma each_post0 {A} (C : Prop) (f : A -> list error -> res) (P : A -> Prop) l es :
  (forall a es, In a l -> Post C (f a es) es (P a)) -> Post C (each f l true es) es (Forall P l).
Proof.
  intros H. pose proof (each_post C f P l H true es [] True (inv_true True I)) as HP. rewrite app_nil_r in HP. eapply post_iff; [|exact HP]. tauto.
Qed.

(** ** Depth *)
Lemma lookup_in {A} k (l : list (list N * A)) x : lookup k l = Some x -> In (k, x) l.
Proof.
  unfold lookup. destruct (find _ l) as [[k' y]|] eqn:E; [|discriminate]. intros H. injection H as H. cbn in H. subst y.
  apply find_some in E as [H1 H2]. apply beq_eq in H2. cbn in H2. now subst.
Qed.
Lemma max_in {A} (f : A -> nat) l x : In x l -> (f x <= fold_right (fun x d => Nat.max (f x) d) 0 l)%nat.
Proof. induction l as [|y l IH]; [intros []|]. intros [->|H]; cbn [fold_right]; [lia|]. specialize (IH H). lia. Qed.
Lemma depth_member l k x : In (k, x) l -> (depth x < depth (JObj l))%nat.
Proof. intros H. cbn [depth]. pose proof (max_in (fun e => depth (snd e)) l (k, x) H). cbn [snd] in H0. lia. Qed.
Lemma depth_item l x : In x l -> (depth x <= depth (JArr l))%nat.
Proof. intros H. cbn [depth]. apply (max_in depth l x H). Qed.
Lemma depth_get s k x : get s k = Some x -> (depth x < depth s)%nat.
Proof. unfold get. destruct s; try discriminate. intros H. apply lookup_in in H. now apply depth_member in H. Qed.
Lemma within_get s k x : get s k = Some x -> forall j, Within j x -> Within j s.
Proof. unfold get. destruct s; try discriminate. intros H j Hj. apply lookup_in in H. now apply w_member with (str k) x. Qed.
Lemma usable_get rx s k x : get s k = Some x -> AllUsable rx s -> AllUsable rx x.
Proof. intros H HA j Hj. apply HA. now apply within_get with k x. Qed.
Lemma usable_item rx l x : In x l -> AllUsable rx (JArr l) -> AllUsable rx x.
Proof. intros H HA j Hj. apply HA. now apply w_item with x. Qed.
Lemma usable_member rx l k x : In (k, x) l -> AllUsable rx (JObj l) -> AllUsable rx x.
Proof. intros H HA j Hj. apply HA. now apply w_member with k x. Qed.

(** ** Types *)
Lemma type_of_name_some s t : type_of_name s = Some t -> forall v, has_type t v = true <-> Typed s v.
Proof.
  unfold type_of_name. intros H v.
  repeat match type of H with context [beq s (str ?x)] => let Q := fresh "E" in destruct (beq s (str x)) eqn:Q; [apply beq_eq in Q; subst s; injection H as <-|clear Q] end; try discriminate H;
    (split; [destruct v; cbn [has_type]; intros HT; try discriminate HT; solve [constructor]|
             intros HT; match type of HT with Typed ?x _ => remember x as q eqn:Eq end; destruct HT; try reflexivity; exfalso; vm_compute in Eq; discriminate Eq]).
Qed.
Lemma type_of_name_none s : type_of_name s = None -> ~ TypeName s.
Proof.
  unfold type_of_name, TypeName. intros H HN. cbn [map In] in HN.
  repeat match type of H with context [beq s (str ?x)] => let Q := fresh "E" in destruct (beq s (str x)) eqn:Q; [discriminate H|apply beq_neq in Q] end. intuition congruence.
Qed.
Lemma type_of_name_name s t : type_of_name s = Some t -> TypeName s.
Proof.
  unfold type_of_name, TypeName. intros H. cbn [map In].
  repeat match type of H with context [beq s (str ?x)] => let Q := fresh "E" in destruct (beq s (str x)) eqn:Q; [apply beq_eq in Q; subst s; tauto|clear Q] end. discriminate H.
Qed.
Lemma typed_name s v : Typed s v -> TypeName s.
Proof. unfold TypeName. cbn [map In]. intros H. destruct H; tauto. Qed.
Lemma type_list_inl l ts : type_list l = inl ts ->
  Forall (fun j => exists t, j = JStr t /\ TypeName t) l /\ forall v, existsb (fun t => has_type t v) ts = true <-> Exists (fun j => exists t, j = JStr t /\ Typed t v) l.
Proof.
  revert ts. induction l as [|j l IH]; intros ts H; cbn [type_list] in H.
  - injection H as <-. split; [constructor|]. intros v. cbn. split; [discriminate|]. intros HE. inversion HE.
  - destruct j; try discriminate H. destruct (type_of_name s) as [t|] eqn:E; [|discriminate H]. destruct (type_list l) as [ts'|] eqn:EL; [|discriminate H].
    injection H as <-. destruct (IH ts' eq_refl) as [H1 H2]. split.
    + constructor; [|exact H1]. exists s. split; [reflexivity|]. now apply type_of_name_name with t.
    + intros v. cbn [existsb]. rewrite orb_true_iff, Exists_cons, H2, (type_of_name_some s t E v). split.
      * intros [H|H]; [left; now exists s|now right].
      * intros [(t' & Et & H)|H]; [injection Et as <-; now left|now right].
Qed.
Lemma type_list_inr l x : type_list l = inr x -> ~ Forall (fun j => exists t, j = JStr t /\ TypeName t) l.
Proof.
  revert x. induction l as [|j l IH]; intros x H HF; cbn [type_list] in H; [discriminate H|]. apply Forall_cons_iff in HF as [(t & -> & Ht) HF].
  destruct (type_of_name t) as [d|] eqn:E; [|now apply type_of_name_none in E]. destruct (type_list l) as [ts|y] eqn:EL; [discriminate H|]. now apply (IH y eq_refl).
Qed.
Lemma type_post dump C p v s path es :
  Post C (match get s "type" with Some def => validate_type_keyword dump p v def path es | None => Done true es end) es (TypeOk s v).
Proof.
  unfold TypeOk. destruct (get s "type") as [def|]; [|now apply post_true]. unfold validate_type_keyword.
  destruct def; try (apply post_add; tauto).
  - destruct (type_of_name s0) as [t|] eqn:E.
    + pose proof (type_of_name_some s0 t E v) as H. destruct (has_type t v); [apply post_true; now apply H|]. apply post_add. intros HT. apply H in HT. discriminate HT.
    + apply post_add. intros HT. apply typed_name in HT. now apply type_of_name_none in E.
  - destruct (type_list l) as [ts|[j nm]] eqn:E.
    + apply type_list_inl in E as [H1 H2]. specialize (H2 v). destruct (existsb _ ts).
      * apply post_true. split; [exact H1|]. now apply H2.
      * apply post_add. intros [_ H]. apply H2 in H. discriminate H.
    + apply type_list_inr in E. apply post_add. tauto.
Qed.

(** ** The rules about one value *)
Section Rules.
Variable rx : list N -> option (list N -> option bool).
Variable dump : json -> list N.
Variable same : json -> json -> bool.

Lemma size_rule_iff s k f (P : rule -> Prop) : Forall P (size_rule s k f) <-> forall m, Size s k m -> P (f m).
Proof.
  unfold size_rule, Size. destruct (get s k) as [j|]; [|split; [intros _ m [(z & H & _)|[H _]]; discriminate H|constructor]].
  destruct j; cbn [is_integer andb get_ll]; try (split; [intros _ m [(z' & H & _)|[H _]]; discriminate H|intros _; constructor]).
  - destruct (0 <=? z)%Z eqn:E; rewrite ?Forall_cons_iff.
    + split; [intros [H _] m [(z' & H1 & H2 & ->)|[H1 _]]; [injection H1 as <-; exact H|discriminate H1]|].
      intros H. split; [|constructor]. apply H. left. exists z. split; [reflexivity|]. split; [lia|reflexivity].
    + split; [|constructor]. intros _ m [(z' & H1 & H2 & _)|[H1 _]]; [injection H1 as <-; lia|discriminate H1].
  - unfold wrap. destruct (n <? 9223372036854775808) eqn:EN.
    + destruct (0 <=? Z.of_N n)%Z eqn:E; [|lia]. rewrite Forall_cons_iff. rewrite N2Z.id. split.
      * intros [H _] m [(z' & H1 & _)|[H1 _]]; [discriminate H1|injection H1 as <-; exact H].
      * intros H. split; [|constructor]. apply H. right. split; [reflexivity|lia].
    + destruct (0 <=? Z.min (-1) (Z.of_N n - 18446744073709551616))%Z eqn:E; [lia|].
      split; [|constructor]. intros _ m [(z' & H1 & _)|[H1 H2]]; [discriminate H1|injection H1 as <-; lia].
Qed.
Lemma number_iff v : is_number v = true <-> exists d, Number v d.
Proof. destruct v; cbn [is_number]; (split; [try discriminate; intros _; eexists; constructor|intros [d0 H]; inversion H; reflexivity]). Qed.
Lemma number_double v d : Number v d -> get_double v = d.
Proof. intros H. destruct H; reflexivity. Qed.
Lemma limit_rule_iff s k e f r (P : rule -> Prop) : limit_rule s k e f = Some r ->
  (Forall P r <-> forall j a, get s k = Some j -> Number j a -> P (f a match get s e with Some (JBool true) => true | _ => false end)).
Proof.
  unfold limit_rule. destruct (get s k) as [j|]; [|intros H; injection H as <-; split; [intros _ j a HN; discriminate HN|constructor]].
  destruct (is_number j) eqn:EN.
  - apply number_iff in EN as [d Hd]. rewrite (number_double j d Hd). unfold bool_value. intros H.
    assert (HR : r = [f d match get s e with Some (JBool true) => true | _ => false end]).
    { destruct (get s e) as [[| [|] | | | | | |]|]; try discriminate H; injection H as <-; reflexivity. }
    rewrite HR, Forall_cons_iff. split.
    + intros [HP _] j' a E Ha. injection E as <-. apply number_double in Ha. rewrite (number_double j d Hd) in Ha. now rewrite <- Ha.
    + intros HP. split; [|constructor]. now apply HP with j.
  - intros H. injection H as <-. split; [|constructor]. intros _ j' a E Ha. injection E as <-. assert (is_number j = true) by (apply number_iff; now exists a). congruence.
Qed.
Lemma unique_iff seen l : unique same seen l = true <-> Forall (fun b => Forall (fun a => same b a = false) seen) l /\ ForallOrdPairs (fun a b => same b a = false) l.
Proof.
  revert seen. induction l as [|x l IH]; intros seen; cbn [unique]; [split; [intros _; split; constructor|reflexivity]|].
  destruct (existsb (same x) seen) eqn:E.
  - split; [discriminate|]. intros [H _]. apply Forall_cons_iff in H as [H _]. apply existsb_exists in E as (a & Ha & E). rewrite Forall_forall in H. rewrite (H a Ha) in E. discriminate E.
  - assert (HE : Forall (fun a => same x a = false) seen).
    { apply Forall_forall. intros a Ha. destruct (same x a) eqn:ES; [|reflexivity]. assert (existsb (same x) seen = true) by (apply existsb_exists; now exists a). congruence. }
    rewrite IH. split.
    + intros [H1 H2]. rewrite Forall_forall in H1. split.
      * constructor; [exact HE|]. apply Forall_forall. intros b Hb. specialize (H1 b Hb). now apply Forall_cons_iff in H1 as [_ H1].
      * constructor; [|exact H2]. apply Forall_forall. intros b Hb. specialize (H1 b Hb). now apply Forall_cons_iff in H1 as [H1 _].
    + intros [H1 H2]. apply Forall_cons_iff in H1 as [_ H1]. inversion H2 as [|x' l' H3 H4]; subst. split; [|exact H4].
      rewrite Forall_forall in *. intros b Hb. constructor; [now apply H3|now apply H1].
Qed.

Lemma rules_iff s v rules : build_rules_for_schema_node rx s = Some rules ->
  (Forall (fun r => passes same r v = true) rules <-> LengthOk s v /\ RangeOk s v /\ OtherOk rx same s v).
Proof.
  unfold build_rules_for_schema_node.
  destruct (pattern_rule rx s) as [r2|] eqn:E2; [|discriminate]. destruct (limit_rule s "minimum" "exclusiveMinimum" Minimum) as [r3|] eqn:E3; [|discriminate].
  destruct (limit_rule s "maximum" "exclusiveMaximum" Maximum) as [r4|] eqn:E4; [|discriminate]. intros H. injection H as <-.
  rewrite !Forall_app, !size_rule_iff, (limit_rule_iff s _ _ _ _ _ E3), (limit_rule_iff s _ _ _ _ _ E4).
  assert (HP : Forall (fun r => passes same r v = true) r2 <-> forall p t, get s "pattern" = Some (JStr p) -> v = JStr t -> len t <= 2048 /\ exists m, rx p = Some m /\ m t = Some true).
  { unfold pattern_rule in E2. destruct (get s "pattern") as [j|]; [|injection E2 as <-; split; [intros _ p t H; discriminate H|constructor]].
    destruct j; try (injection E2 as <-; split; [intros _ p t H; discriminate H|constructor]).
    destruct (1024 <? N.of_nat (length s0)); [discriminate E2|]. destruct (rx s0) as [m|] eqn:ER; [|discriminate E2]. injection E2 as <-. rewrite Forall_cons_iff. unfold len. split.
    - intros [H _] p t Ep ->. injection Ep as <-. cbn [passes] in H. destruct (2048 <? N.of_nat (length t)) eqn:EL; [discriminate H|]. split; [lia|]. exists m. split; [exact ER|].
      destruct (m t) as [[|]|]; try discriminate H. reflexivity.
    - intros H. split; [|constructor]. destruct v; try reflexivity. cbn [passes]. destruct (H s0 s1 eq_refl eq_refl) as (H1 & m' & H2 & H3). rewrite ER in H2. injection H2 as <-.
      rewrite H3. destruct (2048 <? N.of_nat (length s1)) eqn:EL; [lia|reflexivity]. }
  assert (HE : Forall (fun r => passes same r v = true) match get s "enum" with Some (JArr l) => [Enum l] | _ => [] end <->
               forall l, get s "enum" = Some (JArr l) -> Exists (fun a => json_eq v a = true) l).
  { destruct (get s "enum") as [j|]; [|split; [intros _ l H; discriminate H|constructor]]. destruct j; try (split; [intros _ l' H; discriminate H|constructor]).
    rewrite Forall_cons_iff. split.
    - intros [H _] l' E. injection E as <-. cbn [passes] in H. apply existsb_exists in H. now apply Exists_exists.
    - intros H. split; [|constructor]. specialize (H l eq_refl). cbn [passes]. apply existsb_exists. now apply Exists_exists in H. }
  assert (HU : Forall (fun r => passes same r v = true) match get s "uniqueItems" with Some (JBool true) => [UniqueItems] | _ => [] end <->
               forall l, get s "uniqueItems" = Some (JBool true) -> v = JArr l -> ForallOrdPairs (fun a b => same b a = false) l).
  { destruct (get s "uniqueItems") as [j|]; [|split; [intros _ l H; discriminate H|constructor]]. destruct j; try (split; [intros _ l' H; discriminate H|constructor]).
    destruct b; [|split; [intros _ l' H; discriminate H|constructor]]. rewrite Forall_cons_iff. split.
    - intros [H _] l' _ ->. cbn [passes] in H. now apply unique_iff in H as [_ H].
    - intros H. split; [|constructor]. destruct v; try reflexivity. cbn [passes]. apply unique_iff. split; [apply Forall_forall; intros b _; constructor|]. now apply H. }
  rewrite HP, HE, HU. clear HP HE HU E2 E3 E4 r2 r3 r4. unfold LengthOk, RangeOk, OtherOk, len.
  assert (HN1 : (forall j a, get s "minimum" = Some j -> Number j a -> passes same (Minimum a match get s "exclusiveMinimum" with Some (JBool true) => true | _ => false end) v = true) <->
                (forall j a b, get s "minimum" = Some j -> Number j a -> Number v b -> if match get s "exclusiveMinimum" with Some (JBool true) => true | _ => false end then SFleb b a <> true else SFltb b a <> true)).
  { generalize (match get s "exclusiveMinimum" with Some (JBool true) => true | _ => false end) as e. intros e. split.
    - intros H j a b Hj Ha Hb. specialize (H j a Hj Ha). destruct Hb; cbn [passes get_double] in H; destruct e; apply negb_true_iff in H; congruence.
    - intros H j a Hj Ha. destruct v; try reflexivity; cbn [passes]; (specialize (H j a _ Hj Ha ltac:(constructor)); cbn [get_double]; destruct e; apply negb_true_iff; now apply not_true_is_false). }
  assert (HN2 : (forall j a, get s "maximum" = Some j -> Number j a -> passes same (Maximum a match get s "exclusiveMaximum" with Some (JBool true) => true | _ => false end) v = true) <->
                (forall j a b, get s "maximum" = Some j -> Number j a -> Number v b -> if match get s "exclusiveMaximum" with Some (JBool true) => true | _ => false end then SFleb a b <> true else SFltb a b <> true)).
  { generalize (match get s "exclusiveMaximum" with Some (JBool true) => true | _ => false end) as e. intros e. split.
    - intros H j a b Hj Ha Hb. specialize (H j a Hj Ha). destruct Hb; cbn [passes get_double] in H; destruct e; apply negb_true_iff in H; congruence.
    - intros H j a Hj Ha. destruct v; try reflexivity; cbn [passes]; (specialize (H j a _ Hj Ha ltac:(constructor)); cbn [get_double]; destruct e; apply negb_true_iff; now apply not_true_is_false). }
  rewrite HN1, HN2. clear HN1 HN2.
  assert (HS : forall k (f : N -> rule), (forall m, Size s k m -> passes same (f m) v = true) <-> (forall m, Size s k m -> passes same (f m) v = true)) by tauto.
  assert (M1 : (forall m, Size s "minLength" m -> passes same (MinLength m) v = true) <->
    (forall m t, Size s "minLength" m -> v = JStr t -> m <= N.of_nat (length t)) /\ (forall m l, Size s "minLength" m -> v = JArr l -> m <= N.of_nat (length l))).
  { split; [intros H; split; intros m t Hm ->; specialize (H m Hm); cbn [passes] in H; lia|]. intros [H1 H2] m Hm. destruct v; try reflexivity; cbn [passes]; [specialize (H1 m _ Hm eq_refl)|specialize (H2 m _ Hm eq_refl)]; lia. }
  assert (M2 : (forall m, Size s "maxLength" m -> passes same (MaxLength m) v = true) <->
    (forall m t, Size s "maxLength" m -> v = JStr t -> N.of_nat (length t) <= m) /\ (forall m l, Size s "maxLength" m -> v = JArr l -> N.of_nat (length l) <= m)).
  { split; [intros H; split; intros m t Hm ->; specialize (H m Hm); cbn [passes] in H; lia|]. intros [H1 H2] m Hm. destruct v; try reflexivity; cbn [passes]; [specialize (H1 m _ Hm eq_refl)|specialize (H2 m _ Hm eq_refl)]; lia. }
  assert (M3 : (forall m, Size s "minItems" m -> passes same (MinItems m) v = true) <-> (forall m l, Size s "minItems" m -> v = JArr l -> m <= N.of_nat (length l))).
  { split; [intros H m t Hm ->; specialize (H m Hm); cbn [passes] in H; lia|]. intros H2 m Hm. destruct v; try reflexivity; cbn [passes]; specialize (H2 m _ Hm eq_refl); lia. }
  assert (M4 : (forall m, Size s "maxItems" m -> passes same (MaxItems m) v = true) <-> (forall m l, Size s "maxItems" m -> v = JArr l -> N.of_nat (length l) <= m)).
  { split; [intros H m t Hm ->; specialize (H m Hm); cbn [passes] in H; lia|]. intros H2 m Hm. destruct v; try reflexivity; cbn [passes]; specialize (H2 m _ Hm eq_refl); lia. }
  assert (M5 : (forall m, Size s "minProperties" m -> passes same (MinProperties m) v = true) <-> (forall m l, Size s "minProperties" m -> v = JObj l -> m <= N.of_nat (length l))).
  { split; [intros H m t Hm ->; specialize (H m Hm); cbn [passes] in H; lia|]. intros H2 m Hm. destruct v; try reflexivity; cbn [passes]; specialize (H2 m _ Hm eq_refl); lia. }
  assert (M6 : (forall m, Size s "maxProperties" m -> passes same (MaxProperties m) v = true) <-> (forall m l, Size s "maxProperties" m -> v = JObj l -> N.of_nat (length l) <= m)).
  { split; [intros H m t Hm ->; specialize (H m Hm); cbn [passes] in H; lia|]. intros H2 m Hm. destruct v; try reflexivity; cbn [passes]; specialize (H2 m _ Hm eq_refl); lia. }
  rewrite M1, M2, M3, M4, M5, M6. tauto.
Qed.
Lemma rules_none s : build_rules_for_schema_node rx s = None -> ~ Usable rx s.
Proof.
  unfold build_rules_for_schema_node, Usable. intros H (H1 & H2 & H3).
  destruct (pattern_rule rx s) as [r2|] eqn:E2.
  - assert (HL : forall k e f, limit_rule s k e f = None -> exists j, get s e = Some j /\ forall b, j <> JBool b).
    { intros k e f. unfold limit_rule, bool_value. destruct (get s k); [|discriminate]. destruct (is_number j); [|discriminate].
      destruct (get s e) as [j'|]; [|discriminate]. intros HJ. exists j'. split; [reflexivity|]. intros b ->. discriminate HJ. }
    destruct (limit_rule s "minimum" _ _) as [r3|] eqn:E3.
    + destruct (limit_rule s "maximum" _ _) as [r4|] eqn:E4; [discriminate H|]. apply HL in E4 as (j & Ej & Hb). destruct (H3 j Ej) as [b ->]. now apply (Hb b).
    + apply HL in E3 as (j & Ej & Hb). destruct (H2 j Ej) as [b ->]. now apply (Hb b).
  - unfold pattern_rule in E2. destruct (get s "pattern") as [j|]; [|discriminate E2]. destruct j; try discriminate E2.
    destruct (H1 s0 eq_refl) as [HL HN]. unfold len in HL. destruct (1024 <? N.of_nat (length s0)) eqn:EL; [lia|]. destruct (rx s0); [discriminate E2|]. now apply HN.
Qed.
Lemma primitives_post p v s path es : Post (AllUsable rx s) (apply_primitive_rules rx dump same p v s path es) es (LengthOk s v /\ RangeOk s v /\ OtherOk rx same s v).
Proof.
  unfold apply_primitive_rules. destruct (build_rules_for_schema_node rx s) as [rules|] eqn:E.
  - eapply post_iff; [apply (rules_iff s v rules E)|]. apply each_post0. intros r es' _. destruct (passes same r v); [now apply post_true|]. apply post_add. discriminate.
  - cbn [Post]. intros HC. apply rules_none in E. apply E, HC. constructor.
Qed.
End Rules.
