(** C124-C127: the schema validator's verdict, its errors, its exceptions, and what errors reveal. *)
From Verif Require Import Base UtilModel StaticModel ValJson ValModel ValSpec ValProps ValProps2.
From Coq Require Import SpecFloat.
Local Open Scope N_scope.

(** ** The meaning of a schema depends on its parts only *)
Lemma forall_iff_in {A} (P Q : A -> Prop) l : (forall x, In x l -> (P x <-> Q x)) -> (Forall P l <-> Forall Q l).
Proof. intros H. rewrite !Forall_forall. split; intros H1 x Hx; apply H; auto. Qed.
Lemma exists_iff_in {A} (P Q : A -> Prop) l : (forall x, In x l -> (P x <-> Q x)) -> (Exists P l <-> Exists Q l).
Proof. intros H. rewrite !Exists_exists. split; intros (x & Hx & H1); exists x; (split; [exact Hx|]); apply H; auto. Qed.

Lemma and_iff (A B C D : Prop) : (A <-> B) -> (C <-> D) -> (A /\ C <-> B /\ D).
Proof. tauto. Qed.
Lemma schema_ext rx same (sat sat' : json -> json -> Prop) s v :
  (forall sub x, (depth sub < depth s)%nat -> (sat sub x <-> sat' sub x)) -> (Schema rx same sat s v <-> Schema rx same sat' s v).
Proof.
  intros H.
  assert (GET : forall kw x, get s kw = Some x -> (depth x < depth s)%nat) by (intros kw x; apply depth_get).
  assert (GETI : forall kw l x, get s kw = Some (JArr l) -> In x l -> (depth x < depth s)%nat).
  { intros kw l x E HI. apply GET in E. apply depth_item in HI. lia. }
  assert (GETM : forall kw l n x, get s kw = Some (JObj l) -> In (n, x) l -> (depth x < depth s)%nat).
  { intros kw l n x E HI. apply GET in E. apply depth_member in HI. lia. }
  assert (HO : forall members, ObjectOk sat s members <-> ObjectOk sat' s members).
  { intros members. unfold ObjectOk. apply and_iff; [|apply and_iff; [reflexivity|apply and_iff]].
    - destruct (get s "properties") as [[| | | | | | |defs]|] eqn:E; try reflexivity.
      split; intros H1 name sub x H2 H3; apply (H sub x (GETM _ _ _ _ E H2)); eapply H1; eassumption.
    - destruct (get s "additionalProperties") as [def|] eqn:E; [|reflexivity]. pose proof (GET _ _ E) as HD.
      destruct def; try reflexivity. split; intros H1 name x H2 H3; apply (H _ x HD); eapply H1; eassumption.
    - destruct (get s "propertyNames") as [def|] eqn:E; [|reflexivity]. pose proof (GET _ _ E) as HD.
      destruct def; try reflexivity. split; intros H1 name x H2; apply (H _ (JStr name) HD); eapply H1; eassumption. }
  assert (HA : forall items, ArrayOk sat s items <-> ArrayOk sat' s items).
  { intros items. unfold ArrayOk. destruct (get s "items") as [def|] eqn:E; [|reflexivity]. pose proof (GET _ _ E) as HD. destruct def; try reflexivity.
    - assert (HX : forall i x, match nth_error l i with Some sub => sat sub x | None => match get s "additionalItems" with Some (JBool false) => False | Some (JObj a) => sat (JObj a) x | _ => True end end <->
                   match nth_error l i with Some sub => sat' sub x | None => match get s "additionalItems" with Some (JBool false) => False | Some (JObj a) => sat' (JObj a) x | _ => True end end).
      { intros i x. destruct (nth_error l i) as [sub|] eqn:En; [apply H; apply nth_error_In in En; now apply GETI with "items"%string l|].
        destruct (get s "additionalItems") as [a|] eqn:Ea; [|reflexivity]. pose proof (GET _ _ Ea) as HDa. destruct a; try reflexivity. now apply H. }
      split; intros H1 i x H2; apply HX; now apply H1.
    - split; intros H1 x H2; apply (H _ x HD); now apply H1. }
  assert (HC : CombinedOk sat s v <-> CombinedOk sat' s v).
  { unfold CombinedOk. apply and_iff; [|apply and_iff; [|apply and_iff]].
    - destruct (get s "allOf") as [[| | | | | |l|]|] eqn:E; try reflexivity. apply and_iff_compat_l. apply forall_iff_in. intros x Hx. apply H. now apply GETI with "allOf"%string l.
    - destruct (get s "anyOf") as [[| | | | | |l|]|] eqn:E; try reflexivity. apply and_iff_compat_l. apply exists_iff_in. intros x Hx. apply H. now apply GETI with "anyOf"%string l.
    - destruct (get s "oneOf") as [[| | | | | |l|]|] eqn:E; try reflexivity. apply and_iff_compat_l.
      assert (HL : forall x, In x l -> (sat x v <-> sat' x v)) by (intros x Hx; apply H; now apply GETI with "oneOf"%string l).
      assert (HW : forall (r r' : json -> json -> Prop), (forall x, In x l -> (r x v <-> r' x v)) ->
        (exists a sub b, l = a ++ sub :: b /\ r sub v /\ Forall (fun t => ~ r t v) (a ++ b)) -> exists a sub b, l = a ++ sub :: b /\ r' sub v /\ Forall (fun t => ~ r' t v) (a ++ b)).
      { intros r r' HR (a & sub & b & El & H1 & H2). exists a, sub, b. split; [exact El|]. split; [apply HR; [rewrite El; apply in_or_app; right; now left|exact H1]|].
        apply Forall_forall. intros x Hx Hs. rewrite Forall_forall in H2. apply (H2 x Hx). apply HR; [|exact Hs]. rewrite El. apply in_app_or in Hx. apply in_or_app. destruct Hx as [Hx|Hx]; [now left|right; now right]. }
      split; apply HW; [exact HL|]. intros x Hx. symmetry. now apply HL.
    - destruct (get s "not") as [def|] eqn:E; [|reflexivity]. pose proof (GET _ _ E) as HD. destruct def; try reflexivity. now rewrite (H _ v HD). }
  unfold Schema. rewrite HC. split; intros (H1 & H2 & H3 & H4 & H5 & H6 & H7 & H8); repeat (split; [assumption|]); (split; [intros m E; apply HO; now apply H6|]); (split; [intros m E; apply HA; now apply H7|]); assumption.
Qed.
Lemma sat_any rx same : forall k k' s v, (depth s < k)%nat -> (depth s < k')%nat -> (Sat rx same k s v <-> Sat rx same k' s v).
Proof.
  induction k as [|k IH]; intros k' s v H1 H2; [lia|]. destruct k' as [|k']; [lia|]. cbn [Sat]. apply schema_ext. intros sub x Hd. apply IH; lia.
Qed.
(** The meaning is the one given keyword by keyword, all the way down. *)
Theorem satisfies_schema rx same s v : Satisfies rx same s v <-> Schema rx same (Satisfies rx same) s v.
Proof. unfold Satisfies at 1. cbn [Sat]. apply schema_ext. intros sub x Hd. apply sat_any; lia. Qed.

Section Theorems.
Variable rx : list N -> option (list N -> option bool).
Variable dump : json -> list N.
Variable same : json -> json -> bool.

(** C124: validate returns true exactly for the values that satisfy the schema. *)
Theorem c124_valid fuel p schema v es b es' : (depth schema < fuel)%nat -> (depth schema < 64)%nat ->
  validate rx dump same fuel p schema v es = Some (Done b es') -> (b = true <-> Satisfies rx same schema v).
Proof.
  unfold validate. intros H1 H2. destruct (is_object schema); [|discriminate]. intros H.
  pose proof (main_all rx dump same fuel 64%nat p v schema [] es (S (depth schema)) H1 H2 ltac:(lia) ltac:(lia)) as HM.
  injection H as H. rewrite H in HM. destruct HM as (new & _ & HM & _). exact HM.
Qed.
(** C125: it keeps the errors that were there, and adds some exactly when it returns false. *)
Theorem c125_errors fuel p schema v es b es' : (depth schema < fuel)%nat -> (depth schema < 64)%nat ->
  validate rx dump same fuel p schema v es = Some (Done b es') -> exists new, es' = es ++ new /\ (new = [] <-> Satisfies rx same schema v).
Proof.
  unfold validate. intros H1 H2. destruct (is_object schema); [|discriminate]. intros H.
  pose proof (main_all rx dump same fuel 64%nat p v schema [] es (S (depth schema)) H1 H2 ltac:(lia) ltac:(lia)) as HM.
  injection H as H. rewrite H in HM. destruct HM as (new & E & HM & HN). exists new. split; [exact E|]. rewrite <- HN. exact HM.
Qed.
(** C126: a schema of objects nested less than 64 deep whose patterns and exclusive limits are usable never makes it throw, and it ends. *)
Theorem c126_no_throw fuel p m v es : (depth (JObj m) < fuel)%nat -> (depth (JObj m) < 64)%nat -> AllUsable rx (JObj m) ->
  exists b es', validate rx dump same fuel p (JObj m) v es = Some (Done b es').
Proof.
  intros H1 H2 HU. pose proof (main_all rx dump same fuel 64%nat p v (JObj m) [] es (S (depth (JObj m))) H1 H2 ltac:(lia) ltac:(lia)) as HM.
  unfold validate. cbn [is_object]. destruct (validate_recursive rx dump same fuel 64%nat p v (JObj m) [] es) as [b es'| |]; [now exists b, es'|now destruct HM|contradiction].
Qed.

(** ** What errors reveal *)
Definition Via (p : policy) (e : error) : Prop := exists x, e_value e = apply_policy dump p x.
Definition Keep (P : error -> Prop) (r : res) : Prop := match r with Done _ es => Forall P es | _ => True end.
Lemma keep_add p path name x es : Forall (Via p) es -> Forall (Via p) (add dump p path name x es).
Proof. intros H. unfold add. apply Forall_app. split; [exact H|]. constructor; [|constructor]. now exists x. Qed.
Lemma keep_also P r k : Keep P r -> (forall b es, Forall P es -> Keep P (k b es)) -> Keep P (also r k).
Proof. intros H1 H2. destruct r; cbn in *; auto. Qed.
Lemma keep_each {A} P (f : A -> list error -> res) : (forall a es, Forall P es -> Keep P (f a es)) -> forall l ok es, Forall P es -> Keep P (each f l ok es).
Proof. intros H. induction l as [|a l IH]; intros ok es He; cbn [each]; [exact He|]. apply keep_also; [now apply H|]. intros b es' H'. now apply IH. Qed.
Lemma keep_tuple p (f : json -> json -> list N -> list error -> res) path extra : (forall x s q es, Forall (Via p) es -> Keep (Via p) (f x s q es)) ->
  forall items i defs ok es, Forall (Via p) es -> Keep (Via p) (tuple dump f p path extra i items defs ok es).
Proof.
  intros H. induction items as [|x items IH]; intros i defs ok es He; cbn [tuple]; [exact He|]. destruct defs as [|s defs].
  - destruct extra as [[| [|] | | | | | |]|]; try (now apply IH); [now apply keep_add|]. apply keep_also; [now apply H|]. intros b es' H'. now apply IH.
  - apply keep_also; [now apply H|]. intros b es' H'. now apply IH.
Qed.
Lemma keep_any_of P f : forall l es none, Forall P es -> Keep P none -> Keep P (any_of f l es none).
Proof. induction l as [|s l IH]; intros es none H1 H2; cbn [any_of]; [exact H2|]. destruct (f s) as [[|] es'| |]; cbn; auto. Qed.
Lemma keep_one_of p path f : forall l n es finish, Forall (Via p) es -> (forall k es, Forall (Via p) es -> Keep (Via p) (finish k es)) -> Keep (Via p) (one_of dump p path f l n es finish).
Proof.
  induction l as [|s l IH]; intros n es finish H1 H2; cbn [one_of]; [now apply H2|]. destruct (is_object s); [destruct (f s); cbn; auto|]. apply IH; [now apply keep_add|exact H2].
Qed.
Ltac keep := repeat first [ assumption | apply keep_add | exact I ].
Lemma keep_type p v def path es : Forall (Via p) es -> Keep (Via p) (validate_type_keyword dump p v def path es).
Proof.
  intros H. unfold validate_type_keyword. destruct def; try (now apply keep_add).
  - destruct (type_of_name s); [destruct (has_type d v)|]; cbn [Keep]; keep.
  - destruct (type_list l) as [ts|[j nm]]; [destruct (existsb _ ts)|]; cbn [Keep]; keep.
Qed.
Lemma keep_primitive p v s path es : Forall (Via p) es -> Keep (Via p) (apply_primitive_rules rx dump same p v s path es).
Proof.
  intros H. unfold apply_primitive_rules. destruct (build_rules_for_schema_node rx s); [|exact I]. apply keep_each; [|exact H]. intros r es' He. destruct (passes same r v); cbn [Keep]; keep.
Qed.
Lemma keep_required p members def path es : Forall (Via p) es -> Keep (Via p) (validate_required_keyword dump p members def path es).
Proof.
  intros H. unfold validate_required_keyword. destruct def; try (now apply keep_add). apply keep_each; [|exact H]. intros j es' He. destruct j; try (now apply keep_add).
  destruct (lookup s members); cbn [Keep]; keep.
Qed.
Lemma keep_recursive : forall fuel n p v s path es, Forall (Via p) es -> Keep (Via p) (validate_recursive rx dump same fuel n p v s path es).
Proof.
  induction fuel as [|f IH]; intros n p v s path es H; cbn [validate_recursive]; [exact I|]. destruct n as [|n']; [now apply keep_add|].
  destruct (is_object s); cbn [negb]; [|now apply keep_add]. cbv zeta.
  apply keep_also; [destruct (get s "type"); [now apply keep_type|exact H]|]. intros t es0 H0.
  apply keep_also; [destruct t; [now apply keep_primitive|exact H0]|]. intros pr es1 H1.
  apply keep_also.
  { destruct t; [|exact H1]. destruct v as [| | | | | |items|members]; try exact H1.
    - destruct (get s "items") as [def|]; [|exact H1]. destruct def; try (now apply keep_add).
      + now apply keep_tuple; [intros; apply IH|].
      + apply keep_each; [|exact H1]. intros ix es' He. now apply IH.
    - apply keep_also.
      { destruct (get s "properties") as [def|]; [|exact H1]. destruct def; try (now apply keep_add). apply keep_each; [|exact H1]. intros d es' He.
        destruct (lookup (fst d) members); [now apply IH|exact He]. }
      intros b1 es2 H2. apply keep_also; [destruct (get s "required"); [now apply keep_required|exact H2]|]. intros b2 es3 H3.
      apply keep_also.
      { destruct (get s "additionalProperties") as [def|]; [|exact H3]. cbv zeta.
        set (defined := match get s "properties" with Some (JObj defs) => map fst defs | _ => [] end). clearbody defined.
        match goal with |- Keep _ (?g members true es3) => set (go := g) end. revert H3. generalize true as ok. generalize es3 as es4. clear es3.
        generalize members as ms. induction ms as [|[key val] ms IHm]; intros es4 ok H4; [exact H4|]. cbn [go]. fold go.
        destruct (existsb _ defined); [now apply IHm|]. destruct def as [|b| | | | | |def']; try (now apply keep_add).
        - destruct b; apply IHm; [exact H4|now apply keep_add].
        - destruct (validate_recursive rx dump same f 64%nat p val (JObj def') [] []) as [[|] sub| |]; cbn [Keep]; try exact I; [now apply IHm|].
          apply IHm. rewrite fold_errors. apply Forall_app. split; [exact H4|]. rewrite Forall_map. apply Forall_forall. intros e _. cbn. now exists (e_value e). }
      intros b3 es4 H4. apply keep_also; [|intros b4 es5 H5; exact H5].
      destruct (get s "propertyNames") as [def|]; [|exact H4]. destruct def; try exact H4. apply keep_each; [|exact H4]. intros m es' He.
      destruct (validate_recursive rx dump same f 64%nat default_policy (JStr (fst m)) (JObj l) [] []) as [[|] sub| |]; cbn [Keep]; try exact I; [exact He|].
      rewrite fold_errors. apply Forall_app. split; [exact He|]. rewrite Forall_map. apply Forall_forall. intros e _. cbn. now exists (Some (JStr (fst m))). }
  intros st es2 H2. apply keep_also.
  { destruct (get s "allOf") as [def|]; [|exact H2]. destruct def as [| | | | | |[|s0 l]|]; try (now apply keep_add).
    apply keep_also; [|intros [|] es' He; [exact He|now apply keep_add]]. apply keep_each; [|exact H2]. intros j es' He. destruct (is_object j); [now apply IH|now apply keep_add]. }
  intros c1 es3 H3. apply keep_also.
  { destruct c1; [|exact H3]. destruct (get s "anyOf") as [def|]; [|exact H3]. destruct def as [| | | | | |[|s0 l]|]; try (now apply keep_add).
    destruct (first_bad (s0 :: l)); [now apply keep_add|]. apply keep_any_of; [exact H3|now apply keep_add]. }
  intros c2 es4 H4. apply keep_also.
  { destruct c2; [|exact H4]. destruct (get s "oneOf") as [def|]; [|exact H4]. destruct def as [| | | | | |[|s0 l]|]; try (now apply keep_add).
    apply keep_one_of; [exact H4|]. intros k es' He. destruct (k =? 1)%nat; [exact He|now apply keep_add]. }
  intros c3 es5 H5. apply keep_also; [|intros c4 es6 H6; exact H6].
  destruct c3; [|exact H5]. destruct (get s "not") as [def|]; [|exact H5]. destruct def; try (now apply keep_add).
  destruct (validate_recursive rx dump same f n' default_policy v (JObj l) path []) as [[|] es'| |]; cbn [also Keep]; try exact I; [now apply keep_add|exact H5].
Qed.

(** What an error may show of the offending value under a policy. *)
Definition Shows (p : policy) (v : option json) : Prop :=
  match pol_kind p, v with
  | Full, _ => True
  | NoValue, _ => v = None
  | Preview, None => True
  | Preview, Some j =>
      match j with
      | JNull | JBool _ | JInt _ | JUint _ | JReal _ => True
      | JStr s => len s <= pol_bytes p
      | JArr _ => len (dump j) <= pol_bytes p
      | JObj _ => len (dump j) <= pol_bytes p \/
                  exists kind text, len text <= pol_bytes p /\ j = JObj [(str "_truncated", JBool true); (str "original_kind", JStr kind); (str "preview", JStr text)]
      end
  end.
Lemma apply_policy_shows p x : Shows p (apply_policy dump p x).
Proof.
  unfold Shows, apply_policy, len. destruct (pol_kind p) eqn:EK; [exact I| |destruct x; reflexivity].
  destruct x as [j|]; [|exact I]. destruct j; try exact I.
  - destruct (N.of_nat (length s) <=? pol_bytes p) eqn:E; [lia|]. rewrite firstn_length. lia.
  - destruct (N.of_nat (length (dump (JArr l))) <=? pol_bytes p) eqn:E; [lia|]. right. eexists _, _. split; [|reflexivity]. rewrite firstn_length. lia.
  - destruct (N.of_nat (length (dump (JObj l))) <=? pol_bytes p) eqn:E; [left; lia|]. right. eexists _, _. split; [|reflexivity]. rewrite firstn_length. lia.
Qed.
(** C127: whatever the schema and the value, the errors show no more than the policy allows. *)
Theorem c127_values fuel p schema v b es' :
  validate rx dump same fuel p schema v [] = Some (Done b es') -> Forall (fun e => Shows p (e_value e)) es'.
Proof.
  unfold validate. destruct (is_object schema); [|discriminate]. intros H. injection H as H.
  pose proof (keep_recursive fuel 64%nat p v schema [] [] (Forall_nil _)) as HK. rewrite H in HK. cbn in HK. eapply Forall_impl; [|exact HK]. intros e [x ->]. apply apply_policy_shows.
Qed.
Theorem c127_limits k n : pol_kind (set_error_value_policy k n) = k /\ 16 <= pol_bytes (set_error_value_policy k n) <= 65536 /\
  (16 <= n <= 65536 -> pol_bytes (set_error_value_policy k n) = n).
Proof. unfold set_error_value_policy. cbn [pol_kind pol_bytes]. split; [reflexivity|]. destruct (n <? 16) eqn:E; [lia|]. destruct (65536 <? n) eqn:E2; lia. Qed.
End Theorems.
