(** Instances and counterexamples for C124-C127. *)
From Verif Require Import Base UtilModel StaticModel ValJson ValModel ValSpec ValProps ValProps2 ValProps3.
From Coq Require Import SpecFloat.
Local Open Scope N_scope.

Definition S_ (s : string) : json := JStr (str s).
Definition obj (l : list (string * json)) : json := JObj (map (fun e => (str (fst e), snd e)) l).
(** an engine that knows one pattern: only small letters *)
Definition letters (s : list N) : option bool := Some (forallb (fun c => (97 <=? c) && (c <=? 122)) s).
Definition rx1 (p : list N) : option (list N -> option bool) := if beq p (str "^[a-z]*$") then Some letters else None.
Definition dump1 (j : json) : list N := str "...".

Definition user : json :=
  obj [("type", S_ "object"); ("required", JArr [S_ "name"; S_ "tags"]);
       ("properties", obj [("name", obj [("type", S_ "string"); ("minLength", JUint 2); ("pattern", S_ "^[a-z]*$")]);
                           ("age", obj [("type", S_ "integer"); ("minimum", JUint 0); ("maximum", JUint 150); ("exclusiveMaximum", JBool true)]);
                           ("tags", obj [("type", S_ "array"); ("uniqueItems", JBool true); ("items", obj [("enum", JArr [S_ "a"; S_ "b"])])]);
                           ("contact", obj [("oneOf", JArr [obj [("type", S_ "string")]; obj [("type", S_ "integer")]])])]);
       ("additionalProperties", JBool false)]%string.
Definition good : json := obj [("name", S_ "bob"); ("age", JInt 149); ("tags", JArr [S_ "b"; S_ "a"]); ("contact", JUint 7)]%string.
Definition bad : json := obj [("name", S_ "B"); ("age", JInt 150); ("tags", JArr [S_ "a"; S_ "c"; S_ "a"]); ("contact", JNull); ("extra", JNull)]%string.
Example good_accepted : validate rx1 dump1 json_eq 10 default_policy user good [] = Some (Done true []).
Proof. vm_compute. reflexivity. Qed.
Example good_satisfies : Satisfies rx1 json_eq user good.
Proof. apply (c124_valid rx1 dump1 json_eq 10 default_policy user good [] true []); [vm_compute; lia|vm_compute; lia|vm_compute; reflexivity|reflexivity]. Qed.
Example bad_rejected : exists es, validate rx1 dump1 json_eq 10 default_policy user bad [] = Some (Done false es) /\
  map (fun e => (e_path e, e_rule e)) es =
  [(str "name", str "minLength"); (str "name", str "pattern"); (str "age", str "exclusiveMaximum"); (str "tags", str "uniqueItems");
   (str "tags[1]", str "enum"); (str "contact", str "oneOf"); (str "extra", str "additionalProperties")].
Proof. eexists. split; vm_compute; reflexivity. Qed.
Example user_usable : AllUsable rx1 user.
Proof.
  assert (H : forall s, (exists b es, validate rx1 dump1 json_eq 10 default_policy s JNull [] = Some (Done b es)) -> True) by trivial.
  intros j Hj. unfold Usable.
  assert (HN : get j "exclusiveMinimum" = None /\ (get j "exclusiveMaximum" = None \/ get j "exclusiveMaximum" = Some (JBool true)) /\
               (get j "pattern" = None \/ get j "pattern" = Some (S_ "^[a-z]*$") \/ exists x, get j "pattern" = Some x /\ forall p, x <> JStr p)).
  { revert Hj. unfold user, obj, S_. cbn [map fst snd]. intros Hj.
    repeat match goal with
      | H : Within _ (JStr _) |- _ => inversion H; clear H; subst
      | H : Within _ (JUint _) |- _ => inversion H; clear H; subst
      | H : Within _ (JBool _) |- _ => inversion H; clear H; subst
      | H : Within _ (JObj _) |- _ => inversion H; clear H; subst
      | H : Within _ (JArr _) |- _ => inversion H; clear H; subst
      | H : In _ (_ :: _) |- _ => destruct H as [H|H]; [try (injection H as <- <-); try subst|]
      | H : In _ [] |- _ => destruct H
      end; (split; [reflexivity|split; [(left; reflexivity) || (right; reflexivity)|(left; reflexivity) || (right; left; reflexivity)]]). }
  destruct HN as (H1 & H2 & H3). split; [|split].
  - intros p Ep. destruct H3 as [H3|[H3|(x & H3 & Hx)]]; rewrite H3 in Ep; [discriminate Ep| |injection Ep as ->; now destruct (Hx p)].
    injection Ep as <-. split; [vm_compute; discriminate|vm_compute; discriminate].
  - intros x Ex. congruence.
  - intros x Ex. destruct H2 as [H2|H2]; rewrite H2 in Ex; [discriminate Ex|]. injection Ex as <-. now exists true.
Qed.
Example user_never_throws v : exists b es, validate rx1 dump1 json_eq 10 default_policy user v [] = Some (Done b es).
Proof. unfold user, obj. apply c126_no_throw; [vm_compute; lia|vm_compute; lia|exact user_usable]. Qed.
Example preview : exists es, validate rx1 dump1 json_eq 10 (set_error_value_policy Preview 1) (obj [("maxLength", JUint 3)]%string) (S_ "a password of some length") [] = Some (Done false es) /\
  map e_value es = [Some (S_ "a password of so")].
Proof. eexists. split; vm_compute; reflexivity. Qed.
Example no_values : exists es, validate rx1 dump1 json_eq 10 (set_error_value_policy NoValue 0) user bad [] = Some (Done false es) /\ Forall (fun e => e_value e = None) es.
Proof. eexists. split; [vm_compute; reflexivity|]. repeat constructor. Qed.

(** ** Where the verdict is not the one the schema means *)
Fixpoint nest (n : nat) : json := match n with O => JObj [] | S n => JObj [(str "allOf", JArr [nest n])] end.
Lemma schema_combined rx same s v : (exists m, s = JObj m) ->
  (forall k, In k ["type"; "minLength"; "maxLength"; "minItems"; "maxItems"; "minProperties"; "maxProperties"; "minimum"; "maximum"; "pattern"; "enum"; "uniqueItems";
                   "properties"; "required"; "additionalProperties"; "propertyNames"; "items"]%string -> get s k = None) ->
  CombinedOk (Satisfies rx same) s v -> Satisfies rx same s v.
Proof.
  intros HM HN HC. apply satisfies_schema. split; [exact HM|].
  assert (HS : forall k m, In k ["minLength"; "maxLength"; "minItems"; "maxItems"; "minProperties"; "maxProperties"]%string -> ~ Size s k m).
  { intros k m Hk [(z & E & _)|[E _]]; rewrite HN in E; try discriminate E; cbn in Hk; intuition; subst; cbn; tauto. }
  unfold TypeOk, LengthOk, RangeOk, OtherOk, ObjectOk, ArrayOk.
  repeat match goal with |- context [get s ?k] => rewrite (HN k) by (cbn; tauto) end. split; [exact I|]. split.
  { repeat split; intros m x H; exfalso; revert H; apply HS; cbn; tauto. }
  split; [split; intros ? ? ? E; discriminate E|]. split; [split; [intros ? ? E; discriminate E|split; intros ? E; discriminate E]|].
  split; [intros m _; split; [exact I|split; [exact I|split; exact I]]|]. split; [intros; exact I|exact HC].
Qed.
Ltac absent := let k := fresh in let H := fresh in intros k H; cbn [In] in H; repeat (destruct H as [<-|H]; [reflexivity|]); destruct H.
Lemma nest_satisfied rx same n v : Satisfies rx same (nest n) v.
Proof.
  induction n as [|n IH]; cbn [nest]; apply schema_combined; try (now eexists); try absent.
  assert (HO : exists m, nest n = JObj m) by (destruct n; cbn; now eexists).
    split; [|split; [exact I|split; exact I]]. change (Schemas [nest n] /\ Forall (fun sub => Satisfies rx same sub v) [nest n]).
    split; [split; [discriminate|]|]; (constructor; [assumption|constructor]).
Qed.
(** a schema nested more than 64 deep rejects values that satisfy it; and under "not" it accepts values that do not *)
Theorem c124_deep_refuted_reject : exists schema v es', validate rx1 dump1 json_eq 100 default_policy schema v [] = Some (Done false es') /\ Satisfies rx1 json_eq schema v.
Proof. exists (nest 64), JNull. eexists. split; [vm_compute; reflexivity|apply nest_satisfied]. Qed.
Theorem c124_deep_refuted_accept : exists schema v, validate rx1 dump1 json_eq 100 default_policy schema v [] = Some (Done true []) /\ ~ Satisfies rx1 json_eq schema v.
Proof.
  exists (JObj [(str "not", nest 64)]), JNull. split; [vm_compute; reflexivity|]. intros H. apply satisfies_schema in H as (_ & _ & _ & _ & _ & _ & _ & H).
  destruct H as (_ & _ & _ & H). change (~ Satisfies rx1 json_eq (nest 64) JNull) in H. apply H. apply nest_satisfied.
Qed.
(** limits are compared as doubles: an integer above the maximum is accepted when both round to the same double *)
Theorem c124_integer_maximum_refuted : exists m z, (m < z)%Z /\ validate rx1 dump1 json_eq 10 default_policy (obj [("maximum", JInt m)]%string) (JInt z) [] = Some (Done true []).
Proof. exists 9007199254740992%Z, 9007199254740993%Z. split; [reflexivity|]. vm_compute. reflexivity. Qed.
(** 2^64-1 is taken for -1 *)
Theorem c124_enum_wraps_refuted : validate rx1 dump1 json_eq 10 default_policy (obj [("enum", JArr [JInt (-1)])]%string) (JUint 18446744073709551615) [] = Some (Done true []).
Proof. vm_compute. reflexivity. Qed.
(** minLength counts octets (one letter of two octets is enough here) and counts the items of arrays too *)
Theorem c124_length_octets_refuted : validate rx1 dump1 json_eq 10 default_policy (obj [("minLength", JUint 2)]%string) (JStr [195; 169]) [] = Some (Done true []) /\ exists es, validate rx1 dump1 json_eq 10 default_policy (obj [("minLength", JUint 2)]%string) (JArr [JNull]) [] = Some (Done false es).
Proof. split; [|eexists]; vm_compute; reflexivity. Qed.
(** a numeric exclusiveMinimum beside minimum (draft 6 and later), or a pattern that is no regular expression, is not reported when
    the validator is built but thrown while a value is validated *)
Theorem c126_exclusive_number_refuted : exists v, validate rx1 dump1 json_eq 10 default_policy (obj [("minimum", JUint 1); ("exclusiveMinimum", JUint 0)]%string) v [] = Some Thrown.
Proof. exists JNull. vm_compute. reflexivity. Qed.
Theorem c126_pattern_refuted : exists v, validate rx1 dump1 json_eq 10 default_policy (obj [("pattern", S_ "(")]%string) v [] = Some Thrown.
Proof. exists JNull. vm_compute. reflexivity. Qed.
