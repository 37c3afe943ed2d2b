(** What it means for a request to meet the rules of a validator, without reference to the code. The rules themselves ([irule],
    [rule_set], [validator]) are the application's configuration and are taken from the model. *)
From Verif Require Import Base UtilSpec H2FieldSpec Http1Spec ValJson ValModel ValSpec SanModel ReqModel FloatFacts.
From Coq Require Import SpecFloat.
Local Open Scope N_scope.

(** ** Texts as values *)
(** an optional minus sign and digits *)
Inductive Integer : list N -> Z -> Prop :=
| int_pos ds n : Decimal ds n -> Integer ds (Z.of_N n)
| int_neg ds n : Decimal ds n -> Integer (45 :: ds) (- Z.of_N n).
Definition Long (z : Z) : Prop := (- 2 ^ 63 <= z < 2 ^ 63)%Z.
Definition SameText (a : list N) (b : string) : Prop := map lower a = map lower (str b).
Section Values.
Variable real : list N -> option spec_float.
(** The text, read as a value of the type, is the value. A parameter declared an array is left a text; there are no objects. *)
Inductive Reads : option data_type -> list N -> json -> Prop :=
| reads_string v : Reads (Some TString) v (JStr v)
| reads_array v : Reads (Some TArray) v (JStr v)
| reads_integer v z : Integer v z -> Long z -> Reads (Some TInteger) v (JInt z)
| reads_whole v d z : real v = Some d -> Whole d z -> Long z -> Reads (Some TNumber) v (JInt z)
| reads_real v d : real v = Some d -> finite d = true -> (forall z, Whole d z -> ~ Long z) -> Reads (Some TNumber) v (JReal d)
| reads_true v : SameText v "true" \/ v = str "1" -> Reads (Some TBoolean) v (JBool true)
| reads_false v : SameText v "false" \/ v = str "0" -> Reads (Some TBoolean) v (JBool false).
End Values.

(** ** Rules *)
Definition Holds (r : irule) (j : json) : Prop := forall p path es, fst (r p j path es) = Some true.
(** A rule that reports what it rejects: its verdict depends on the value alone; it adds errors exactly when it returns false, and
    never removes any. *)
Definition Honest (r : irule) : Prop :=
  forall j, (forall p path es, r p j path es = (Some true, es)) \/
            (forall p path es, fst (r p j path es) <> Some true /\ exists new, snd (r p j path es) = es ++ new /\ (fst (r p j path es) = Some false -> new <> [])).
Definition HonestRules (pv : option param_validator) : Prop := forall v d, pv = Some v -> In d (pv_defs v) -> Forall Honest (rs_rules (snd d)).

(** ** Parameters *)
Section Requests.
Variable rx : list N -> option (list N -> option bool).
Variable same : json -> json -> bool.
Variable real : list N -> option spec_float.
Variable number : list N -> option N.
Variable parse : list N -> option json.
Variable dump_document : json -> option (list N).

(** one occurrence of a parameter *)
Definition Accepts (rs : rule_set) (v : list N) : Prop :=
  exists j, match rs_parser rs with Some f => f v = Some (j, true) | None => Reads real (rs_type rs) v j end /\ Forall (fun r => Holds r j) (rs_rules rs).
(** all occurrences; without any the default counts, and without default it must be optional *)
Definition AcceptsAll (rs : rule_set) (vs : list (list N)) : Prop :=
  match vs, rs_default rs with
  | [], Some v => Accepts rs v
  | [], None => rs_required rs = false
  | _, _ => Forall (Accepts rs) vs
  end.
(** the parameters of the request under the defined names; in strict mode no others *)
Definition ParamsOk (pv : option param_validator) (params : list (list N * list (list N))) : Prop :=
  forall v, pv = Some v ->
    (forall name rs, In (name, rs) (pv_defs v) -> AcceptsAll rs (values_of name (fields_of params))) /\
    (pv_strict v = true -> forall f, In f (fields_of params) -> exists d, In d (pv_defs v) /\ map lower (fst d) = map lower (fst f)).
Definition PathOk (pv : option param_validator) (path_params : option (list N -> option (list N))) : Prop :=
  forall v, pv = Some v -> exists get, path_params = Some get /\
    forall d, In d (pv_defs v) -> AcceptsAll (snd d) (match get (rs_name (snd d)) with Some x => [x] | None => [] end).
(** an empty body stands for null *)
Definition BodyOk (schema : option json) (body : list N) : Prop :=
  forall s, schema = Some s -> exists j, (body = [] /\ j = JNull \/ body <> [] /\ parse body = Some j) /\ Satisfies rx same s j.
Definition Meets (v : validator) (r : vrequest) (path_params : option (list N -> option (list N))) : Prop :=
  BodyOk (v_schema v) (vr_body r) /\ ParamsOk (v_query v) (vr_queries r) /\ ParamsOk (v_header v) (vr_headers r) /\ PathOk (v_path v) path_params.

(** ** Sanitizing *)
Inductive Through : list (list N -> option (list N)) -> list N -> list N -> Prop :=
| through_nil v : Through [] v v
| through_cons f fs v w u : f v = Some w -> Through fs w u -> Through (f :: fs) v u.
(** the functions added for a name *)
Definition Functions (ss : sanitizers) (name : list N) : list (list N -> option (list N)) :=
  flat_map snd (filter (fun e => beq (map lower (fst e)) (map lower name)) ss).
Definition CleanMap (ss : sanitizers) (m m' : list (list N * list (list N))) : Prop :=
  Forall2 (fun e e' => fst e' = fst e /\ Forall2 (Through (Functions ss (fst e))) (snd e) (snd e')) m m'.
Definition CleanBody (rules : option (list (list N * list (list N -> option (list N))))) (b b' : list N) : Prop :=
  match rules, b with
  | None, _ | _, [] => b' = b
  | Some rules, _ => exists j j', parse b = Some j /\ sanitize number rules j = Some j' /\ dump_document j' = Some b'
  end.
Definition Cleaned (v : validator) (r r' : vrequest) : Prop :=
  CleanMap (v_query_sanitizers v) (vr_queries r) (vr_queries r') /\ CleanMap (v_header_sanitizers v) (vr_headers r) (vr_headers r') /\
  CleanBody (v_body_sanitizer v) (vr_body r) (vr_body r').
End Requests.

(** ** Maps whose names are octets and distinct up to case *)
Definition Named {A} (m : list (list N * A)) : Prop := Forall (fun e => bytes_ok (fst e)) m /\ NoDup (map (fun e => map lower (fst e)) m).
(** Everything the application supplies as text consists of octets. *)
Definition Octets (v : validator) : Prop :=
  (forall e f x y, In e (v_query_sanitizers v) \/ In e (v_header_sanitizers v) -> In f (snd e) -> bytes_ok x -> f x = Some y -> bytes_ok y) /\
  (forall pv d x, v_query v = Some pv \/ v_header v = Some pv \/ v_path v = Some pv -> In d (pv_defs pv) -> rs_default (snd d) = Some x -> bytes_ok x).
(** What the interface of the validator produces: such maps, path rules only together with at least one name, and a schema
    nested less than 64 deep; every rule reports what it rejects. *)
Definition Configured (fuel : nat) (v : validator) : Prop :=
  Named (v_query_sanitizers v) /\ Named (v_header_sanitizers v) /\
  (forall pv, v_query v = Some pv \/ v_header v = Some pv \/ v_path v = Some pv -> Named (pv_defs pv) /\ pv_defs pv <> []) /\
  (forall s, v_schema v = Some s -> (depth s < fuel)%nat /\ (depth s < 64)%nat) /\
  HonestRules (v_query v) /\ HonestRules (v_header v) /\ HonestRules (v_path v).
Definition RequestMap (m : list (list N * list (list N))) : Prop := Named m /\ Forall (fun e => Forall bytes_ok (snd e)) m.
