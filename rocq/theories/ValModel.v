(** Model of validation/error.{h,cpp}, validation/rule.{h,cpp} and validation/schema_validator.{h,cpp}. The texts of the
    messages are not modelled. *)
From Verif Require Import Base UtilModel StaticModel ValJson.
From Coq Require Import SpecFloat.
Local Open Scope N_scope.

(** error.h:28-47 without the message *)
Record error := mkE { e_path : list N; e_rule : list N; e_value : option json }.
(** error.h:69 *)
Inductive kind := Full | Preview | NoValue.
Record policy := mkPol { pol_kind : kind; pol_bytes : N }.
(** error.cpp:18-29, schema_validator.cpp:50-61 set_error_value_policy *)
Definition set_error_value_policy (k : kind) (preview_bytes : N) : policy :=
  mkPol k (if preview_bytes <? 16 then 16 else if 65536 <? preview_bytes then 65536 else preview_bytes).
Definition default_policy : policy := mkPol Full 256.

Definition is_integer (j : json) : bool := match j with JInt _ | JUint _ => true | _ => false end.
Definition is_number (j : json) : bool := match j with JInt _ | JUint _ | JReal _ => true | _ => false end.
(** get<long long> of an integer *)
Definition get_ll (j : json) : Z := match j with JInt z => z | JUint n => wrap n | _ => 0%Z end.
(** get<double> of a number *)
Definition get_double (j : json) : spec_float :=
  match j with JInt z => double_of z | JUint n => double_of (Z.of_N n) | JReal d => d | _ => S754_nan end.
Definition type_name (j : json) : list N :=
  str match j with JNull => "null" | JBool _ => "boolean" | JInt _ | JUint _ | JReal _ => "number" | JStr _ => "string" | JArr _ => "array" | JObj _ => "object" end.

(** rule.h:31 without ANY, which no schema can name *)
Inductive data_type := TString | TInteger | TNumber | TBoolean | TObject | TArray | TNull.
(** rule.cpp:52-85 TypeRule::validate, the test *)
Definition has_type (t : data_type) (v : json) : bool :=
  match t, v with
  | TString, JStr _ => true | TInteger, (JInt _ | JUint _) => true | TNumber, (JInt _ | JUint _ | JReal _) => true
  | TBoolean, JBool _ => true | TObject, JObj _ => true | TArray, JArr _ => true | TNull, JNull => true
  | _, _ => false
  end.
(** schema_validator.cpp:283-300, 314-332 *)
Definition type_of_name (s : list N) : option data_type :=
  if beq s (str "string") then Some TString else if beq s (str "integer") then Some TInteger else if beq s (str "number") then Some TNumber
  else if beq s (str "boolean") then Some TBoolean else if beq s (str "object") then Some TObject else if beq s (str "array") then Some TArray
  else if beq s (str "null") then Some TNull else None.

(** What a call ends with: the bool it returns and the errors the Result holds then; an exception; or not within the given depth of calls. *)
Inductive res := Done (ok : bool) (es : list error) | Thrown | Stuck.
Definition also (r : res) (f : bool -> list error -> res) : res := match r with Done b es => f b es | x => x end.
(** a loop over items that collects a bool and goes on *)
Fixpoint each {A} (f : A -> list error -> res) (l : list A) (ok : bool) (es : list error) : res :=
  match l with [] => Done ok es | a :: r => also (f a es) (fun b es => each f r (ok && b) es) end.

Section Library.
(** std::regex: None if the pattern is no regular expression, else the matcher (None: regex_error while matching) *)
Variable rx : list N -> option (list N -> option bool).
(** dump() *)
Variable dump : json -> list N.
(** whether unordered_set<json> takes two items for the same (hash and ==) *)
Variable same : json -> json -> bool.

(** error.cpp:51-75 apply_policy; substr and resize cut octets *)
Definition apply_policy (p : policy) (v : option json) : option json :=
  match v with
  | None => None
  | Some j =>
      match pol_kind p with
      | Full => v
      | NoValue => None
      | Preview =>
          match j with
          | JNull | JBool _ | JInt _ | JUint _ | JReal _ => v
          | JStr s => if N.of_nat (length s) <=? pol_bytes p then v else Some (JStr (firstn (N.to_nat (pol_bytes p)) s))
          | _ => if N.of_nat (length (dump j)) <=? pol_bytes p then v
                 else Some (JObj [(str "_truncated", JBool true); (str "original_kind", JStr (type_name j)); (str "preview", JStr (firstn (N.to_nat (pol_bytes p)) (dump j)))])
          end
      end
  end.
(** error.cpp:31-34 add_error *)
Definition add (p : policy) (path : list N) (rule : string) (v : option json) (es : list error) : list error :=
  es ++ [mkE path (str rule) (apply_policy p v)].

(** rule.h, the rules a schema node can give *)
Inductive rule :=
| MinLength (n : N) | MaxLength (n : N) | Pattern (m : list N -> option bool) | Minimum (d : spec_float) (exclusive : bool) | Maximum (d : spec_float) (exclusive : bool)
| Enum (l : list json) | UniqueItems | MinItems (n : N) | MaxItems (n : N) | MinProperties (n : N) | MaxProperties (n : N).
Definition rule_name (r : rule) : string :=
  match r with
  | MinLength _ => "minLength" | MaxLength _ => "maxLength" | Pattern _ => "pattern" | Minimum _ e => if e then "exclusiveMinimum" else "minimum"
  | Maximum _ e => if e then "exclusiveMaximum" else "maximum" | Enum _ => "enum" | UniqueItems => "uniqueItems" | MinItems _ => "minItems" | MaxItems _ => "maxItems"
  | MinProperties _ => "minProperties" | MaxProperties _ => "maxProperties"
  end.
(** rule.cpp:276-284 the loop of UniqueItemsRule *)
Fixpoint unique (seen l : list json) : bool :=
  match l with [] => true | x :: r => if existsb (same x) seen then false else unique (x :: seen) r end.
(** rule.cpp:98-334 the validate functions, the tests *)
Definition passes (r : rule) (v : json) : bool :=
  match r, v with
  | MinLength n, JStr s => negb (N.of_nat (length s) <? n)
  | MinLength n, JArr l => negb (N.of_nat (length l) <? n)
  | MaxLength n, JStr s => negb (n <? N.of_nat (length s))
  | MaxLength n, JArr l => negb (n <? N.of_nat (length l))
  | Pattern m, JStr s => if 2048 <? N.of_nat (length s) then false else match m s with Some b => b | None => false end
  | Minimum d e, (JInt _ | JUint _ | JReal _) => if e then negb (SFleb (get_double v) d) else negb (SFltb (get_double v) d)
  | Maximum d e, (JInt _ | JUint _ | JReal _) => if e then negb (SFleb d (get_double v)) else negb (SFltb d (get_double v))
  | Enum l, _ => existsb (fun a => json_eq v a) l
  | UniqueItems, JArr l => unique [] l
  | MinItems n, JArr l => negb (N.of_nat (length l) <? n)
  | MaxItems n, JArr l => negb (n <? N.of_nat (length l))
  | MinProperties n, JObj l => negb (N.of_nat (length l) <? n)
  | MaxProperties n, JObj l => negb (n <? N.of_nat (length l))
  | _, _ => true
  end.

(** a size keyword: schema_validator.cpp:90-101, 116-127, 131-142 *)
Definition size_rule (schema : json) (k : string) (f : N -> rule) : list rule :=
  match get schema k with
  | Some j => if is_integer j && (0 <=? get_ll j)%Z then [f (Z.to_N (get_ll j))] else []
  | None => []
  end.
(** value(key, false): a member that is not a boolean is an exception (type_error) *)
Definition bool_value (schema : json) (k : string) : option bool :=
  match get schema k with None => Some false | Some (JBool b) => Some b | Some _ => None end.
(** schema_validator.cpp:105-112 *)
Definition limit_rule (schema : json) (k e : string) (f : spec_float -> bool -> rule) : option (list rule) :=
  match get schema k with
  | Some j => if is_number j then match bool_value schema e with Some b => Some [f (get_double j) b] | None => None end else Some []
  | None => Some []
  end.
(** schema_validator.cpp:102-104, rule.cpp:155-167 *)
Definition pattern_rule (schema : json) : option (list rule) :=
  match get schema "pattern" with
  | Some (JStr p) => if 1024 <? N.of_nat (length p) then None else match rx p with Some m => Some [Pattern m] | None => None end
  | _ => Some []
  end.
(** schema_validator.cpp:86-145 build_rules_for_schema_node; None: an exception. The rules are cached by node (76-84); the cache
    is not modelled: the schema does not change. *)
Definition build_rules_for_schema_node (schema : json) : option (list rule) :=
  let r1 := size_rule schema "minLength" MinLength ++ size_rule schema "maxLength" MaxLength in
  match pattern_rule schema with
  | None => None
  | Some r2 =>
    match limit_rule schema "minimum" "exclusiveMinimum" Minimum with
    | None => None
    | Some r3 =>
      match limit_rule schema "maximum" "exclusiveMaximum" Maximum with
      | None => None
      | Some r4 =>
          Some (r1 ++ r2 ++ r3 ++ r4 ++
                match get schema "enum" with Some (JArr l) => [Enum l] | _ => [] end ++
                size_rule schema "minItems" MinItems ++ size_rule schema "maxItems" MaxItems ++
                match get schema "uniqueItems" with Some (JBool true) => [UniqueItems] | _ => [] end ++
                size_rule schema "minProperties" MinProperties ++ size_rule schema "maxProperties" MaxProperties)
      end
    end
  end.
(** schema_validator.cpp:147-158 apply_primitive_rules *)
Definition apply_primitive_rules (p : policy) (v schema : json) (path : list N) (es : list error) : res :=
  match build_rules_for_schema_node schema with
  | None => Thrown
  | Some rules => each (fun r es => if passes r v then Done true es else Done false (add p path (rule_name r) (Some v) es)) rules true es
  end.

(** schema_validator.cpp:302-334 the types of an array, or the element at fault *)
Fixpoint type_list (l : list json) : list data_type + json * string :=
  match l with
  | [] => inl []
  | JStr s :: r => match type_of_name s with
                   | Some t => match type_list r with inl ts => inl (t :: ts) | inr x => inr x end
                   | None => inr (JStr s, "schemaError.type"%string)
                   end
  | j :: _ => inr (j, "schemaError.type"%string)
  end.
(** schema_validator.cpp:278-347 validate_type_keyword *)
Definition validate_type_keyword (p : policy) (v def : json) (path : list N) (es : list error) : res :=
  match def with
  | JStr s => match type_of_name s with
              | Some t => if has_type t v then Done true es else Done false (add p path "type" (Some v) es)
              | None => Done false (add p path "type" (Some def) es)
              end
  | JArr l => match type_list l with
              | inl ts => if existsb (fun t => has_type t v) ts then Done true es else Done false (add p path "type" (Some v) es)
              | inr (j, name) => Done false (add p path name (Some j) es)
              end
  | _ => Done false (add p path "type" (Some def) es)
  end.
(** path.empty() ? name : path + "." + name *)
Definition dot (path name : list N) : list N := match path with [] => name | _ => path ++ [46] ++ name end.
(** schema_validator.cpp:370-395 validate_required_keyword, for an object *)
Definition validate_required_keyword (p : policy) (members : list (list N * json)) (def : json) (path : list N) (es : list error) : res :=
  match def with
  | JArr l => each (fun j es => match j with
                                | JStr name => match lookup name members with
                                               | Some _ => Done true es
                                               | None => Done false (add p (dot path name) "required" (Some JNull) es)
                                               end
                                | _ => Done false (add p path "schemaError.required" (Some j) es)
                                end) l true es
  | _ => Done false (add p path "schemaError.required" (Some def) es)
  end.
Definition is_object (j : json) : bool := match j with JObj _ => true | _ => false end.
(** schema_validator.cpp:483-497 the path of an error of a sub-validator *)
Definition sub_path (prop_path field_path : list N) : list N :=
  match field_path with
  | [] => prop_path
  | c :: r => match rev prop_path with
              | [] => field_path
              | d :: _ => if (d =? 46) && (c =? 46) then prop_path ++ r
                          else if negb (d =? 46) && negb (c =? 46) then prop_path ++ [46] ++ field_path
                          else prop_path ++ field_path
              end
  end.
Definition item_path (path : list N) (i : nat) : list N := path ++ [91] ++ to_string (Z.of_nat i) ++ [93].
Definition indexed {A} (l : list A) : list (nat * A) := combine (seq 0 (length l)) l.

(** 538-552 the items that are no schemas *)
Definition first_bad (l : list json) : option json := find (fun j => negb (is_object j)) l.
(** 554-560 *)
Fixpoint any_of (f : json -> res) (l : list json) (es : list error) (none : res) : res :=
  match l with
  | [] => none
  | s :: r => match f s with Done true _ => Done true es | Done false _ => any_of f r es none | x => x end
  end.
(** 573-583; the bool is not used, the number counts *)
Fixpoint one_of (p : policy) (path : list N) (f : json -> res) (l : list json) (n : nat) (es : list error) (finish : nat -> list error -> res) : res :=
  match l with
  | [] => finish n es
  | s :: r => if is_object s then
                match f s with Done b _ => one_of p path f r (if b then S n else n) es finish | x => x end
              else one_of p path f r n (add p path "schemaError.oneOf.item" (Some s) es) finish
  end.
(** 418-438 one item of a tuple; the second bool says whether the loop breaks here *)
Fixpoint tuple (f : json -> json -> list N -> list error -> res) (p : policy) (path : list N) (additional : option json)
  (i : nat) (items schemas : list json) (ok : bool) (es : list error) : res :=
  match items with
  | [] => Done ok es
  | x :: r =>
      match schemas with
      | s :: ss => also (f x s (item_path path i) es) (fun b es => tuple f p path additional (S i) r ss (ok && b) es)
      | [] => match additional with
              | Some (JBool false) => Done false (add p (item_path path i) "additionalItems" (Some x) es)
              | Some (JObj a) => also (f x (JObj a) (item_path path i) es) (fun b es => tuple f p path additional (S i) r [] (ok && b) es)
              | _ => tuple f p path additional (S i) r [] ok es
              end
      end
  end.

(** schema_validator.cpp:160-276 validate_recursive with the keyword functions 349-368 (properties), 397-446 (items), 448-507
    (additionalProperties), 509-536 (allOf), 538-565 (anyOf), 567-597 (oneOf), 599-612 (not) and rule.cpp:336-366 (propertyNames).
    [n]: MAX_SCHEMA_DEPTH (64) minus _recursion_depth. [fuel] bounds the calls; a sub-validator (additionalProperties,
    propertyNames) counts its depth from the start again. Values of a sub-validator's errors pass the policy twice. *)
Fixpoint validate_recursive (fuel n : nat) (p : policy) (v schema : json) (path : list N) (es : list error) {struct fuel} : res :=
  match fuel with
  | O => Stuck
  | S f =>
    match n with
    | O => Done false (add p (match path with [] => str "_schema" | _ => path end) "schemaTooDeep" None es)
    | S n' =>
      if negb (is_object schema) then Done false (add p (match path with [] => str "_schema" | _ => path ++ str "._schema" end) "invalidSchemaType" (Some schema) es)
      else
      let before := length es in
      also (match get schema "type" with Some def => validate_type_keyword p v def path es | None => Done true es end) (fun type_ok es =>
      also (if type_ok then apply_primitive_rules p v schema path es else Done false es) (fun primitives_ok es =>
      also (if type_ok then
              match v with
              | JObj members =>
                  also (match get schema "properties" with
                        | Some (JObj defs) =>
                            each (fun d es => match lookup (fst d) members with
                                              | Some x => validate_recursive f n' p x (snd d) (dot path (fst d)) es
                                              | None => Done true es
                                              end) defs true es
                        | Some def => Done false (add p path "schemaError.properties" (Some def) es)
                        | None => Done true es
                        end) (fun b1 es =>
                  also (match get schema "required" with Some def => validate_required_keyword p members def path es | None => Done true es end) (fun b2 es =>
                  also (match get schema "additionalProperties" with
                        | Some def =>
                            let defined := match get schema "properties" with Some (JObj defs) => map fst defs | _ => [] end in
                            (fix go (l : list (list N * json)) (ok : bool) (es : list error) : res :=
                               match l with
                               | [] => Done ok es
                               | (key, val) :: r =>
                                   if existsb (fun k => beq k key) defined then go r ok es else
                                   match def with
                                   | JBool true => go r ok es
                                   | JBool false => go r false (add p (dot path key) "additionalProperties" (Some val) es)
                                   | JObj _ => match validate_recursive f 64 p val def [] [] with
                                               | Done true _ => go r ok es
                                               | Done false sub => go r false (fold_left (fun es e => es ++ [mkE (sub_path (dot path key) (e_path e)) (e_rule e) (apply_policy p (e_value e))]) sub es)
                                               | x => x
                                               end
                                   | _ => Done false (add p path "schemaError.additionalProperties" (Some def) es)
                                   end
                               end) members true es
                        | None => Done true es
                        end) (fun b3 es =>
                  also (match get schema "propertyNames" with
                        | Some (JObj def) =>
                            each (fun m es =>
                              match validate_recursive f 64 default_policy (JStr (fst m)) (JObj def) [] [] with
                              | Done true _ => Done true es
                              | Done false sub =>
                                  let at_ := match path with [] => str "<propertyName:" ++ fst m ++ str ">" | _ => path ++ str ".<propertyName:" ++ fst m ++ str ">" end in
                                  Done false (fold_left (fun es e => es ++ [mkE (at_ ++ match e_path e with [] => [] | q => [46] ++ q end) (e_rule e) (apply_policy p (Some (JStr (fst m))))]) sub es)
                              | x => x
                              end) members true es
                        | _ => Done true es
                        end) (fun b4 es => Done (b1 && b2 && b3 && b4) es))))
              | JArr items =>
                  match get schema "items" with
                  | Some (JObj def) => each (fun ix es => validate_recursive f n' p (snd ix) (JObj def) (item_path path (fst ix)) es) (indexed items) true es
                  | Some (JArr defs) => tuple (fun x s q es => validate_recursive f n' p x s q es) p path (get schema "additionalItems") 0 items defs true es
                  | Some def => Done false (add p (match path with [] => str "_schema.items" | _ => path ++ str "._schema.items" end) "schemaError.items" (Some def) es)
                  | None => Done true es
                  end
              | _ => Done true es
              end
            else Done false es) (fun structural_ok es =>
      also (match get schema "allOf" with
            | Some (JArr (s :: l)) =>
                also (each (fun s es => if is_object s then validate_recursive f n' p v s path es else Done false (add p path "schemaError.allOf.item" (Some s) es)) (s :: l) true es)
                     (fun b es => if b then Done true es else Done false (add p path "allOf" (Some v) es))
            | Some def => Done false (add p path "schemaError.allOf" (Some def) es)
            | None => Done true es
            end) (fun c1 es =>
      also (if c1 then match get schema "anyOf" with
            | Some (JArr (s :: l)) =>
                match first_bad (s :: l) with
                | Some j => Done false (add p path "schemaError.anyOf.item" (Some j) es)
                | None => any_of (fun s => validate_recursive f n' default_policy v s path []) (s :: l) es (Done false (add p path "anyOf" (Some v) es))
                end
            | Some def => Done false (add p path "schemaError.anyOf" (Some def) es)
            | None => Done true es
            end else Done false es) (fun c2 es =>
      also (if c2 then match get schema "oneOf" with
            | Some (JArr (s :: l)) =>
                one_of p path (fun s => validate_recursive f n' default_policy v s path []) (s :: l) 0 es
                       (fun k es => if (k =? 1)%nat then Done true es else Done false (add p path "oneOf" (Some v) es))
            | Some def => Done false (add p path "schemaError.oneOf" (Some def) es)
            | None => Done true es
            end else Done false es) (fun c3 es =>
      also (if c3 then match get schema "not" with
            | Some (JObj def) =>
                also (validate_recursive f n' default_policy v (JObj def) path []) (fun b _ => if b then Done false (add p path "not" (Some v) es) else Done true es)
            | Some def => Done false (add p path "schemaError.not" (Some def) es)
            | None => Done true es
            end else Done false es) (fun c4 es =>
      Done (if (before <? length es)%nat then false else type_ok && primitives_ok && structural_ok && c4) es)))))))
    end
  end.

(** schema_validator.cpp:37-48: None is the exception of the constructor. The Result gets the validator's policy; the errors it
    held stay. *)
Definition validate (fuel : nat) (p : policy) (schema v : json) (es : list error) : option res :=
  if is_object schema then Some (validate_recursive fuel 64 p v schema [] es) else None.
End Library.
