(** What it means for a value to satisfy a schema, keyword by keyword (JSON Schema draft 4 without references and formats), and
    when a schema is well formed. [rx] is the regular expression engine, [same] what the library's set of values takes as equal. *)
From Verif Require Import Base ValJson.
From Coq Require Import SpecFloat.
Local Open Scope N_scope.

(** ** Types *)
Inductive Typed : list N -> json -> Prop :=
| ty_string s : Typed (str "string") (JStr s)
| ty_integer z : Typed (str "integer") (JInt z)
| ty_natural n : Typed (str "integer") (JUint n)
| ty_number_i z : Typed (str "number") (JInt z)
| ty_number_u n : Typed (str "number") (JUint n)
| ty_number_d d : Typed (str "number") (JReal d)
| ty_boolean b : Typed (str "boolean") (JBool b)
| ty_object l : Typed (str "object") (JObj l)
| ty_array l : Typed (str "array") (JArr l)
| ty_null : Typed (str "null") JNull.
Definition TypeName (t : list N) : Prop := In t (map str ["string"; "integer"; "number"; "boolean"; "object"; "array"; "null"]%string).
Definition TypeOk (s v : json) : Prop :=
  match get s "type" with
  | None => True
  | Some (JStr t) => Typed t v
  | Some (JArr l) => Forall (fun j => exists t, j = JStr t /\ TypeName t) l /\ Exists (fun j => exists t, j = JStr t /\ Typed t v) l
  | Some _ => False
  end.

(** ** Keywords about one value *)
(** a size: a non-negative integer *)
Definition Size (s : json) (k : string) (m : N) : Prop :=
  (exists z, get s k = Some (JInt z) /\ (0 <= z)%Z /\ m = Z.to_N z) \/ (get s k = Some (JUint m) /\ m < 9223372036854775808).
(** a number, as a double *)
Inductive Number : json -> spec_float -> Prop :=
| num_i z : Number (JInt z) (double_of z) | num_u n : Number (JUint n) (double_of (Z.of_N n)) | num_d d : Number (JReal d) d.
Definition len {A} (l : list A) : N := N.of_nat (length l).
Definition LengthOk (s v : json) : Prop :=
  (forall m t, Size s "minLength" m -> v = JStr t -> m <= len t) /\ (forall m l, Size s "minLength" m -> v = JArr l -> m <= len l) /\
  (forall m t, Size s "maxLength" m -> v = JStr t -> len t <= m) /\ (forall m l, Size s "maxLength" m -> v = JArr l -> len l <= m) /\
  (forall m l, Size s "minItems" m -> v = JArr l -> m <= len l) /\ (forall m l, Size s "maxItems" m -> v = JArr l -> len l <= m) /\
  (forall m l, Size s "minProperties" m -> v = JObj l -> m <= len l) /\ (forall m l, Size s "maxProperties" m -> v = JObj l -> len l <= m).
Definition RangeOk (s v : json) : Prop :=
  (forall j a b, get s "minimum" = Some j -> Number j a -> Number v b ->
     if match get s "exclusiveMinimum" with Some (JBool true) => true | _ => false end then SFleb b a <> true else SFltb b a <> true) /\
  (forall j a b, get s "maximum" = Some j -> Number j a -> Number v b ->
     if match get s "exclusiveMaximum" with Some (JBool true) => true | _ => false end then SFleb a b <> true else SFltb a b <> true).

Section Spec.
Variable rx : list N -> option (list N -> option bool).
Variable same : json -> json -> bool.

Definition OtherOk (s v : json) : Prop :=
  (forall p t, get s "pattern" = Some (JStr p) -> v = JStr t -> len t <= 2048 /\ exists m, rx p = Some m /\ m t = Some true) /\
  (forall l, get s "enum" = Some (JArr l) -> Exists (fun a => json_eq v a = true) l) /\
  (forall l, get s "uniqueItems" = Some (JBool true) -> v = JArr l -> ForallOrdPairs (fun a b => same b a = false) l).

(** ** Keywords with schemas; [sat] says which values satisfy those *)
Definition ObjectOk (sat : json -> json -> Prop) (s : json) (members : list (list N * json)) : Prop :=
  match get s "properties" with
  | None => True
  | Some (JObj defs) => forall name sub x, In (name, sub) defs -> lookup name members = Some x -> sat sub x
  | Some _ => False
  end /\
  match get s "required" with
  | None => True
  | Some (JArr l) => forall j, In j l -> exists name x, j = JStr name /\ lookup name members = Some x
  | Some _ => False
  end /\
  match get s "additionalProperties" with
  | None => True
  | Some def => forall name x, In (name, x) members -> (forall defs, get s "properties" = Some (JObj defs) -> ~ In name (map fst defs)) ->
      match def with JBool b => b = true | JObj _ => sat def x | _ => False end
  end /\
  match get s "propertyNames" with
  | Some (JObj def) => forall name x, In (name, x) members -> sat (JObj def) (JStr name)
  | _ => True
  end.
Definition ArrayOk (sat : json -> json -> Prop) (s : json) (items : list json) : Prop :=
  match get s "items" with
  | None => True
  | Some (JObj def) => forall x, In x items -> sat (JObj def) x
  | Some (JArr defs) => forall i x, nth_error items i = Some x ->
      match nth_error defs i with
      | Some sub => sat sub x
      | None => match get s "additionalItems" with Some (JBool false) => False | Some (JObj a) => sat (JObj a) x | _ => True end
      end
  | Some _ => False
  end.
Definition Schemas (l : list json) : Prop := l <> [] /\ Forall (fun j => exists m, j = JObj m) l.
Definition CombinedOk (sat : json -> json -> Prop) (s v : json) : Prop :=
  match get s "allOf" with
  | None => True | Some (JArr l) => Schemas l /\ Forall (fun sub => sat sub v) l | Some _ => False
  end /\
  match get s "anyOf" with
  | None => True | Some (JArr l) => Schemas l /\ Exists (fun sub => sat sub v) l | Some _ => False
  end /\
  match get s "oneOf" with
  | None => True
  | Some (JArr l) => Schemas l /\ exists a sub b, l = a ++ sub :: b /\ sat sub v /\ Forall (fun t => ~ sat t v) (a ++ b)
  | Some _ => False
  end /\
  match get s "not" with
  | None => True | Some (JObj def) => ~ sat (JObj def) v | Some _ => False
  end.
(** ** A schema, given what its parts mean *)
Definition Schema (sat : json -> json -> Prop) (s v : json) : Prop :=
  (exists m, s = JObj m) /\ TypeOk s v /\ LengthOk s v /\ RangeOk s v /\ OtherOk s v /\
  (forall members, v = JObj members -> ObjectOk sat s members) /\ (forall items, v = JArr items -> ArrayOk sat s items) /\ CombinedOk sat s v.
Fixpoint Sat (k : nat) (s v : json) : Prop := match k with O => False | S k => Schema (Sat k) s v end.
(** The value satisfies the schema. *)
Definition Satisfies (s v : json) : Prop := Sat (S (depth s)) s v.

(** ** Schemas that can be used: patterns are short regular expressions, exclusive limits are flags *)
Definition Usable (s : json) : Prop :=
  (forall p, get s "pattern" = Some (JStr p) -> len p <= 1024 /\ rx p <> None) /\
  (forall j, get s "exclusiveMinimum" = Some j -> exists b, j = JBool b) /\ (forall j, get s "exclusiveMaximum" = Some j -> exists b, j = JBool b).
End Spec.
Inductive Within : json -> json -> Prop :=
| w_self j : Within j j
| w_item j x l : In x l -> Within j x -> Within j (JArr l)
| w_member j k x l : In (k, x) l -> Within j x -> Within j (JObj l).
Definition AllUsable rx (s : json) : Prop := forall j, Within j s -> Usable rx j.
