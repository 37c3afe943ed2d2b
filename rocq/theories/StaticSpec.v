(** What the properties of the static file middleware talk about. *)
From Verif Require Import Base UtilModel UtilSpec StaticModel.
Open Scope N_scope.

(** ** Files *)

(** A name a directory can hold. *)
Definition name_ok (x : name) : Prop := x <> [] /\ ~ In 47 x /\ x <> DOT /\ x <> DOTDOT.

(** Directories hold only such names. *)
Definition wf_fs (fs : fsys) : Prop := forall p x n, fs (p ++ [x]) = Some n -> name_ok x.

(** A real path: each step a directory, none of it a link. *)
Definition Real (fs : fsys) (r : list name) : Prop :=
  forall a x b, r = a ++ x :: b ->
    exists n, fs (a ++ [x]) = Some n /\ (forall ab t, n <> Link ab t) /\ (b <> [] -> n = Dir).

Definition RealDir (fs : fsys) (r : list name) : Prop := Real fs r /\ (r = [] \/ fs r = Some Dir).

Definition Under (base r : list name) : Prop := exists s, r = base ++ s.

(** ** Ranges (RFC 9110, 14.1.2) *)

(** A decimal number no greater than what long long holds. *)
Definition digit_value (c : N) : Z := (Z.of_N c - 48)%Z.
Definition value (s : list N) : Z := fold_left (fun v c => (v * 10 + digit_value c)%Z) s 0%Z.
Definition Number (s : list N) (v : Z) : Prop :=
  s <> [] /\ Forall (fun c => 48 <= c <= 57) s /\ v = value s /\ (v <= 9223372036854775807)%Z.

Inductive range_spec := IntRange (first last : Z) | FromRange (first : Z) | SuffixRange (len : Z).

Inductive RangeHeader : list N -> range_spec -> Prop :=
| rh_int a b v w : Number a v -> Number b w -> (v <= w)%Z -> RangeHeader (str "bytes=" ++ a ++ 45 :: b) (IntRange v w)
| rh_from a v : Number a v -> RangeHeader (str "bytes=" ++ a ++ [45]) (FromRange v)
| rh_suffix b w : Number b w -> RangeHeader (str "bytes=" ++ 45 :: b) (SuffixRange w).

(** Position [i] of a representation of [total] octets is selected. *)
Definition Selected (total : Z) (r : range_spec) (i : Z) : Prop :=
  (0 <= i < total)%Z /\
  match r with
  | IntRange v w => (v <= i <= w)%Z
  | FromRange v => (v <= i)%Z
  | SuffixRange len => (total - len <= i)%Z
  end.

(** ** Entity tags (RFC 9110, 8.8.3 and 13.1.2) *)

(** [p] is one of the elements of [s] between commas. *)
Definition Element (s p : list N) : Prop :=
  ~ In 44 p /\ exists a b, s = a ++ p ++ b /\ (a = [] \/ exists a', a = a' ++ [44]) /\ (b = [] \/ exists b', b = 44 :: b').

(** Without the mark of a weak tag. *)
Inductive OpaqueTag : list N -> list N -> Prop :=
| op_weak t : t <> [] -> OpaqueTag (87 :: 47 :: t) t
| op_strong t : (forall u, u <> [] -> t <> 87 :: 47 :: u) -> OpaqueTag t t.

Definition WeakMatch (a b : list N) : Prop := exists t, OpaqueTag a t /\ OpaqueTag b t.
