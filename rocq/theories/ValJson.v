(** JSON values as the library (nlohmann, qb::json) represents them: octet strings, two kinds of integers, IEEE doubles;
    objects are lists of members with distinct names. *)
From Verif Require Import Base UtilModel.
From Coq Require Import SpecFloat.
Local Open Scope N_scope.

Inductive json :=
| JNull | JBool (b : bool)
| JInt (z : Z)          (* number_integer, int64 *)
| JUint (n : N)         (* number_unsigned, uint64 *)
| JReal (d : spec_float)
| JStr (s : list N) | JArr (l : list json) | JObj (l : list (list N * json)).

(** An int64 or uint64 as a double. *)
Definition double_of (z : Z) : spec_float := binary_normalize 53 1024 z 0 false.
(** static_cast<int64_t> of a uint64 (numbers from 2^64 on are none; for them the model says -1) *)
Definition wrap (n : N) : Z := if n <? 9223372036854775808 then Z.of_N n else Z.min (-1) (Z.of_N n - 18446744073709551616)%Z.

Definition lookup {A} (k : list N) (l : list (list N * A)) : option A :=
  match find (fun e => beq (fst e) k) l with Some e => Some (snd e) | None => None end.
Definition get (j : json) (k : string) : option json := match j with JObj l => lookup (str k) l | _ => None end.

(** operator== of the library *)
Fixpoint json_eq (a b : json) {struct a} : bool :=
  match a, b with
  | JNull, JNull => true
  | JBool x, JBool y => Bool.eqb x y
  | JInt x, JInt y => (x =? y)%Z
  | JUint x, JUint y => x =? y
  | JInt x, JUint y => (x =? wrap y)%Z
  | JUint x, JInt y => (wrap x =? y)%Z
  | JReal x, JReal y => SFeqb x y
  | JReal x, JInt y => SFeqb x (double_of y)
  | JInt x, JReal y => SFeqb (double_of x) y
  | JReal x, JUint y => SFeqb x (double_of (Z.of_N y))
  | JUint x, JReal y => SFeqb (double_of (Z.of_N x)) y
  | JStr x, JStr y => beq x y
  | JArr x, JArr y =>
      (fix go x y := match x, y with [] , [] => true | a :: x, b :: y => json_eq a b && go x y | _, _ => false end) x y
  | JObj x, JObj y =>
      (fix go x y := match x, y with [], [] => true | (k, a) :: x, (m, b) :: y => beq k m && json_eq a b && go x y | _, _ => false end) x y
  | _, _ => false
  end.

(** How deep objects are nested in a value. *)
Fixpoint depth (j : json) : nat :=
  match j with
  | JArr l => fold_right (fun x d => Nat.max (depth x) d) 0%nat l
  | JObj l => S (fold_right (fun e d => Nat.max (depth (snd e)) d) 0%nat l)
  | _ => 0%nat
  end.
