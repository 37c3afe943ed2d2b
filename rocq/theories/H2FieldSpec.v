(** Independent specification for HTTP/2 header fields, stream states and windows. *)
From Verif Require Import Base.
Local Open Scope N_scope.
Notation hfield := (list N * list N)%type.

(** RFC 9110 5.6.2 tchar without upper-case letters. *)
Definition LowerTchar (c : N) : Prop :=
  (97 <= c <= 122) \/ (48 <= c <= 57) \/ In c (str "!#$%&'*+-.^_`|~").
(** RFC 9113 8.2.1 / RFC 9110 5.5: no control characters but HTAB, no DEL. *)
Definition FieldVchar (c : N) : Prop := c = 9 \/ (32 <= c /\ c <> 127).

Definition Pseudo (f : hfield) : Prop := exists r, fst f = 58 :: r.

(** Decimal value of a digit string. *)
Definition Digit (c : N) : Prop := 48 <= c <= 57.
Fixpoint dec_val (s : list N) : N := match s with [] => 0 | c :: r => (c - 48) * 10 ^ N.of_nat (length r) + dec_val r end.

(** The pseudo-header fields of a list, in order. *)
Inductive PseudoOf : list hfield -> list hfield -> Prop :=
| po_nil : PseudoOf [] []
| po_take f fs ps : Pseudo f -> PseudoOf fs ps -> PseudoOf (f :: fs) (f :: ps)
| po_skip f fs ps : ~ Pseudo f -> PseudoOf fs ps -> PseudoOf (f :: fs) ps.

(** Events on a stream. *)
Inductive sevent := SendEnd | RecvEnd | SendNoEnd | RecvNoEnd | SendRst | RecvRst.
