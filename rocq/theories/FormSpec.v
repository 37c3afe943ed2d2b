(** What a form and its text are, in terms of names, values and pieces only. *)
From Verif Require Import Base.
Local Open Scope N_scope.

(** The values submitted under a name, in order. *)
Definition submitted (k : list N) (l : list (list N * list N)) : list (list N) := map snd (filter (fun p => if list_eq_dec N.eq_dec (fst p) k then true else false) l).
(** The text cut at every ampersand. *)
Inductive Cut : list N -> list (list N) -> Prop :=
| Cut_last p : ~ In 38 p -> Cut p [p]
| Cut_more p s l : ~ In 38 p -> Cut s l -> Cut (p ++ 38 :: s) (p :: l).
(** The name and the value of a piece: at its first equals sign; a piece without one is a name. *)
Inductive Pair : list N -> list N -> list N -> Prop :=
| Pair_eq n v : ~ In 61 n -> Pair (n ++ 61 :: v) n v
| Pair_name n : ~ In 61 n -> Pair n n [].
(** What is asked of percent coding. *)
Definition Coding (encode decode : list N -> list N) : Prop :=
  decode [] = [] /\ (forall s, bytes_ok s -> decode (encode s) = s /\ ~ In 38 (encode s) /\ ~ In 61 (encode s)).
(** The pairs a text stands for: nameless ones are left out. *)
Inductive Denotes (decode : list N -> list N) : list (list N) -> list (list N * list N) -> Prop :=
| Den_nil : Denotes decode [] []
| Den_skip p n v ps l : Pair p n v -> decode n = [] -> Denotes decode ps l -> Denotes decode (p :: ps) l
| Den_take p n v ps l : Pair p n v -> decode n <> [] -> Denotes decode ps l -> Denotes decode (p :: ps) ((decode n, decode v) :: l).
