(** What the sanitizers are supposed to do, without reference to their code. *)
From Verif Require Import Base UtilSpec ValJson.
Local Open Scope N_scope.

(** ** Texts *)
Definition Space (c : N) : Prop := c = 32 \/ c = 9 \/ c = 10 \/ c = 11 \/ c = 12 \/ c = 13.
Definition Alnum (c : N) : Prop := 65 <= c <= 90 \/ 97 <= c <= 122 \/ 48 <= c <= 57.
(** [t] is [s] without the white space around it *)
Definition Bare (s t : list N) : Prop :=
  exists a b, s = a ++ t ++ b /\ Forall Space a /\ Forall Space b /\ (forall c r, t = c :: r -> ~ Space c) /\ (forall c r, t = r ++ [c] -> ~ Space c).
(** the octets that meet [P], in order *)
Inductive Kept (P : N -> Prop) : list N -> list N -> Prop :=
| kept_nil : Kept P [] []
| kept_in c s t : P c -> Kept P s t -> Kept P (c :: s) (c :: t)
| kept_out c s t : ~ P c -> Kept P s t -> Kept P (c :: s) t.
(** [t] is [s] with octets left out *)
Inductive Part : list N -> list N -> Prop :=
| part_nil : Part [] []
| part_keep c s t : Part s t -> Part (c :: s) (c :: t)
| part_drop c s t : Part s t -> Part (c :: s) t.
(** What a browser shows for a text with the five character references. *)
Inductive Shown : list N -> list N -> Prop :=
| shown_nil : Shown [] []
| shown_plain c t s : ~ In c [38; 60; 62; 34; 39] -> Shown t s -> Shown (c :: t) (c :: s)
| shown_amp t s : Shown t s -> Shown (str "&amp;" ++ t) (38 :: s)
| shown_lt t s : Shown t s -> Shown (str "&lt;" ++ t) (60 :: s)
| shown_gt t s : Shown t s -> Shown (str "&gt;" ++ t) (62 :: s)
| shown_quot t s : Shown t s -> Shown (str "&quot;" ++ t) (34 :: s)
| shown_apos t s : Shown t s -> Shown (str "&#39;" ++ t) (39 :: s).
(** A string literal's value in SQL: quotes are doubled. *)
Inductive Literal : list N -> list N -> Prop :=
| lit_nil : Literal [] []
| lit_quote t s : Literal t s -> Literal (39 :: 39 :: t) (39 :: s)
| lit_other c t s : c <> 39 -> Literal t s -> Literal (c :: t) (c :: s).
(** LIKE with the escape character \ : which strings a pattern matches. *)
Inductive Like : list N -> list N -> Prop :=
| like_nil : Like [] []
| like_escaped c p x : Like p x -> Like (92 :: c :: p) (c :: x)
| like_any y p x : Like p x -> Like (37 :: p) (y ++ x)
| like_one c p x : Like p x -> Like (95 :: p) (c :: x)
| like_plain c p x : ~ In c [92; 37; 95] -> Like p x -> Like (c :: p) (c :: x).

(** ** Places in a JSON value *)
Inductive step := Key (k : list N) | Idx (i : nat).
Fixpoint at_ (loc : list step) (j : json) : option json :=
  match loc, j with
  | [], _ => Some j
  | Key k :: r, JObj m => match lookup k m with Some x => at_ r x | None => None end
  | Idx i :: r, JArr l => match nth_error l i with Some x => at_ r x | None => None end
  | _, _ => None
  end.
(** Which places the segments of a rule's path name: a member, every item, or the item of that number. *)
Inductive Names (number : list N -> option N) : list (list N) -> list step -> Prop :=
| n_here : Names number [] []
| n_key k segs loc : Names number segs loc -> Names number (k :: segs) (Key k :: loc)
| n_all i segs loc : Names number segs loc -> Names number (str "*" :: segs) (Idx i :: loc)
| n_item k i segs loc : k <> str "*" -> number k = Some (N.of_nat i) -> Names number segs loc -> Names number (k :: segs) (Idx i :: loc).
(** The text of a path: names after dots, numbers in brackets. *)
Inductive Path : list N -> list (list N) -> Prop :=
| path_one k : k <> [] -> ~ In 46 k -> ~ In 91 k -> Path k [k]
| path_dot p segs k : Path p segs -> k <> [] -> ~ In 46 k -> ~ In 91 k -> Path (p ++ [46] ++ k) (segs ++ [k])
| path_item p segs k : Path p segs -> k <> [] -> ~ In 91 k -> ~ In 93 k -> Path (p ++ [91] ++ k ++ [93]) (segs ++ [k]).
