(** What is said about compression, without reference to the model. *)
From Verif Require Import Base UtilSpec Http1Spec HdrSpec.
Local Open Scope N_scope.

Definition Same (a b : list N) : Prop := map lower a = map lower b.

(** The weight (in thousandths) a client gives to a coding: that of the first element naming it, else that of the last wildcard, else none at all. *)
Inductive Quality (es : list (list N * N)) (x : list N) : N -> Prop :=
| q_named a n q b : es = a ++ (n, q) :: b -> Same n x -> Forall (fun e => ~ Same (fst e) x) a -> Quality es x q
| q_wildcard a q b : Forall (fun e => ~ Same (fst e) x) es -> es = a ++ (str "*", q) :: b -> Forall (fun e => fst e <> str "*") b -> Quality es x q
| q_absent : Forall (fun e => ~ Same (fst e) x /\ fst e <> str "*") es -> Quality es x 0.

(** The server's choice among its codings, in order of preference: the one with the greatest weight, the first of them if several have it;
    none if every weight is zero. *)
Inductive Choice (es : list (list N * N)) : list (list N) -> list N -> Prop :=
| choice_none prefs : Forall (fun x => Quality es x 0) prefs -> Choice es prefs []
| choice_some a x b q : 0 < q -> Quality es x q -> Forall (fun y => exists p, Quality es y p /\ p < q) a -> Forall (fun y => exists p, Quality es y p /\ p <= q) b ->
    Choice es (a ++ x :: b) x.

(** A streaming coder: [full st input] is everything it still has to write when [input] is the rest of its input. *)
Definition Call (S : Type) := S -> list N -> N -> option (S * list N * N * bool).
(** A compressor told that this is the last input stops only when it is done or when there is no room left. *)
Definition Compressor {S} (call : Call S) (full : S -> list N -> list N) : Prop :=
  forall st input room st' o used done, call st input room = Some (st', o, used, done) ->
    used <= N.of_nat (length input) /\ N.of_nat (length o) <= room /\
    full st input = o ++ (if done then [] else full st' (skipn (N.to_nat used) input)) /\
    (done = true -> used = N.of_nat (length input)) /\ (done = false -> N.of_nat (length o) = room).
(** A decompressor may also stop because it has used up its input. *)
Definition Decompressor {S} (call : Call S) (full : S -> list N -> list N) : Prop :=
  forall st input room st' o used done, call st input room = Some (st', o, used, done) ->
    used <= N.of_nat (length input) /\ N.of_nat (length o) <= room /\
    full st input = o ++ (if done then [] else full st' (skipn (N.to_nat used) input)) /\
    (done = false -> N.of_nat (length o) = room \/ used = N.of_nat (length input)).
(** It keeps nothing back once its input is used up. *)
Definition Prompt {S} (call : Call S) (full : S -> list N -> list N) : Prop :=
  forall st input room st' o used, call st input room = Some (st', o, used, false) -> used = N.of_nat (length input) -> full st' [] = [].

(** What [make] gives under the name of a coding is a compressor whose output for a body is [coded]. *)
Definition Codes {P : Type} (state : P -> Type) (init : forall p, state p) (call : forall p, Call (state p)) (make : list N -> option P)
  (coded : list N -> list N -> list N) : Prop :=
  forall x p, make x = Some p -> exists full, Compressor (call p) full /\ forall b, full (init p) b = coded x b.
Definition Decodes {P : Type} (state : P -> Type) (init : forall p, state p) (call : forall p, Call (state p)) (make : list N -> option P)
  (plain : list N -> list N -> list N) : Prop :=
  forall x p, make x = Some p -> exists full, Decompressor (call p) full /\ Prompt (call p) full /\ forall b, full (init p) b = plain x b.
(** The name of one coding: no separators in it. *)
Definition Name (x : list N) : Prop := x <> [] /\ bytes_ok x /\ Forall (fun c => ~ In c (str ",; " ++ [9])) x.
