(** Specification of request routing, independent of the tree that implements it. *)
From Verif Require Import Base UtilSpec.
Open Scope N_scope.

(** One segment of a route pattern: literal text, ":name" (one segment) or "*name" (all the rest). *)
Inductive pseg := Static (s : list N) | Param (n : list N) | Wild (n : list N).

Definition slash (c : N) : bool := c =? 47.

(** How a non-empty segment of a pattern string is read. *)
Definition read_segment (tok : list N) : pseg :=
  match tok with
  | c :: n => if c =? 42 (* '*' *) then Wild n else if c =? 58 (* ':' *) then Param n else Static tok
  | [] => Static []
  end.

(** [Pattern str p]: the pattern string [str] (slashes separate, empty segments do not count) denotes [p]. *)
Definition Pattern (str : list N) (p : list pseg) : Prop :=
  exists toks, Tokens slash toks str /\ p = map read_segment toks.

(** Names captured by a pattern, in order. *)
Definition names (p : list pseg) : list (list N) :=
  flat_map (fun s => match s with Static _ => [] | Param n | Wild n => [n] end) p.

(** A well-formed pattern: captures are named, names are not repeated, a wildcard comes last. *)
Definition WellFormed (p : list pseg) : Prop :=
  ~ In [] (names p) /\ NoDup (names p)
  /\ (forall a n b, p = a ++ Wild n :: b -> b = []).

(** [PMatch p path caps]: the request path matches the pattern, capturing [caps]. Slashes only separate:
    leading, trailing and repeated ones are ignored, except inside what a wildcard captures. *)
Inductive PMatch : list pseg -> list N -> list (list N * list N) -> Prop :=
| PM_end sl : Forall (fun c => c = 47) sl -> PMatch [] sl []
| PM_static sl seg rest p caps : Forall (fun c => c = 47) sl -> seg <> [] -> ~ In 47 seg ->
    (forall c r, rest = c :: r -> c = 47) -> PMatch p rest caps ->
    PMatch (Static seg :: p) (sl ++ seg ++ rest) caps
| PM_param sl n seg rest p caps : Forall (fun c => c = 47) sl -> seg <> [] -> ~ In 47 seg ->
    (forall c r, rest = c :: r -> c = 47) -> PMatch p rest caps ->
    PMatch (Param n :: p) (sl ++ seg ++ rest) ((n, seg) :: caps)
| PM_wild sl n raw sl' : Forall (fun c => c = 47) sl -> Forall (fun c => c = 47) sl' ->
    (forall c r, raw = c :: r -> c <> 47) -> (forall c r, raw = r ++ [c] -> c <> 47) ->
    PMatch [Wild n] (sl ++ raw ++ sl') [(n, raw)].

(** [Prefer p q]: pattern p has priority over q. The first segment where they differ decides: literal text
    beats a parameter, which beats a wildcard; an exact end beats a wildcard capturing nothing. *)
Inductive Prefer : list pseg -> list pseg -> Prop :=
| Pf_static_param s p n q : Prefer (Static s :: p) (Param n :: q)
| Pf_static_wild s p n q : Prefer (Static s :: p) (Wild n :: q)
| Pf_param_wild m p n q : Prefer (Param m :: p) (Wild n :: q)
| Pf_end_wild n q : Prefer [] (Wild n :: q)
| Pf_same x p q : Prefer p q -> Prefer (x :: p) (x :: q).

(** Two patterns that cannot coexist: they agree up to a place where both capture the same kind of thing
    under different names. *)
Definition Clash (p q : list pseg) : Prop :=
  exists pre m n p' q', m <> n /\
    ((p = pre ++ Param m :: p' /\ q = pre ++ Param n :: q')
     \/ (p = pre ++ Wild m :: p' /\ q = pre ++ Wild n :: q')).

Section Registry.
Context {H : Type}.

(** A registration call: pattern string, method number, handler. *)
Definition call : Type := list N * Z * H.

(** [InForce R p m h]: among the accepted calls R (oldest first), the last one for pattern p and method m
    carries handler h. *)
Definition InForce (R : list call) (p : list pseg) (m : Z) (h : H) : Prop :=
  exists pre s post, R = pre ++ (s, m, h) :: post /\ Pattern s p
    /\ (forall s' h', In (s', m, h') post -> ~ Pattern s' p).

(** The route that must serve (path, m): the registered pattern that matches and has priority over every
    other registered pattern that matches. *)
Definition Serves (R : list call) (path : list N) (m : Z) (caps : list (list N * list N)) (h : H) : Prop :=
  exists p, InForce R p m h /\ PMatch p path caps
    /\ forall q h' caps', InForce R q m h' -> PMatch q path caps' -> q = p \/ Prefer p q.

(** Some route registered for method m matches the path. *)
Definition Allows (R : list call) (path : list N) (m : Z) : Prop :=
  exists p h caps, InForce R p m h /\ PMatch p path caps.

End Registry.
Arguments call : clear implicits.
