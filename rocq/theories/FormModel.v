(** form.h and its conversions in body.cpp (783-794, 838-874). qb::io::uri::encode and decode are outside the repository: parameters. *)
From Verif Require Import Base UtilModel.
Local Open Scope N_scope.

(** form.h:32: names with their values; the order of the entries is the iteration order of the table *)
Definition form := list (list N * list (list N)).
(** form.h:47-63 *)
Fixpoint form_add (k v : list N) (f : form) : form :=
  match f with
  | [] => [(k, [v])]
  | (n, vs) :: r => if beq n k then (n, vs ++ [v]) :: r else (n, vs) :: form_add k v r
  end.
(** form.h:71-78 *)
Fixpoint form_get (k : list N) (f : form) : list (list N) :=
  match f with [] => [] | (n, vs) :: r => if beq n k then vs else form_get k r end.
(** form.h:86-93 *)
Definition form_get_first (k : list N) (f : form) : option (list N) := match form_get k f with [] => None | v :: _ => Some v end.
(** string_view::find(c) *)
Fixpoint index_of (c : N) (s : list N) : option nat :=
  match s with [] => None | x :: r => if x =? c then Some 0%nat else match index_of c r with Some n => Some (S n) | None => None end end.

Section Uri.
Variable encode decode : list N -> list N.
(** body.cpp:785-791 the inner loop; the flag is first_pair *)
Fixpoint write_values (k : list N) (vs : list (list N)) (first : bool) : list N * bool :=
  match vs with
  | [] => ([], first)
  | v :: r => let '(t, fl) := write_values k r false in ((if first then [] else [38]) ++ encode k ++ [61] ++ encode v ++ t, fl)
  end.
(** body.cpp:784-794 *)
Fixpoint write_loop (f : form) (first : bool) : list N :=
  match f with
  | [] => []
  | (k, vs) :: r => let '(t, fl) := write_values k vs first in t ++ write_loop r fl
  end.
Definition write_form (f : form) : list N := write_loop f true.
(** body.cpp:849-871 what one pair adds *)
Definition read_pair (p : list N) (f : form) : form :=
  match index_of 61 p with
  | Some e => let k := decode (firstn e p) in let v := decode (skipn (S e) p) in match k with [] => f | _ => form_add k v f end
  | None => let k := decode p in match k with [] => f | _ => form_add k [] f end
  end.
(** body.cpp:846-873; [s] is the view from start on, the loop runs while it is not empty *)
Fixpoint read_loop (fuel : nat) (s : list N) (f : form) : form :=
  match fuel, s with
  | _, [] => f
  | O, _ => f
  | S fuel, _ =>
      match index_of 38 s with
      | Some e => read_loop fuel (skipn (S e) s) (read_pair (firstn e s) f)
      | None => read_pair s f
      end
  end.
Definition read_form (body : list N) : form := read_loop (S (length body)) body [].
End Uri.
