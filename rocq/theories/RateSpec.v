(** What the properties of the rate limiter talk about: the clock, and the answers given. *)
From Verif Require Import Base RateModel.
Open Scope N_scope.

(** The clock readings of an operation and the ones after it never go back. *)
Fixpoint clocked (t : Z) (ops : list op) : Prop :=
  match ops with
  | [] => True
  | Request _ now created :: r => (t <= now <= created)%Z /\ clocked created r
  | EvictNow now :: r => (t <= now)%Z /\ clocked now r
  | _ :: r => clocked t r
  end.

(** Passed on to the next handler; counted at all (neither 400 nor 503). *)
Definition admitted (a : answer) : bool := match what a with Admitted _ => true | _ => false end.
Definition counted (a : answer) : bool := match what a with Admitted _ | Limited _ => true | _ => false end.
(** The requests of one client that were passed on, oldest first. *)
Definition of_client (id : list N) (h : list answer) : list answer :=
  filter (fun a => beq (who a) id && admitted a) h.

(** The operation is not an administrator's reset of this client. *)
Definition untouched (id : list N) (o : op) : Prop :=
  match o with ResetAll => False | ResetClient id' => id' <> id | _ => True end.

(** Answers within the window starting at [t]. *)
Definition within (window t : Z) (l : list answer) : nat :=
  length (filter (fun a => (t <=? at_ a)%Z && (at_ a <? t + window)%Z) l).

(** [a] was handled less than a window before [now], counted in whole milliseconds. *)
Definition live (window now : Z) (a : answer) : bool := ((now - made a) / 1000000 * 1000000 <? window)%Z.
