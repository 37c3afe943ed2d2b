(** What C178-C183 are about, read off the log of a coroutine WebSocket endpoint (newest entry first): what arrived, what
    the application got, which calls have ended. *)
From Verif Require Import Base CoroModel.
Local Open Scope N_scope.

Definition chronicle (sd : side) (es : list event) : list item := log (run sd es).
(** The entries since the last connect (all of them if there was none). *)
Fixpoint since (l : list item) : list item :=
  match l with
  | [] => []
  | LEvent (ECall KConnect) :: _ => []
  | i :: l => i :: since l
  end.
(** The frame an event brings: a data frame is text if its opcode is 1; a Close frame starts with its code, in network
    order, or is empty. *)
Definition incoming (e : event) : option frame :=
  match e with
  | EMessage header d => Some (FMessage (header mod 16 =? 1) d)
  | EPing d => Some (FPing d)
  | EPong d => Some (FPong d)
  | EPeerClose d =>
    Some (match d with
          | b0 :: b1 :: reason => FClose (256 * b0 + b1) reason
          | _ => FClose 0 []
          end)
  | _ => None
  end.
(** The frames that arrived, in order. *)
Fixpoint arrived (l : list item) : list frame :=
  match l with
  | [] => []
  | LEvent e :: l => arrived l ++ match incoming e with Some f => [f] | None => [] end
  | _ :: l => arrived l
  end.
(** The frames receive() and next_frame() yielded, in order; the notice of a disconnection is not one of them. *)
Fixpoint returned (l : list item) : list frame :=
  match l with
  | [] => []
  | LDone _ (RFrame FDisconnected) :: l => returned l
  | LDone _ (RFrame f) :: l => returned l ++ [f]
  | _ :: l => returned l
  end.
Inductive subsequence {A} : list A -> list A -> Prop :=
| sub_nil : subsequence [] []
| sub_take x l l' : subsequence l l' -> subsequence (x :: l) (x :: l')
| sub_skip x l l' : subsequence l l' -> subsequence l (x :: l').
(** The calls that have yielded or thrown. *)
Definition outcome (n : nat) (l : list item) : Prop := (exists r, In (LDone n r) l) \/ (exists x, In (LThrow n x) l).
Fixpoint outcomes (l : list item) : list nat :=
  match l with
  | [] => []
  | LDone n _ :: l => n :: outcomes l
  | LThrow n _ :: l => n :: outcomes l
  | _ :: l => outcomes l
  end.
Fixpoint calls_made (es : list event) : nat :=
  match es with
  | [] => 0%nat
  | ECall _ :: es => S (calls_made es)
  | _ :: es => calls_made es
  end.
Definition destroyed (n : nat) (l : list item) : Prop := In (LEvent (EDestroy n)) l.
Definition gone (l : list item) : Prop := In (LEvent EDisconnected) l.
(** The Close frames sent. *)
Definition is_close (i : item) : bool := match i with LEcho _ | LSentClose _ _ => true | _ => false end.
Definition closes (l : list item) : list item := filter is_close l.
(** A session does not connect, it is made for a connection. *)
Definition usable (sd : side) (es : list event) : Prop := sd = Session -> ~ In (ECall KConnect) es.
(** The event after which the transport is gone, as this side is told. *)
Definition ends (sd : side) (e : event) : Prop := e = EDisconnected \/ (sd = Client /\ e = EError).
Definition ok_status (c : N) : Prop := 1000 <= c <= 4999 /\ c <> 1004 /\ c <> 1005 /\ c <> 1006 /\ c <> 1015.
