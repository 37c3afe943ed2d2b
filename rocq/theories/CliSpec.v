(** Specification vocabulary for the persistent HTTP/1.1 client: what an observer reads off the log. *)
From Verif Require Import Base UtilModel UtilSpec CookieSpec H2FieldSpec Http1Spec CliModel.
Local Open Scope nat_scope.

Definition cb_dec : forall a b : cb, {a = b} + {a <> b}.
Proof. decide equality; apply Nat.eq_dec. Defined.

Definition pushed (l : list ev) : list cb := flat_map (fun e => match e with EPushed c => [c] | _ => [] end) l.
Definition called (l : list ev) : list cb := flat_map (fun e => match e with ECalled c _ => [c] | _ => [] end) l.
Definition answered (l : list ev) : list cb := flat_map (fun e => match e with ECalled c (Remote _) => [c] | _ => [] end) l.
Definition refused (l : list ev) : list cb := flat_map (fun e => match e with ECalled c (Local _) => [c] | _ => [] end) l.
Definition sent (l : list ev) : list cb := flat_map (fun e => match e with ESent _ c _ => [c] | _ => [] end) l.
Definition asked (l : list ev) : list nat := flat_map (fun e => match e with EConnAsked t => [t] | _ => [] end) l.
Definition told (l : list ev) : list nat := flat_map (fun e => match e with EConnCalled t _ => [t] | _ => [] end) l.

Definition count (c : cb) (l : list cb) : nat := count_occ cb_dec l c.
(** the requests the client still holds *)
Definition waiting (s : st) : list cb := map x_cb (opt (s_active s) ++ s_pending s).
(** the client is in no function and no callback: control is with the event loop or the owner *)
Definition quiet (s : st) : Prop := s_stack s = [].
Definition reaches (base : uri) (ls : list label) (s : st) : Prop := run (init base) ls = Some s.

(** l is l' with elements left out *)
Inductive Subseq {A} : list A -> list A -> Prop :=
| sub_nil l : Subseq [] l
| sub_keep x l l' : Subseq l l' -> Subseq (x :: l) (x :: l')
| sub_skip x l l' : Subseq l l' -> Subseq l (x :: l').

(** what was written to, and received from, one transport *)
Definition sents (w : nat) (l : list ev) : list cb := flat_map (fun e => match e with ESent v c _ => if v =? w then [c] else [] | _ => [] end) l.
Definition gots (w : nat) (l : list ev) : list nat := flat_map (fun e => match e with EGot v n _ => if v =? w then [n] else [] | _ => [] end) l.
(** the peer sends a message only while a request on that transport is unanswered *)
Definition Polite (l : list ev) : Prop := forall a w n keep b, l = a ++ EGot w n keep :: b -> length (gots w a) < length (sents w a).
(** every step of the run satisfies Q *)
Fixpoint obeys (Q : st -> label -> Prop) (s : st) (ls : list label) : Prop :=
  match ls with
  | [] => True
  | l :: r => Q s l /\ match step s l with Some s' => obeys Q s' r | None => True end
  end.
(** the outcome of a connection attempt does not come from inside the call that starts it *)
Definition later (s : st) (l : label) : Prop := l = LRun C1 -> forall k, s_stack s <> FAttempt :: k.
(** the run from s up to the first moment control is back with the loop *)
Fixpoint returns (s : st) (ls : list label) (s' : st) : Prop :=
  match ls with
  | [] => quiet s /\ s = s'
  | l :: r => ~ quiet s /\ exists s1, step s l = Some s1 /\ returns s1 r s'
  end.
(** the peer has announced on this transport that it will close *)
Definition announced (w : nat) (l : list ev) : Prop := exists n, In (EGot w n false) l.
(** after a message announcing a close nothing is written to that transport *)
Definition NoAfter (lg : list ev) : Prop := forall a w n b, lg = a ++ EGot w n false :: b -> forall c u, ~ In (ESent w c u) b.
(** calls are made only while control is with the loop, attempts finish later, and a message announcing a
    close answers a request *)
Definition modest (s : st) (l : label) : Prop :=
  (forall a, l = LApi a -> quiet s) /\ later s l /\ (forall n, l = LIo (IResp n false) -> s_active s <> None).
(** closing a transport takes effect later, and events come from an open one *)
Definition gentle (s : st) (l : label) : Prop :=
  (forall ch k, l = LRun ch -> s_stack s = FClose :: k -> ch = C0) /\
  (forall flush closed, l = LIo (IDisc flush closed) -> closed = false) /\
  (l = LIo ITimeout -> is_open s = true).
(** the port of a URI: a decimal number up to 65535, or the default of the scheme when none is given *)
Definition Port (u : uri) (p : N) : Prop :=
  (u_port u <> [] /\ Decimal (u_port u) p /\ (p <= 65535)%N) \/
  (u_port u = [] /\ (map lower (u_scheme u) = str "http" \/ map lower (u_scheme u) = str "ws") /\ p = 80%N) \/
  (u_port u = [] /\ (map lower (u_scheme u) = str "https" \/ map lower (u_scheme u) = str "wss") /\ p = 443%N).
(** same scheme and host up to case, same port *)
Definition SameOrigin (a b : uri) : Prop :=
  map lower (u_scheme a) = map lower (u_scheme b) /\ map lower (u_host a) = map lower (u_host b) /\ exists p, Port a p /\ Port b p.
