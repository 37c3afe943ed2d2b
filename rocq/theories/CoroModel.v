(** Model of the coroutine WebSocket endpoints: qbm/http/ws/coro.h (coro_client and coro_session) on top of
    qbm/http/coro.h (http_awaiter).

    One machine for both, with a [side]: the two classes are the same code but for the places where [side] is looked at.
    An event is one entry of the event loop: a call of the API whose awaiter is awaited at once (the documented use), a
    handler call of the protocol below, the destruction of a suspended coroutine, a configuration call.  Completing an
    awaiter only schedules its coroutine (coro.h, lines 139-141), so no user code runs inside an event.
    Simplified: payloads are byte lists; MessageClose is its status and reason; whether the status may be sent decides
    whether its constructor throws (ws.cpp MessageClose).  Not modelled: run(), the upgrade, the Close frames which the
    frame parser itself sends when it fails a connection, the transport behind connect(). *)
From Verif Require Import Base.
Local Open Scope N_scope.

Inductive side := Client | Session.

(** IncomingFrame, ws/coro.h lines 107-122. *)
Inductive frame :=
| FMessage (text : bool) (payload : list N)
| FPing (payload : list N)
| FPong (payload : list N)
| FClose (code : N) (reason : list N)
| FDisconnected.
(** ConnectResult, IncomingFrame, CloseResult: what an awaiter yields (lines 95-97, 107-122, 127-129). *)
Inductive result := RConnect (ok : bool) | RFrame (f : frame) | RClose (ok : bool).
(** What an awaiter may throw out of await_suspend. *)
Inductive failure := AlreadyWaiting | BadStatus.
Inductive call := KConnect | KReceive | KClose (status : N) (reason : list N).
Inductive event :=
| ECall (k : call)          (* connect / receive or next_frame / close_async, co_awaited; calls are numbered from 0 *)
| EDestroy (n : nat)        (* the coroutine suspended in call n is destroyed, its awaiter with it *)
| ECap (c : nat)            (* set_pending_cap *)
| EMessage (header : N) (payload : list N)
| EPing (payload : list N)
| EPong (payload : list N)
| EPeerClose (payload : list N)
| EConnected
| EError
| EDisconnected.
(** What an observer sees, newest first: the events, the awaiters that yield or throw, the Close frames sent. *)
Inductive item :=
| LEvent (e : event)
| LDone (n : nat) (r : result)
| LThrow (n : nat) (x : failure)
| LEcho (payload : list N)
| LSentClose (status : N) (reason : list N).

Record st := mk_st {
  frames : list frame;        (* _pending_frames, front first *)
  connect_w : option nat;     (* _connect_complete: the call it belongs to *)
  frame_w : option nat;       (* _frame_complete *)
  close_w : option nat;       (* _close_complete *)
  disc : bool;                (* _disconnected *)
  csent : bool;               (* Session: _close_sent; Client: WebSocket::_close_sent (coro_client's own is never read) *)
  cap : nat;                  (* _pending_cap *)
  calls : nat;                (* number of calls so far *)
  dead : list nat;            (* awaiters destroyed: *_alive is false *)
  fin : list nat;             (* awaiters with *_completed set *)
  log : list item }.
(** The members and their initial values, lines 171-182 and 579-588. *)
Definition start : st := mk_st [] None None None false false 1024 0 [] [] [].

Definition set_frames v s := mk_st v (connect_w s) (frame_w s) (close_w s) (disc s) (csent s) (cap s) (calls s) (dead s) (fin s) (log s).
Definition set_connect_w v s := mk_st (frames s) v (frame_w s) (close_w s) (disc s) (csent s) (cap s) (calls s) (dead s) (fin s) (log s).
Definition set_frame_w v s := mk_st (frames s) (connect_w s) v (close_w s) (disc s) (csent s) (cap s) (calls s) (dead s) (fin s) (log s).
Definition set_close_w v s := mk_st (frames s) (connect_w s) (frame_w s) v (disc s) (csent s) (cap s) (calls s) (dead s) (fin s) (log s).
Definition set_disc v s := mk_st (frames s) (connect_w s) (frame_w s) (close_w s) v (csent s) (cap s) (calls s) (dead s) (fin s) (log s).
Definition set_csent v s := mk_st (frames s) (connect_w s) (frame_w s) (close_w s) (disc s) v (cap s) (calls s) (dead s) (fin s) (log s).
Definition set_cap v s := mk_st (frames s) (connect_w s) (frame_w s) (close_w s) (disc s) (csent s) v (calls s) (dead s) (fin s) (log s).
Definition set_calls v s := mk_st (frames s) (connect_w s) (frame_w s) (close_w s) (disc s) (csent s) (cap s) v (dead s) (fin s) (log s).
Definition set_dead v s := mk_st (frames s) (connect_w s) (frame_w s) (close_w s) (disc s) (csent s) (cap s) (calls s) v (fin s) (log s).
Definition set_fin v s := mk_st (frames s) (connect_w s) (frame_w s) (close_w s) (disc s) (csent s) (cap s) (calls s) (dead s) v (log s).
Definition note i s := mk_st (frames s) (connect_w s) (frame_w s) (close_w s) (disc s) (csent s) (cap s) (calls s) (dead s) (fin s) (i :: log s).

Definition memb (n : nat) (l : list nat) : bool := existsb (Nat.eqb n) l.
(** The completion handler made by http_awaiter::await_suspend, coro.h lines 124-143. *)
Definition complete (n : nat) (r : result) (s : st) : st :=
  if memb n (dead s) then s else if memb n (fin s) then s
  else note (LDone n r) (set_fin (n :: fin s) s).
(** An exception leaves await_suspend: the coroutine goes on with it and the awaiter is destroyed (coro.h lines 114-117). *)
Definition throw (n : nat) (x : failure) (s : st) : st := note (LThrow n x) (set_dead (n :: dead s) s).
(** std::exchange(slot, {}) and call, if set: lines 285-288, 294-297, 298-303, 304-307 and so on. *)
Definition finish_connect (ok : bool) (s : st) : st :=
  match connect_w s with Some n => complete n (RConnect ok) (set_connect_w None s) | None => s end.
Definition finish_frame (f : frame) (s : st) : st :=
  match frame_w s with Some n => complete n (RFrame f) (set_frame_w None s) | None => s end.
Definition finish_close (ok : bool) (s : st) : st :=
  match close_w s with Some n => complete n (RClose ok) (set_close_w None s) | None => s end.
(** deliver_frame, lines 215-232 and 594-609. *)
Definition deliver (f : frame) (s : st) : st :=
  match frame_w s with
  | Some n => complete n (RFrame f) (set_frame_w None s)
  | None => if Nat.eqb (cap s) 0 then s
            else set_frames ((if Nat.leb (cap s) (length (frames s)) then tl (frames s) else frames s) ++ [f]) s
  end.
(** make_message_frame, lines 185-192 and 762-765. *)
Definition make_message (header : N) (d : list N) : frame := FMessage (N.land header 15 =? 1) d.
(** make_close_frame, lines 202-213 and 795-802. *)
Definition make_close (d : list N) : frame :=
  match d with
  | hi :: lo :: reason => FClose (hi * 256 + lo) reason
  | _ => FClose 0 []
  end.
(** is_sendable_close_code, ws/ws.h lines 254-266. *)
Definition sendable (code : N) : bool :=
  if (code <? 1000) || (4999 <? code) then false
  else negb ((code =? 1004) || (code =? 1005) || (code =? 1006) || (code =? 1015)).

(** connect, lines 381-400 (with WebSocket::connect, ws/ws.h line 1282, and install_connect_complete, lines 234-246). *)
Definition do_connect (n : nat) (s : st) : st :=
  let s := finish_frame FDisconnected s in
  let s := finish_close false s in
  let s := set_csent false (set_disc false (set_frames [] s)) in
  let s := finish_connect false s in
  set_connect_w (Some n) s.
(** receive, lines 421-438 (with install_frame_complete, lines 248-256) and next_frame, lines 846-868. *)
Definition do_receive (n : nat) (s : st) : st :=
  match frames s with
  | f :: rest => complete n (RFrame f) (set_frames rest s)
  | [] => if disc s then complete n (RFrame FDisconnected) s
          else match frame_w s with
               | Some _ => throw n AlreadyWaiting s
               | None => set_frame_w (Some n) s
               end
  end.
(** close_async, lines 449-466 and 875-892.  The slot is filled before the constructor of MessageClose throws; the
    session has also set its _close_sent by then, the client's base sets its own in operator<< (ws/ws.h lines 1487-1490). *)
Definition do_close (sd : side) (n : nat) (status : N) (reason : list N) (s : st) : st :=
  match close_w s with
  | Some _ => throw n AlreadyWaiting s
  | None =>
    if disc s then complete n (RClose true) s
    else
      let s := match sd with Session => set_csent true s | Client => s end in
      let s := set_close_w (Some n) s in
      if sendable status then note (LSentClose status reason) (set_csent true s)
      else throw n BadStatus s
  end.
Definition do_call (sd : side) (k : call) (s : st) : st :=
  let n := calls s in
  let s := set_calls (S n) s in
  match k with
  | KConnect => match sd with Client => do_connect n s | Session => s end
  | KReceive => do_receive n s
  | KClose status reason => do_close sd n status reason s
  end.
(** on(closed): WebSocket::on(closed), ws/ws.h lines 1441-1450, then lines 325-341; the session: lines 791-818. *)
Definition on_peer_close (d : list N) (s : st) : st :=
  let s := if csent s then s else note (LEcho d) (set_csent true s) in
  finish_close true (deliver (make_close d) s).
(** on(error) of the client, lines 291-308; the session has none. *)
Definition on_error (sd : side) (s : st) : st :=
  match sd with
  | Client => finish_close false (finish_frame FDisconnected (finish_connect false (set_disc true s)))
  | Session => s
  end.
(** on(disconnected), lines 342-366 (after WebSocket::on(disconnected), ws/ws.h lines 1459-1462) and 819-832. *)
Definition on_disconnected (sd : side) (s : st) : st :=
  let s := set_csent false (set_disc true s) in
  match sd with
  | Client => finish_close true (finish_frame FDisconnected (finish_connect false s))
  | Session => finish_close true (deliver FDisconnected s)
  end.
Definition step (sd : side) (s : st) (e : event) : st :=
  let s := note (LEvent e) s in
  match e with
  | ECall k => do_call sd k s
  | EDestroy n => if Nat.ltb n (calls s) then set_dead (n :: dead s) s else s       (* ~http_awaiter, coro.h lines 114-117 *)
  | ECap c => set_cap c s                              (* lines 274-277, 668-671 *)
  | EMessage h d => deliver (make_message h d) s       (* lines 310-313, 760-767 *)
  | EPing d => deliver (FPing d) s                     (* lines 315-318, 769-781 *)
  | EPong d => deliver (FPong d) s                     (* lines 320-323, 783-789 *)
  | EPeerClose d => on_peer_close d s
  | EConnected => match sd with Client => finish_connect true s | Session => s end     (* lines 283-289 *)
  | EError => on_error sd s
  | EDisconnected => on_disconnected sd s
  end.
Definition run (sd : side) (es : list event) : st := fold_left (step sd) es start.
