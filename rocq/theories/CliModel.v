(** Model of the persistent HTTP/1.1 client (1.1/client.{h,cpp}) and of origin.cpp.

    User callbacks run in the middle of the client's own functions and may call back into it.  The model is a
    machine with an explicit stack of frames: a frame is the rest of a function that still has to run.  While
    a user callback is on top of the stack the environment issues any calls it likes, and it alone decides
    when the callback returns; when the stack is empty the event loop delivers any event.  A run is a list of
    labels, so every theorem about runs holds for every user program, every peer and every schedule.  A user
    callback that throws behaves as one that returns (client.cpp:201-210 catches). *)
From Verif Require Import Base UtilModel Http1Model.
Local Open Scope nat_scope.

(** ** origin.cpp *)
(** qb::io::uri, the components used; parsing a URI is outside the repository *)
Record uri := mkUri { u_scheme : list N; u_host : list N; u_port : list N }.
(** origin.cpp scheme_eq, host_eq *)
Definition ascii_eq (a b : list N) : bool := beq (map ascii_to_lower a) (map ascii_to_lower b).
(** origin.cpp effective_port *)
Definition effective_port (u : uri) : list N :=
  match u_port u with
  | [] => if ascii_eq (u_scheme u) (str "http") || ascii_eq (u_scheme u) (str "ws") then str "80"
          else if ascii_eq (u_scheme u) (str "https") || ascii_eq (u_scheme u) (str "wss") then str "443"
          else []
  | p => p
  end.
(** std::from_chars of a uint32 on the whole text: decimal digits, no overflow *)
Fixpoint digits_value (acc : N) (s : list N) : option N :=
  match s with
  | [] => Some acc
  | c :: r => if ((c <? 48) || (57 <? c))%N then None else digits_value (acc * 10 + (c - 48))%N r
  end.
(** origin.cpp effective_port_number.  from_chars reports overflow above 2^32-1; both that and values above
    65535 give nullopt, so the bound 65535 alone is modelled. *)
Definition effective_port_number (u : uri) : option N :=
  match effective_port u with
  | [] => None
  | p => match digits_value 0 p with
         | Some v => if (65535 <? v)%N then None else Some v
         | None => None
         end
  end.
(** origin.cpp same *)
Definition same_origin (a b : uri) : bool :=
  ascii_eq (u_scheme a) (u_scheme b) && ascii_eq (u_host a) (u_host b) &&
  match effective_port_number a, effective_port_number b with
  | Some p, Some q => (p =? q)%N
  | _, _ => false
  end.

(** ** Data *)
(** a stored std::function for a response: the user's, or the lambda of client.cpp:431-446 *)
Inductive cb := CbUser (tok : nat) | CbBatch (bid idx : nat).
(** a response: synthesised with a status (client.cpp:721-731), or message number n received from the peer *)
Inductive resp := Local (status : nat) | Remote (n : nat).
(** client.h RequestContext; method, headers and body are not modelled *)
Record ctx := mkCtx { x_id : nat; x_uri : uri; x_cb : cb }.
(** client.h BatchRequestContext; None is a default-constructed Response *)
Record batch := mkBatch { b_tok : nat; b_resps : list (option resp); b_done : nat }.
(** client.cpp:56-182 connection: its identity, the transport it carries, whether the transport is open, and the
    number of connection attempts under way for it *)
Record cobj := mkC { c_id : nat; c_wire : nat; c_open : bool; c_attempts : nat }.
(** qb::io::async::defer closures: client.cpp:521-524 and 681-688 *)
Inductive thunk := DReset | DReconnect.
(** what can be observed *)
Inductive ev :=
| EPushed (c : cb)                              (* push_request was called with this callback *)
| EBatch (tok bid n : nat)                      (* push_requests was called *)
| ESent (wire : nat) (c : cb) (u : uri)         (* the request was written to this transport *)
| EGot (wire : nat) (n : nat) (keep : bool)     (* message n was received on this transport *)
| ECalled (c : cb) (r : resp)                   (* the callback is invoked *)
| EBatchCalled (tok bid : nat) (rs : list (option resp))
| EConnAsked (tok : nat) | EConnCalled (tok : nat) (ok : bool)
| EOpened (wire : nat) | ETimedOut (wire : nat) | EDestroyed (cid : nat).
(** the rest of a function under way *)
Inductive frame :=
| FUser                                         (* user code *)
| FScope                                        (* ~callback_scope, client.cpp:194-196 *)
| FCall (c : cb) (r : resp)                     (* about to invoke a response callback *)
| FBatchCall (tok bid : nat) (rs : list (option resp))
| FConnCall (tok : nat) (ok : bool)
| FProcess                                      (* process_pending_requests *)
| FSend | FAfterSend                            (* client.cpp:490, 491-493 *)
| FAttempt                                      (* inside qb::io::async::tcp::connect *)
| FFailActive (status : nat) | FFailAll (status : nat)
| FClose | FReset                               (* client.cpp:317-319, 320-324 *)
| FConnCbs (ok : bool) (l : list nat)           (* the loops client.cpp:592-596, 610-614 *)
| FConnOkTail | FConnFailTail
| FRespTail (keep : bool)
| FBatchPush (bid i : nat) (us : list uri)      (* the loop client.cpp:429-448 *)
| FDisc1 | FDisc2                               (* handle_disconnected *)
| FResponse (n : nat) (keep : bool)             (* handle_response *)
| FIn (cid : nat) (gone : bool).                (* the connection's own dispatch, to which control returns; [gone]:
                                                   it is being disposed of and its transport ends up closed *)
(** client.h Client.  [s_timed]: the request timeout is positive.  The counters are unbounded here. *)
Record st := mkSt { s_connected : bool; s_connecting : bool; s_intent : bool; s_depth : nat; s_defreset : bool; s_conn : option cobj; s_pending : list ctx; s_active : option ctx; s_batches : list (nat * batch); s_next_req : nat; s_next_batch : nat; s_next_conn : nat; s_next_wire : nat; s_max : nat; s_auto : bool; s_timed : bool; s_ccbs : list nat; s_total : nat; s_succ : nat; s_fail : nat; s_deferred : list thunk; s_timers : list nat; s_stack : list frame; s_log : list ev; s_base : uri }.
Definition set_connected (s : st) (v : bool) : st := mkSt v (s_connecting s) (s_intent s) (s_depth s) (s_defreset s) (s_conn s) (s_pending s) (s_active s) (s_batches s) (s_next_req s) (s_next_batch s) (s_next_conn s) (s_next_wire s) (s_max s) (s_auto s) (s_timed s) (s_ccbs s) (s_total s) (s_succ s) (s_fail s) (s_deferred s) (s_timers s) (s_stack s) (s_log s) (s_base s).
Definition set_connecting (s : st) (v : bool) : st := mkSt (s_connected s) v (s_intent s) (s_depth s) (s_defreset s) (s_conn s) (s_pending s) (s_active s) (s_batches s) (s_next_req s) (s_next_batch s) (s_next_conn s) (s_next_wire s) (s_max s) (s_auto s) (s_timed s) (s_ccbs s) (s_total s) (s_succ s) (s_fail s) (s_deferred s) (s_timers s) (s_stack s) (s_log s) (s_base s).
Definition set_intent (s : st) (v : bool) : st := mkSt (s_connected s) (s_connecting s) v (s_depth s) (s_defreset s) (s_conn s) (s_pending s) (s_active s) (s_batches s) (s_next_req s) (s_next_batch s) (s_next_conn s) (s_next_wire s) (s_max s) (s_auto s) (s_timed s) (s_ccbs s) (s_total s) (s_succ s) (s_fail s) (s_deferred s) (s_timers s) (s_stack s) (s_log s) (s_base s).
Definition set_depth (s : st) (v : nat) : st := mkSt (s_connected s) (s_connecting s) (s_intent s) v (s_defreset s) (s_conn s) (s_pending s) (s_active s) (s_batches s) (s_next_req s) (s_next_batch s) (s_next_conn s) (s_next_wire s) (s_max s) (s_auto s) (s_timed s) (s_ccbs s) (s_total s) (s_succ s) (s_fail s) (s_deferred s) (s_timers s) (s_stack s) (s_log s) (s_base s).
Definition set_defreset (s : st) (v : bool) : st := mkSt (s_connected s) (s_connecting s) (s_intent s) (s_depth s) v (s_conn s) (s_pending s) (s_active s) (s_batches s) (s_next_req s) (s_next_batch s) (s_next_conn s) (s_next_wire s) (s_max s) (s_auto s) (s_timed s) (s_ccbs s) (s_total s) (s_succ s) (s_fail s) (s_deferred s) (s_timers s) (s_stack s) (s_log s) (s_base s).
Definition set_conn (s : st) (v : option cobj) : st := mkSt (s_connected s) (s_connecting s) (s_intent s) (s_depth s) (s_defreset s) v (s_pending s) (s_active s) (s_batches s) (s_next_req s) (s_next_batch s) (s_next_conn s) (s_next_wire s) (s_max s) (s_auto s) (s_timed s) (s_ccbs s) (s_total s) (s_succ s) (s_fail s) (s_deferred s) (s_timers s) (s_stack s) (s_log s) (s_base s).
Definition set_pending (s : st) (v : list ctx) : st := mkSt (s_connected s) (s_connecting s) (s_intent s) (s_depth s) (s_defreset s) (s_conn s) v (s_active s) (s_batches s) (s_next_req s) (s_next_batch s) (s_next_conn s) (s_next_wire s) (s_max s) (s_auto s) (s_timed s) (s_ccbs s) (s_total s) (s_succ s) (s_fail s) (s_deferred s) (s_timers s) (s_stack s) (s_log s) (s_base s).
Definition set_active (s : st) (v : option ctx) : st := mkSt (s_connected s) (s_connecting s) (s_intent s) (s_depth s) (s_defreset s) (s_conn s) (s_pending s) v (s_batches s) (s_next_req s) (s_next_batch s) (s_next_conn s) (s_next_wire s) (s_max s) (s_auto s) (s_timed s) (s_ccbs s) (s_total s) (s_succ s) (s_fail s) (s_deferred s) (s_timers s) (s_stack s) (s_log s) (s_base s).
Definition set_batches (s : st) (v : list (nat * batch)) : st := mkSt (s_connected s) (s_connecting s) (s_intent s) (s_depth s) (s_defreset s) (s_conn s) (s_pending s) (s_active s) v (s_next_req s) (s_next_batch s) (s_next_conn s) (s_next_wire s) (s_max s) (s_auto s) (s_timed s) (s_ccbs s) (s_total s) (s_succ s) (s_fail s) (s_deferred s) (s_timers s) (s_stack s) (s_log s) (s_base s).
Definition set_next_req (s : st) (v : nat) : st := mkSt (s_connected s) (s_connecting s) (s_intent s) (s_depth s) (s_defreset s) (s_conn s) (s_pending s) (s_active s) (s_batches s) v (s_next_batch s) (s_next_conn s) (s_next_wire s) (s_max s) (s_auto s) (s_timed s) (s_ccbs s) (s_total s) (s_succ s) (s_fail s) (s_deferred s) (s_timers s) (s_stack s) (s_log s) (s_base s).
Definition set_next_batch (s : st) (v : nat) : st := mkSt (s_connected s) (s_connecting s) (s_intent s) (s_depth s) (s_defreset s) (s_conn s) (s_pending s) (s_active s) (s_batches s) (s_next_req s) v (s_next_conn s) (s_next_wire s) (s_max s) (s_auto s) (s_timed s) (s_ccbs s) (s_total s) (s_succ s) (s_fail s) (s_deferred s) (s_timers s) (s_stack s) (s_log s) (s_base s).
Definition set_next_conn (s : st) (v : nat) : st := mkSt (s_connected s) (s_connecting s) (s_intent s) (s_depth s) (s_defreset s) (s_conn s) (s_pending s) (s_active s) (s_batches s) (s_next_req s) (s_next_batch s) v (s_next_wire s) (s_max s) (s_auto s) (s_timed s) (s_ccbs s) (s_total s) (s_succ s) (s_fail s) (s_deferred s) (s_timers s) (s_stack s) (s_log s) (s_base s).
Definition set_next_wire (s : st) (v : nat) : st := mkSt (s_connected s) (s_connecting s) (s_intent s) (s_depth s) (s_defreset s) (s_conn s) (s_pending s) (s_active s) (s_batches s) (s_next_req s) (s_next_batch s) (s_next_conn s) v (s_max s) (s_auto s) (s_timed s) (s_ccbs s) (s_total s) (s_succ s) (s_fail s) (s_deferred s) (s_timers s) (s_stack s) (s_log s) (s_base s).
Definition set_max (s : st) (v : nat) : st := mkSt (s_connected s) (s_connecting s) (s_intent s) (s_depth s) (s_defreset s) (s_conn s) (s_pending s) (s_active s) (s_batches s) (s_next_req s) (s_next_batch s) (s_next_conn s) (s_next_wire s) v (s_auto s) (s_timed s) (s_ccbs s) (s_total s) (s_succ s) (s_fail s) (s_deferred s) (s_timers s) (s_stack s) (s_log s) (s_base s).
Definition set_auto (s : st) (v : bool) : st := mkSt (s_connected s) (s_connecting s) (s_intent s) (s_depth s) (s_defreset s) (s_conn s) (s_pending s) (s_active s) (s_batches s) (s_next_req s) (s_next_batch s) (s_next_conn s) (s_next_wire s) (s_max s) v (s_timed s) (s_ccbs s) (s_total s) (s_succ s) (s_fail s) (s_deferred s) (s_timers s) (s_stack s) (s_log s) (s_base s).
Definition set_timed (s : st) (v : bool) : st := mkSt (s_connected s) (s_connecting s) (s_intent s) (s_depth s) (s_defreset s) (s_conn s) (s_pending s) (s_active s) (s_batches s) (s_next_req s) (s_next_batch s) (s_next_conn s) (s_next_wire s) (s_max s) (s_auto s) v (s_ccbs s) (s_total s) (s_succ s) (s_fail s) (s_deferred s) (s_timers s) (s_stack s) (s_log s) (s_base s).
Definition set_ccbs (s : st) (v : list nat) : st := mkSt (s_connected s) (s_connecting s) (s_intent s) (s_depth s) (s_defreset s) (s_conn s) (s_pending s) (s_active s) (s_batches s) (s_next_req s) (s_next_batch s) (s_next_conn s) (s_next_wire s) (s_max s) (s_auto s) (s_timed s) v (s_total s) (s_succ s) (s_fail s) (s_deferred s) (s_timers s) (s_stack s) (s_log s) (s_base s).
Definition set_total (s : st) (v : nat) : st := mkSt (s_connected s) (s_connecting s) (s_intent s) (s_depth s) (s_defreset s) (s_conn s) (s_pending s) (s_active s) (s_batches s) (s_next_req s) (s_next_batch s) (s_next_conn s) (s_next_wire s) (s_max s) (s_auto s) (s_timed s) (s_ccbs s) v (s_succ s) (s_fail s) (s_deferred s) (s_timers s) (s_stack s) (s_log s) (s_base s).
Definition set_succ (s : st) (v : nat) : st := mkSt (s_connected s) (s_connecting s) (s_intent s) (s_depth s) (s_defreset s) (s_conn s) (s_pending s) (s_active s) (s_batches s) (s_next_req s) (s_next_batch s) (s_next_conn s) (s_next_wire s) (s_max s) (s_auto s) (s_timed s) (s_ccbs s) (s_total s) v (s_fail s) (s_deferred s) (s_timers s) (s_stack s) (s_log s) (s_base s).
Definition set_fail (s : st) (v : nat) : st := mkSt (s_connected s) (s_connecting s) (s_intent s) (s_depth s) (s_defreset s) (s_conn s) (s_pending s) (s_active s) (s_batches s) (s_next_req s) (s_next_batch s) (s_next_conn s) (s_next_wire s) (s_max s) (s_auto s) (s_timed s) (s_ccbs s) (s_total s) (s_succ s) v (s_deferred s) (s_timers s) (s_stack s) (s_log s) (s_base s).
Definition set_deferred (s : st) (v : list thunk) : st := mkSt (s_connected s) (s_connecting s) (s_intent s) (s_depth s) (s_defreset s) (s_conn s) (s_pending s) (s_active s) (s_batches s) (s_next_req s) (s_next_batch s) (s_next_conn s) (s_next_wire s) (s_max s) (s_auto s) (s_timed s) (s_ccbs s) (s_total s) (s_succ s) (s_fail s) v (s_timers s) (s_stack s) (s_log s) (s_base s).
Definition set_timers (s : st) (v : list nat) : st := mkSt (s_connected s) (s_connecting s) (s_intent s) (s_depth s) (s_defreset s) (s_conn s) (s_pending s) (s_active s) (s_batches s) (s_next_req s) (s_next_batch s) (s_next_conn s) (s_next_wire s) (s_max s) (s_auto s) (s_timed s) (s_ccbs s) (s_total s) (s_succ s) (s_fail s) (s_deferred s) v (s_stack s) (s_log s) (s_base s).
Definition set_stack (s : st) (v : list frame) : st := mkSt (s_connected s) (s_connecting s) (s_intent s) (s_depth s) (s_defreset s) (s_conn s) (s_pending s) (s_active s) (s_batches s) (s_next_req s) (s_next_batch s) (s_next_conn s) (s_next_wire s) (s_max s) (s_auto s) (s_timed s) (s_ccbs s) (s_total s) (s_succ s) (s_fail s) (s_deferred s) (s_timers s) v (s_log s) (s_base s).
Definition set_log (s : st) (v : list ev) : st := mkSt (s_connected s) (s_connecting s) (s_intent s) (s_depth s) (s_defreset s) (s_conn s) (s_pending s) (s_active s) (s_batches s) (s_next_req s) (s_next_batch s) (s_next_conn s) (s_next_wire s) (s_max s) (s_auto s) (s_timed s) (s_ccbs s) (s_total s) (s_succ s) (s_fail s) (s_deferred s) (s_timers s) (s_stack s) v (s_base s).

Definition emit (s : st) (e : ev) : st := set_log s (s_log s ++ [e]).
Definition push (s : st) (fs : list frame) : st := set_stack s (fs ++ s_stack s).
Definition opt {A} (o : option A) : list A := match o with Some x => [x] | None => [] end.
Definition is_some {A} (o : option A) : bool := match o with Some _ => true | None => false end.

(** client.cpp:185-210, 527-538 invoke_user_callback / callback_scope: one level deeper, a closure deferred *)
Definition invoke (s : st) (f : frame) : st :=
  push (set_deferred (set_depth s (S (s_depth s))) (s_deferred s ++ [DReset])) [f; FScope].

(** client.cpp:242-253 create_connection: the old object, if any, is destroyed *)
Definition destroy (s : st) : st := match s_conn s with Some c => emit s (EDestroyed (c_id c)) | None => s end.
Definition create_connection (s : st) : st :=
  let s := destroy s in
  set_next_conn (set_conn s (Some (mkC (s_next_conn s) 0 false 0))) (S (s_next_conn s)).
Definition is_open (s : st) : bool := match s_conn s with Some c => c_open c | None => false end.
(** client.cpp:89-110: an attempt is started; its outcome comes later, or at once (FAttempt) *)
Definition start_attempt (s : st) : st :=
  match s_conn s with
  | Some c => push (set_conn s (Some (mkC (c_id c) (c_wire c) (c_open c) (S (c_attempts c))))) [FAttempt]
  | None => s
  end.
(** client.cpp:255-281 connect *)
Definition do_connect (s : st) (callback : option nat) : st :=
  if s_connected s then match callback with Some t => invoke s (FConnCall t true) | None => s end
  else if s_connecting s then match callback with Some t => set_ccbs s (s_ccbs s ++ [t]) | None => s end
  else
    let s := set_ccbs s (s_ccbs s ++ opt callback) in
    let s := set_connecting (set_intent s false) true in
    let s := if negb (is_open s) then create_connection s else s in
    start_attempt s.

(** client.cpp:327-343 ensure_absolute_uri: the components of the absolute URI built *)
Definition ensure_absolute_uri (base u : uri) : uri := match u_host u with [] => base | _ => u end.
(** client.cpp:345-364 prepare_request: false when an error response is returned; header defaults not modelled *)
Definition prepare_request (base u : uri) : bool :=
  let u := ensure_absolute_uri base u in
  match u_host u with [] => false | _ => same_origin u base end.
(** client.cpp:366-393 push_request *)
Definition push_request (s : st) (u : uri) (c : cb) : st :=
  let s := set_total (emit s (EPushed c)) (S (s_total s)) in
  if negb (prepare_request (s_base s) u) then invoke (set_fail s (S (s_fail s))) (FCall c (Local 400))
  else if s_max s <=? length (s_pending s) + (if s_active s then 1 else 0)
  then invoke (set_fail s (S (s_fail s))) (FCall c (Local 503))
  else
    let id := s_next_req s in
    let s := set_next_req s (S id) in
    let s := set_pending s (s_pending s ++ [mkCtx id (ensure_absolute_uri (s_base s) u) c]) in
    let s := if s_timed s then set_timers s (s_timers s ++ [id]) else s in
    push s [FProcess].
(** client.cpp:413-450 push_requests *)
Definition push_requests (s : st) (tok : nat) (us : list uri) : st :=
  match us with
  | [] => invoke (emit s (EBatch tok 0 0)) (FBatchCall tok 0 [])
  | _ =>
      let bid := s_next_batch s in
      let s := emit (set_next_batch s (S bid)) (EBatch tok bid (length us)) in
      push (set_batches s (s_batches s ++ [(bid, mkBatch tok (repeat None (length us)) 0)])) [FBatchPush bid 0 us]
  end.
Fixpoint upd {A} (l : list A) (i : nat) (v : A) : list A :=
  match l, i with
  | [], _ => []
  | _ :: r, O => v :: r
  | x :: r, S j => x :: upd r j v
  end.
Definition batch_of (s : st) (bid : nat) : option batch := option_map snd (find (fun e => fst e =? bid) (s_batches s)).
Definition without (bid : nat) (l : list (nat * batch)) : list (nat * batch) := filter (fun e => negb (fst e =? bid)) l.
(** client.cpp:431-446, the callback of one request of a batch *)
Definition batch_lambda (s : st) (bid idx : nat) (r : resp) : st :=
  match batch_of s bid with
  | None => s
  | Some b =>
      let rs := upd (b_resps b) idx (Some r) in
      if S (b_done b) =? length rs
      then invoke (set_batches s (without bid (s_batches s))) (FBatchCall (b_tok b) bid rs)
      else set_batches s (map (fun e => if fst e =? bid then (bid, mkBatch (b_tok b) rs (S (b_done b))) else e) (s_batches s))
  end.
(** client.cpp:310-325 disconnect *)
Definition do_disconnect (s : st) : st :=
  push (set_connecting (set_connected (set_intent s true) false) false) [FFailActive 503; FFailAll 503; FClose; FReset].

(** client.cpp:468-494 process_pending_requests *)
Definition process_pending (s : st) : st :=
  match s_active s, s_pending s with
  | Some _, _ | None, [] => s
  | None, x :: r =>
      if negb (s_connected s) || negb (is_open s) then
        if negb (s_auto s) then
          invoke (push (set_fail (set_pending s r) (S (s_fail s))) [FProcess]) (FCall (x_cb x) (Local 503))
        else if negb (s_connecting s) then do_connect s None else s
      else push (set_pending (set_active s (Some x)) r) [FSend; FAfterSend]
  end.
(** client.cpp:694-703 fail_active_request *)
Definition fail_active (s : st) (status : nat) : st :=
  match s_active s with
  | None => s
  | Some x => invoke (set_fail (set_active s None) (S (s_fail s))) (FCall (x_cb x) (Local status))
  end.
(** client.cpp:584-601 handle_connection_success, 603-619 handle_connection_failure: up to the loops.  Client
    lines 100-107: the new socket becomes the transport before the client is told. *)
Definition connection_success (s : st) : st :=
  match s_conn s with
  | None => s
  | Some c =>
      let w := s_next_wire s in
      let s := emit (set_next_wire (set_conn s (Some (mkC (c_id c) w true (pred (c_attempts c))))) (S w)) (EOpened w) in
      let s := set_intent (set_connecting (set_connected s true) false) false in
      push (set_ccbs s []) [FConnCbs true (s_ccbs s); FConnOkTail]
  end.
Definition fail_connection (s : st) : st :=
  let s := set_connecting (set_connected s false) false in
  push (set_ccbs s []) [FConnCbs false (s_ccbs s); FConnFailTail].
Definition connection_failure (s : st) : st :=
  match s_conn s with
  | None => s
  | Some c => fail_connection (set_conn s (Some (mkC (c_id c) (c_wire c) (c_open c) (pred (c_attempts c)))))
  end.
(** client.cpp:621-649 handle_response, up to the callback *)
Definition handle_response (s : st) (n : nat) (keep : bool) : st :=
  match s_active s with
  | None => s
  | Some x => invoke (push (set_succ (set_active s None) (S (s_succ s))) [FRespTail keep]) (FCall (x_cb x) (Remote n))
  end.
(** client.cpp:540-547 reset_deferred_connection_if_ready *)
Definition reset_deferred (s : st) : st :=
  if (negb (s_depth s =? 0)) || negb (s_defreset s) then s
  else set_conn (destroy (set_defreset s false)) None.
Definition has_pending_work (s : st) : bool := is_some (s_active s) || negb (length (s_pending s) =? 0).

(** what the code outside decides at a step: for a send, success (C0) or an exception; for a connection
    attempt, no answer yet (C0), success (C1), failure (C2); for the transport's disconnect, closed later
    (C0) or at once *)
Inductive choice := C0 | C1 | C2.

(** one frame is executed (already taken off the stack) *)
Definition exec (s : st) (f : frame) (ch : choice) : st :=
  match f with
  | FUser => s
  | FScope => set_depth s (pred (s_depth s))
  | FCall c r =>
      let s := emit s (ECalled c r) in
      match c with
      | CbUser _ => push s [FUser]
      | CbBatch bid idx => batch_lambda s bid idx r
      end
  | FBatchCall tok bid rs => push (emit s (EBatchCalled tok bid rs)) [FUser]
  | FConnCall tok ok => push (emit s (EConnCalled tok ok)) [FUser]
  | FProcess => process_pending s
  | FSend => (* client.cpp:117-138; is the connection there: checked by process_pending *)
      match ch, s_active s, s_conn s with
      | C0, Some x, Some c => emit s (ESent (c_wire c) (x_cb x) (x_uri x))
      | _, _, _ => fail_active s 400
      end
  | FAfterSend => match s_active s with None => push s [FProcess] | Some _ => s end
  | FAttempt =>
      match ch with
      | C0 => s
      | C1 => connection_success s
      | C2 => connection_failure s
      end
  | FFailActive status => fail_active s status
  | FFailAll status => (* client.cpp:705-714 *)
      match s_pending s with
      | [] => s
      | x :: r => invoke (push (set_fail (set_pending s r) (S (s_fail s))) [FFailAll status]) (FCall (x_cb x) (Local status))
      end
  | FClose =>
      match ch, s_conn s with
      | C0, _ | _, None => s
      | _, Some c => set_conn s (Some (mkC (c_id c) (c_wire c) false (c_attempts c)))
      end
  | FReset => if s_depth s =? 0 then set_conn (destroy s) None else set_defreset s true
  | FConnCbs _ [] => s
  | FConnCbs ok (t :: l) => invoke (push s [FConnCbs ok l]) (FConnCall t ok)
  | FConnOkTail => if s_intent s then s else push s [FProcess]
  | FConnFailTail => push s [FFailActive 502; FFailAll 503]
  | FRespTail keep =>
      if s_intent s then s
      else if keep then push s [FProcess]
      else push (set_connected s false) [FClose]
  | FBatchPush _ _ [] => s
  | FBatchPush bid i (u :: us) => push_request (push s [FBatchPush bid (S i) us]) u (CbBatch bid i)
  | FDisc1 => (* client.cpp:663-670 *)
      push (set_connecting (set_connected s false) false) [FFailActive 502; FDisc2]
  | FDisc2 => (* client.cpp:671-692 *)
      if s_intent s then s
      else if has_pending_work s && s_auto s then set_deferred s (s_deferred s ++ [DReconnect])
      else if has_pending_work s then push s [FFailAll 503] else s
  | FResponse n keep => handle_response s n keep
  | FIn cid gone =>
      match gone, s_conn s with
      | true, Some c => if c_id c =? cid then set_conn s (Some (mkC cid (c_wire c) false (c_attempts c))) else s
      | _, _ => s
      end
  end.

Inductive call :=
| APush (tok : nat) (u : uri) | ABatch (tok : nat) (us : list uri) | AConnect (callback : option nat) | ADisconnect
| ASetAuto (b : bool) | ASetMax (n : nat) | ASetTimed (b : bool).
Definition api (s : st) (a : call) : st :=
  match a with
  | APush tok u => push_request s u (CbUser tok)
  | ABatch tok us => push_requests s tok us
  | AConnect callback => do_connect (match callback with Some t => emit s (EConnAsked t) | None => s end) callback
  | ADisconnect => do_disconnect s
  | ASetAuto b => set_auto s b
  | ASetMax n => set_max s n
  | ASetTimed b => set_timed s b
  end.

(** events of the loop *)
Inductive ioev :=
| IConn (ok : bool)                                  (* the outcome of an attempt *)
| IResp (n : nat) (keep : bool)                      (* a response message *)
| ITimeout                                           (* the connection's timer *)
| IDisc (flush : option (nat * bool)) (closed : bool) (* on(disconnected), with the message flush_eof completes if
                                                        any; [closed]: the transport reports closed by then *)
| ITimer (id : nat)                                  (* client.cpp:549-566 the timer of a pending request *)
| IDefer.                                            (* the next deferred closure *)
Fixpoint remove1 (i : nat) (l : list nat) : list nat :=
  match l with [] => [] | x :: r => if x =? i then r else x :: remove1 i r end.
(** client.cpp:568-582 fail_pending_request: removal from the queue *)
Fixpoint take_pending (id : nat) (l : list ctx) : option (ctx * list ctx) :=
  match l with
  | [] => None
  | x :: r => if x_id x =? id then Some (x, r)
              else match take_pending id r with Some (y, r') => Some (y, x :: r') | None => None end
  end.
Definition io (s : st) (e : ioev) : option st :=
  match e with
  | ITimer id =>
      if existsb (fun x => x =? id) (s_timers s) then
        let s := set_timers s (remove1 id (s_timers s)) in
        match take_pending id (s_pending s) with
        | None => Some s
        | Some (x, r) => Some (invoke (push (set_fail (set_pending s r) (S (s_fail s))) [FProcess]) (FCall (x_cb x) (Local 408)))
        end
      else None
  | IDefer =>
      match s_deferred s with
      | [] => None
      | DReset :: d => Some (reset_deferred (set_deferred s d))
      | DReconnect :: d =>
          let s := set_deferred s d in
          if s_connected s || s_connecting s || negb (has_pending_work s) then Some s
          else Some (do_connect (create_connection s) None)
      end
  | IConn ok =>
      match s_conn s with
      | Some c => if c_attempts c =? 0 then None else Some (if ok then connection_success s else connection_failure s)
      | None => None
      end
  | IResp n keep =>
      match s_conn s with
      | Some c => if c_open c then Some (push (emit s (EGot (c_wire c) n keep)) [FResponse n keep; FIn (c_id c) false]) else None
      | None => None
      end
  | ITimeout => (* client.cpp:651-661 handle_timeout *)
      match s_conn s with
      | Some c =>
          let s := push (emit s (ETimedOut (c_wire c))) [FIn (c_id c) false] in
          Some (if s_connecting s && negb (s_connected s) then fail_connection s
                else push s [FFailActive 504; FClose])
      | None => None
      end
  | IDisc flush closed => (* client.cpp:168-179 *)
      match s_conn s with
      | Some c =>
          if c_open c then
            let s := push s [FDisc1; FIn (c_id c) true] in
            let s := match flush with Some (n, keep) => push (emit s (EGot (c_wire c) n keep)) [FResponse n keep] | None => s end in
            Some (set_conn s (Some (mkC (c_id c) (c_wire c) (negb closed) (c_attempts c))))
          else None
      | None => None
      end
  end.

Inductive label := LApi (a : call) | LReturn | LRun (ch : choice) | LIo (e : ioev).
Definition step (s : st) (l : label) : option st :=
  match l with
  | LApi a => match s_stack s with [] | FUser :: _ => Some (api s a) | _ => None end
  | LReturn => match s_stack s with FUser :: k => Some (set_stack s k) | _ => None end
  | LRun ch => match s_stack s with
               | [] | FUser :: _ => None
               | f :: k => Some (exec (set_stack s k) f ch)
               end
  | LIo e => match s_stack s with [] => io s e | _ => None end
  end.
Fixpoint run (s : st) (ls : list label) : option st :=
  match ls with
  | [] => Some s
  | l :: r => match step s l with Some s' => run s' r | None => None end
  end.
(** client.h:105-140 member initialisers; client.cpp:212-240: a connection object is made by the constructor *)
Definition init (base : uri) : st :=
  mkSt false false false 0 false (Some (mkC 0 0 false 0)) [] None [] 1 1 1 1 1024 true true [] 0 0 0 [] [] [] [] base.
