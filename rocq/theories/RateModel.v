(** Model of middleware/rate_limit.h: RateLimitMiddleware and RateLimitOptions::extract_client_id. Times and
    durations are nanoseconds (Z); steady_clock never goes back. *)
From Verif Require Import Base.
Open Scope N_scope.

(** rate_limit.h:43-56. STALE_ENTRY_CLEANUP_INTERVAL is one minute. *)
Definition MAX_TRACKED_CLIENTS : N := 100000.
Definition MAX_CLIENT_ID_LENGTH : N := 256.
Definition CLEANUP_INTERVAL : Z := 60000000000.

(** rate_limit.h:545-549 ClientData: request_count, last_reset_time *)
Definition client_data : Type := N * Z.

(** rate_limit.h:576-582 _client_data and _next_cleanup_time *)
Record state := mkState { clients : list (list N * client_data); next_cleanup : Z }.

(** 581: a middleware constructed at time t *)
Definition initial (t : Z) : state := mkState [] (t + CLEANUP_INTERVAL).

Fixpoint find (id : list N) (l : list (list N * client_data)) : option client_data :=
  match l with [] => None | (k, d) :: r => if beq k id then Some d else find id r end.
Fixpoint put (id : list N) (d : client_data) (l : list (list N * client_data)) : list (list N * client_data) :=
  match l with [] => [(id, d)] | (k, e) :: r => if beq k id then (k, d) :: r else (k, e) :: put id d r end.
Definition erase (id : list N) (l : list (list N * client_data)) : list (list N * client_data) :=
  filter (fun kd => negb (beq (fst kd) id)) l.

(** 436, 566: duration_cast<milliseconds>(d) >= window (truncation towards zero) *)
Definition elapsed (window d : Z) : bool := (window <=? Z.quot d 1000000 * 1000000)%Z.

(** 562-572 evict_stale_entries_internal *)
Definition evict (window now : Z) (l : list (list N * client_data)) : list (list N * client_data) :=
  filter (fun kd => negb (elapsed window (now - snd (snd kd)))) l.

(** What the client gets: 400, 503, the configured refusal or the next handler; the last two with the value of
    X-RateLimit-Remaining (593-595). *)
Inductive outcome := BadId | Capacity | Limited (remaining : N) | Admitted (remaining : N).

(** 380-469 process, for a client id already extracted. [created]: the clock read by the constructor of a new
    ClientData (547). *)
Definition process (max : N) (window : Z) (st : state) (id : list N) (now created : Z) : state * outcome :=
  if MAX_CLIENT_ID_LENGTH <? N.of_nat (length id) then (st, BadId)
  else
    let periodic_due := (next_cleanup st <=? now)%Z in
    let memory_pressure := MAX_TRACKED_CLIENTS * 9 <=? N.of_nat (length (clients st)) * 10 in
    let st1 := if periodic_due || memory_pressure
               then mkState (evict window now (clients st)) (now + CLEANUP_INTERVAL)
               else st in
    let known := find id (clients st1) in
    if (MAX_TRACKED_CLIENTS <=? N.of_nat (length (clients st1))) && (match known with None => true | _ => false end)
    then (st1, Capacity)
    else
      let '(count, reset) := match known with Some d => d | None => (0, created) end in
      let '(count, reset) := if elapsed window (now - reset) then (0, now) else (count, reset) in
      let '(count', limited) := if max <=? count then (count, true) else (count + 1, false) in
      let remaining := if count' <? max then max - count' else 0 in
      (mkState (put id (count', reset) (clients st1)) (next_cleanup st1),
       if limited then Limited remaining else Admitted remaining).

(** The public operations: a request, reset_all_clients (489), reset_client (500), evict_stale_entries_now (537). *)
Inductive op := Request (id : list N) (now created : Z) | ResetAll | ResetClient (id : list N) | EvictNow (now : Z).

(** A request as it was answered. *)
Record answer := mkAnswer { who : list N; at_ : Z; made : Z; what : outcome }.

Definition step (max : N) (window : Z) (st : state) (o : op) : state * list answer :=
  match o with
  | Request id now created => let '(st', r) := process max window st id now created in (st', [mkAnswer id now created r])
  | ResetAll => (mkState [] (next_cleanup st), [])
  | ResetClient id => (mkState (erase id (clients st)) (next_cleanup st), [])
  | EvictNow now => (mkState (evict window now (clients st)) (next_cleanup st), [])
  end.

Fixpoint run (max : N) (window : Z) (st : state) (ops : list op) : state * list answer :=
  match ops with
  | [] => (st, [])
  | o :: r => let '(st1, a) := step max window st o in let '(st2, b) := run max window st1 r in (st2, a ++ b)
  end.

(** The part of [s] after its last octet [c] (297-300: rfind, substr); None if it has none. *)
Fixpoint after_last (c : N) (s : list N) : option (list N) :=
  match s with
  | [] => None
  | x :: r => match after_last c r with Some t => Some t | None => if x =? c then Some r else None end
  end.

(** 302-305: drop the leading blanks and tabs, unless there is nothing else *)
Fixpoint skip_blank (s : list N) : list N :=
  match s with [] => [] | x :: r => if (x =? 32) || (x =? 9) then skip_blank r else s end.

(** 295-307: the rightmost element of X-Forwarded-For *)
Definition rightmost (xff : list N) : list N :=
  match after_last 44 xff with
  | None => xff
  | Some tail => match skip_blank tail with [] => tail | t => t end
  end.

(** The session a request came from, as the extractor sees it: its address (empty if unknown or if the type has
    none, 251) and the identifier made from its pointer (316). *)
Record peer := mkPeer { peer_ip : list N; placeholder : list N }.

(** 225-319 extract_client_id without a custom extractor: [trust] is the option trust_forwarded_headers, the three
    headers are given by value, empty if absent (Request::header returns the default value). "unknown_client". *)
Definition unknown_client : list N := [117;110;107;110;111;119;110;95;99;108;105;101;110;116].
Definition extract_client_id (trust : bool) (session : option peer) (cf true_client xff : list N) : list N :=
  let from_headers :=
    let id := match cf, true_client with
              | _ :: _, _ => cf
              | [], _ :: _ => true_client
              | [], [] => match xff with [] => [] | _ => rightmost xff end
              end in
    match id with
    | [] => match session with Some p => placeholder p | None => unknown_client end
    | _ => id
    end in
  match session with
  | Some p => match peer_ip p with
              | [] => from_headers
              | ip => if trust then from_headers else ip
              end
  | None => from_headers
  end.
