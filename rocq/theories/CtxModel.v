(** Model of routing/context.h: the life of a request context. User code (tasks, lifecycle hooks, the
    finalisation callback) is arbitrary: each run of it is some list of calls to the context, possibly ended by
    an exception, and calls nest. The model is a big-step relation: every derivation is one possible execution. *)
From Verif Require Import Base.
Open Scope N_scope.

(** types.h:53-62 *)
Inductive result := CONTINUE | COMPLETE | CANCELLED | ERROR | FATAL.
(** context.h:92-96 *)
Inductive cstate := Ready | Running | Finalised.
(** Which chain _task_chain refers to: none yet, the one installed by the router, the error chain. *)
Inductive chain_kind := NoChain | RouteChain | ErrorChain.

(** context.h:111-171, the fields that matter. [error_phase]: phase == ERROR_CHAIN; [callback]:
    _on_finalized_callback is set; [status]: the response status. *)
Record ctx := mkCtx {
  state : cstate; error_phase : bool; cancelled : bool; in_flight : bool;
  chain : chain_kind; index : nat; depth : nat; pending : bool; callback : bool; status : N }.

Definition set_state v c := mkCtx v (error_phase c) (cancelled c) (in_flight c) (chain c) (index c) (depth c) (pending c) (callback c) (status c).
Definition set_error_phase v c := mkCtx (state c) v (cancelled c) (in_flight c) (chain c) (index c) (depth c) (pending c) (callback c) (status c).
Definition set_cancelled v c := mkCtx (state c) (error_phase c) v (in_flight c) (chain c) (index c) (depth c) (pending c) (callback c) (status c).
Definition set_in_flight v c := mkCtx (state c) (error_phase c) (cancelled c) v (chain c) (index c) (depth c) (pending c) (callback c) (status c).
Definition set_chain k i c := mkCtx (state c) (error_phase c) (cancelled c) (in_flight c) k i (depth c) (pending c) (callback c) (status c).
Definition set_depth v c := mkCtx (state c) (error_phase c) (cancelled c) (in_flight c) (chain c) (index c) v (pending c) (callback c) (status c).
Definition set_pending v c := mkCtx (state c) (error_phase c) (cancelled c) (in_flight c) (chain c) (index c) (depth c) v (callback c) (status c).
Definition set_callback v c := mkCtx (state c) (error_phase c) (cancelled c) (in_flight c) (chain c) (index c) (depth c) (pending c) v (status c).
Definition set_status v c := mkCtx (state c) (error_phase c) (cancelled c) (in_flight c) (chain c) (index c) (depth c) (pending c) (callback c) v.

(** Calls user code can make on the context. [USetStatus] stands for writing to the response. [UDefer] and
    [URelease] are the construction and destruction of a ScopedFinalizationDeferral. *)
Inductive ucall := UComplete (r : result) | UCancel | USuppress | UDefer | URelease | USetStatus (s : N).

(** What can be observed. *)
Inductive event :=
| Made (u : ucall)                        (* user code makes a call on the context *)
| Executed (k : chain_kind) (i : nat)     (* the i-th task of the chain is run *)
| TaskCancelled (k : chain_kind) (i : nat) (* its cancel() is called *)
| CancelRequested                         (* cancel() took effect *)
| Suppressed                              (* suppress_response() was called *)
| Hooked                                  (* POST_HANDLER_EXECUTION hooks run *)
| Responded (status : N).                 (* the finalisation callback runs: the response is sent *)

(** Internal procedures. *)
Inductive proc := Call (u : ucall) | Finalize | Proceed | User (calls : list ucall).

Definition stopped (c : ctx) : bool := (* 185-188 is_cancelled_or_done_internal *)
  cancelled c || match state c with Finalised => true | _ => false end.
Definition finalised (c : ctx) : bool := match state c with Finalised => true | _ => false end.

Section Life.
(** Null (false) or real (true) tasks of the route's chain and of the router's error chain; the error chain
    is empty when the router has none (or is gone). *)
Variable route_chain error_chain : list bool.
(** The code of the tasks, of the hooks and of the callback: the lists of calls they can make, and for tasks
    whether they end by throwing. *)
Variable task_code : chain_kind -> nat -> list ucall -> bool -> Prop.
Variable hook_code callback_code : list ucall -> Prop.
(** What a task's cancel() can call back (it usually does nothing). *)
Variable cancel_code : list ucall -> Prop.

Definition tasks (k : chain_kind) : list bool :=
  match k with NoChain => [] | RouteChain => route_chain | ErrorChain => error_chain end.

Inductive Runs : proc -> ctx -> list event -> ctx -> Prop :=
(** a sequence of user calls *)
| R_user_nil c : Runs (User []) c [] c
| R_user u us c t1 c1 t2 c2 : Runs (Call u) c t1 c1 -> Runs (User us) c1 t2 c2 -> Runs (User (u :: us)) c (Made u :: t1 ++ t2) c2
(** 213-235 finalize_processing_internal *)
| R_fin_done c : state c = Finalised -> Runs Finalize c [] c
| R_fin_deferred c : state c <> Finalised -> (depth c > 0)%nat -> Runs Finalize c [] (set_pending true c)
| R_fin_silent c hs t1 c1 : state c <> Finalised -> depth c = 0%nat -> hook_code hs ->
    Runs (User hs) (set_pending false (set_in_flight false (set_state Finalised c))) t1 c1 -> callback c1 = false ->
    Runs Finalize c (Hooked :: t1) c1
| R_fin_respond c hs t1 c1 cs t2 c2 : state c <> Finalised -> depth c = 0%nat -> hook_code hs ->
    Runs (User hs) (set_pending false (set_in_flight false (set_state Finalised c))) t1 c1 -> callback c1 = true ->
    callback_code cs -> Runs (User cs) c1 t2 c2 ->
    Runs Finalize c (Hooked :: t1 ++ Responded (status c1) :: t2) c2
(** 242-276 proceed_to_next_task_internal *)
| R_next_stop c t c' : stopped c = true -> finalised c = false -> Runs Finalize c t c' -> Runs Proceed c t c'
| R_next_done c : finalised c = true -> Runs Proceed c [] c
| R_next_run c us t c1 : stopped c = false -> nth_error (tasks (chain c)) (index c) = Some true ->
    task_code (chain c) (index c) us false ->
    Runs (User us) (set_in_flight true c) t c1 ->
    Runs Proceed c (Executed (chain c) (index c) :: t) c1
| R_next_throw_stopped c us t c1 : stopped c = false -> nth_error (tasks (chain c)) (index c) = Some true ->
    task_code (chain c) (index c) us true ->
    Runs (User us) (set_in_flight true c) t c1 -> stopped c1 = true ->
    Runs Proceed c (Executed (chain c) (index c) :: t) (set_in_flight false c1)
| R_next_throw c us t c1 t2 c2 : stopped c = false -> nth_error (tasks (chain c)) (index c) = Some true ->
    task_code (chain c) (index c) us true ->
    Runs (User us) (set_in_flight true c) t c1 -> stopped c1 = false ->
    Runs (Call (UComplete ERROR)) (set_in_flight false c1) t2 c2 ->
    Runs Proceed c (Executed (chain c) (index c) :: t ++ t2) c2
| R_next_null c t c' : stopped c = false -> nth_error (tasks (chain c)) (index c) = Some false ->
    Runs Proceed (set_chain (chain c) (S (index c)) c) t c' -> Runs Proceed c t c'
| R_next_end c t c' : stopped c = false -> nth_error (tasks (chain c)) (index c) = None ->
    Runs Finalize c t c' -> Runs Proceed c t c'
(** 1106-1178 complete *)
| R_complete_done c r : finalised c = true -> r <> CANCELLED -> Runs (Call (UComplete r)) c [] c
| R_complete_cancelled c r t c' : finalised c = false -> cancelled c = true -> r <> CANCELLED ->
    Runs Finalize c t c' -> Runs (Call (UComplete r)) c t c'
| R_complete_continue c t c' : stopped c = false ->
    Runs Proceed (set_chain (chain c) (S (index c)) (set_in_flight false c)) t c' -> Runs (Call (UComplete CONTINUE)) c t c'
| R_complete_complete c t c' : stopped c = false -> Runs Finalize (set_in_flight false c) t c' ->
    Runs (Call (UComplete COMPLETE)) c t c'
| R_complete_cancel c t c' : Runs Finalize (set_cancelled true (set_in_flight false c)) t c' ->
    Runs (Call (UComplete CANCELLED)) c t c'
| R_complete_fatal c t c' : stopped c = false -> Runs Finalize (set_status 500 (set_in_flight false c)) t c' ->
    Runs (Call (UComplete FATAL)) c t c'
| R_complete_error_end c t c' : stopped c = false -> error_phase c = true \/ error_chain = [] ->
    Runs Finalize (set_status 500 (set_in_flight false c)) t c' -> Runs (Call (UComplete ERROR)) c t c'
| R_complete_error_chain c t c' : stopped c = false -> error_phase c = false -> error_chain <> [] ->
    Runs Proceed (set_chain ErrorChain 0 (set_error_phase true (set_in_flight false c))) t c' ->
    Runs (Call (UComplete ERROR)) c t c'
(** 1189-1211 cancel *)
| R_cancel_late c : stopped c = true -> Runs (Call UCancel) c [] c
| R_cancel_task c us t1 c1 t c' : stopped c = false -> in_flight c = true -> nth_error (tasks (chain c)) (index c) = Some true ->
    cancel_code us -> Runs (User us) (set_cancelled true c) t1 c1 ->
    Runs (Call (UComplete CANCELLED)) (set_status 503 c1) t c' ->
    Runs (Call UCancel) c (CancelRequested :: TaskCancelled (chain c) (index c) :: t1 ++ t) c'
| R_cancel c t c' : stopped c = false -> ~ (in_flight c = true /\ nth_error (tasks (chain c)) (index c) = Some true) ->
    Runs (Call (UComplete CANCELLED)) (set_status 503 (set_cancelled true c)) t c' ->
    Runs (Call UCancel) c (CancelRequested :: t) c'
(** 1250-1255 suppress_response *)
| R_suppress c : Runs (Call USuppress) c [Suppressed] (set_in_flight false (set_state Finalised (set_callback false c)))
(** 341-386 ScopedFinalizationDeferral; a guard can only be released if it is held *)
| R_defer c : Runs (Call UDefer) c [] (set_depth (S (depth c)) c)
| R_release_more c n : depth c = S n -> (n <> 0%nat \/ pending c = false) -> Runs (Call URelease) c [] (set_depth n c)
| R_release_last c t c' : depth c = 1%nat -> pending c = true ->
    Runs Finalize (set_depth 0 c) t c' -> Runs (Call URelease) c t c'
(** writing to the response *)
| R_status c s : Runs (Call (USetStatus s)) c [] (set_status s c).

(** 289-303 set_task_chain_and_start (the chain is never empty, router_core.h:429) *)
Inductive Starts : ctx -> list event -> ctx -> Prop :=
| S_late c : stopped c = true -> Starts c [] c
| S_go c t c' : stopped c = false ->
    Runs Proceed (set_state Running (set_chain RouteChain 0 c)) t c' -> Starts c t c'.

(** 397-403 construction *)
Definition fresh : ctx := mkCtx Ready false false false NoChain 0 0 false true 200.

(** router_core.h:338-445 route_request, as the context sees it: PRE_ROUTING hooks; a path that is too long is
    answered 400 at once (363-371); otherwise the phase is set (402, 419, 426), the status may be set to 405
    (411), PRE_HANDLER_EXECUTION hooks run and the chain starts. The events are split in two: before the chain
    starts, and from then on. *)
Inductive Routed : list event -> list event -> ctx -> Prop :=
| Ro_long us t1 c1 t2 c2 : Runs (User us) fresh t1 c1 -> Runs (Call (UComplete COMPLETE)) (set_status 400 c1) t2 c2 ->
    Routed t1 t2 c2
| Ro_chain us t1 c1 not_allowed us' t1' c1' t2 c2 : Runs (User us) fresh t1 c1 ->
    Runs (User us') (set_error_phase false (if not_allowed : bool then set_status 405 c1 else c1)) t1' c1' ->
    Starts c1' t2 c2 -> Routed (t1 ++ t1') t2 c2.

(** The life of a context up to its destruction: routing, then anything user code does from later turns of the
    event loop, in any number of turns. *)
Inductive Life : list event -> list event -> ctx -> Prop :=
| L_life before started c later us c' : Routed before started c -> Runs (User us) c later c' ->
    Life before (started ++ later) c'.

(** 421-431 destruction: finalise if that has not happened *)
Inductive Destroyed : ctx -> list event -> ctx -> Prop :=
| D_done c : finalised c = true -> Destroyed c [] c
| D_now c t c' : finalised c = false -> Runs Finalize c t c' -> Destroyed c t c'.

End Life.
