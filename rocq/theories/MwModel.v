(** The small middlewares: conditional.h, transform.h, error_handling.h, timing.h, logging.h. Predicates, children, transformers, handlers and
    log functions are arbitrary code. *)
From Verif Require Import Base UtilModel Http1Model RecvModel StaticModel CtxModel.
Local Open Scope N_scope.

(** ** conditional.h:86-103 and transform.h:77-94, as task code in the sense of [CtxModel] (the calls made on the context; true: it throws).
    The predicate and the children make calls too; [None]: the predicate throws. *)
Inductive Conditional (pred : list ucall -> option bool -> Prop) (yes : list ucall -> bool -> Prop) (no : option (list ucall -> bool -> Prop)) : list ucall -> bool -> Prop :=
| Cond_yes p us : pred p (Some true) -> yes us false -> Conditional pred yes no (p ++ us) false
| Cond_yes_throws p us : pred p (Some true) -> yes us true -> Conditional pred yes no (p ++ us ++ [USetStatus 500; UComplete ERROR]) false
| Cond_no p child us : pred p (Some false) -> no = Some child -> child us false -> Conditional pred yes no (p ++ us) false
| Cond_no_throws p child us : pred p (Some false) -> no = Some child -> child us true -> Conditional pred yes no (p ++ us ++ [USetStatus 500; UComplete ERROR]) false
| Cond_none p : pred p (Some false) -> no = None -> Conditional pred yes no (p ++ [UComplete CONTINUE]) false
| Cond_pred_throws p : pred p None -> Conditional pred yes no (p ++ [USetStatus 500; UComplete ERROR]) false.
(** transform.h: the transformer gets the request only, so it makes no calls; [threw] tells how it ended, None: there is no transformer *)
Definition transform_calls (threw : option bool) : list ucall :=
  match threw with Some true => [USetStatus 500; UComplete ERROR] | _ => [UComplete CONTINUE] end.

(** ** error_handling.h *)
Section Errors.
Variable S : Type.                                     (* the context *)
Variable status : S -> Z.                              (* of its response *)
Variable message : S -> list N.                        (* the text under __error_message, empty if there is none *)
Variable handler : Type.
(** What a handler does: the context it leaves, and whether it throws. *)
Variable call : handler -> S -> S * bool.
Variable call_generic : handler -> list N -> S -> S * bool.
(** error_handling.h:203-206 *)
Record table := mkT { t_status : list (Z * handler); t_generic : option handler }.
Definition find_status (c : Z) (l : list (Z * handler)) : option handler := match find (fun e => (fst e =? c)%Z) l with Some e => Some (snd e) | None => None end.
Fixpoint assign (c : Z) (h : handler) (l : list (Z * handler)) : list (Z * handler) :=
  match l with [] => [(c, h)] | e :: r => if (fst e =? c)%Z then (c, h) :: r else e :: assign c h r end.
Definition try_emplace (c : Z) (h : handler) (l : list (Z * handler)) : list (Z * handler) :=
  match find_status c l with Some _ => l | None => l ++ [(c, h)] end.
Inductive registration := OnStatus (c : Z) (h : option handler) | OnRange (a b : Z) (h : option handler) | OnAny (h : option handler).   (* None: a null function *)
(** error_handling.h:116-121: the loop over the codes *)
Fixpoint range (n : nat) (c : Z) (h : handler) (l : list (Z * handler)) : list (Z * handler) :=
  match n with O => l | Datatypes.S n => range n (c + 1)%Z h (if ((100 <=? c) && (c <? 600))%Z then try_emplace c h l else l) end.
(** error_handling.h:91-141 *)
Definition register (t : table) (r : registration) : table :=
  match r with
  | OnStatus c (Some h) => mkT (assign c h (t_status t)) (t_generic t)
  | OnRange a b (Some h) => mkT (range (Z.to_nat (b - a + 1)) a h (t_status t)) (t_generic t)
  | OnAny (Some h) => mkT (t_status t) (Some h)
  | _ => t
  end.
Definition configured (l : list registration) : table := fold_left register l (mkT [] None).
Inductive called := Specific (h : handler) | Generic (h : handler) (m : list N).
(** error_handling.h:153-188; the result is always COMPLETE *)
Definition process (t : table) (c : S) : S * list called :=
  let st := status c in
  let '(c1, cs, handled) :=
    match find_status st (t_status t) with
    | Some h => let '(c', threw) := call h c in (c', [Specific h], negb threw)
    | None => (c, [], false)
    end in
  match t_generic t with
  | Some h => if handled then (c1, cs)
              else let m := match message c1 with [] => str "Error encountered: status " ++ to_string st | m => m end in
                   (fst (call_generic h m c1), cs ++ [Generic h m])
  | None => (c1, cs)
  end.
End Errors.

(** ** timing.h and logging.h: what runs when the response is about to be sent. Times are in nanoseconds of the steady clock. *)
Inductive value := Time (t : Z) | Other.
(** A registered hook: of a timing or of a logging middleware. [u]: whether the user function throws. *)
Inductive hook := TimingHook (key : list N) (callback : nat) | LoggingHook (level logger : nat).
Record ctx := mkX { x_data : list (list N * value); x_hooks : list hook; x_headers : headers_map; x_status : N }.
Fixpoint put (k : list N) (v : value) (d : list (list N * value)) : list (list N * value) :=
  match d with [] => [(k, v)] | e :: r => if beq (fst e) k then (k, v) :: r else e :: put k v r end.
Definition get (k : list N) (d : list (list N * value)) : option value := match find (fun e => beq (fst e) k) d with Some e => Some (snd e) | None => None end.
Inductive report := Duration (callback : nat) (ms : Z) | Logged (logger level : nat) (text : list N).
Section Observers.
Variable ms_text : Z -> list N.                 (* std::to_string of the nanoseconds as a double of milliseconds *)
Variable status_name : N -> list N.             (* std::to_string(status) *)
(** timing.h:84-124 *)
Definition timing_key (name : list N) : list N := str "__TimingMiddleware_StartTime_" ++ name.
Definition timing_process (name : list N) (callback : nat) (now : Z) (c : ctx) : ctx :=
  mkX (put (timing_key name) (Time now) (x_data c)) (x_hooks c ++ [TimingHook (timing_key name) callback]) (x_headers c) (x_status c).
(** logging.h:93-121 and 144-183; [method] and [path] of the request *)
Definition logging_process (logger req_level res_level : nat) (method path : list N) (c : ctx) : ctx * list report :=
  (mkX (x_data c) (x_hooks c ++ [LoggingHook res_level logger]) (x_headers c) (x_status c),
   [Logged logger req_level (str "Request: " ++ method ++ str " " ++ path)]).
(** timing.h:93-121, logging.h:103-118: one hook at PRE_RESPONSE_SEND; exceptions of the user function are swallowed *)
Definition run_hook (now : Z) (c : ctx) (h : hook) : ctx * list report :=
  match h with
  | TimingHook key cb =>
      match get key (x_data c) with
      | Some (Time t) => (mkX (x_data c) (x_hooks c) (set_value (str "X-Response-Time") (ms_text (now - t) ++ str "ms") (x_headers c)) (x_status c),
                          [Duration cb (Z.quot (now - t) 1000000)])
      | _ => (c, [])
      end
  | LoggingHook level logger => (c, [Logged logger level (str "Response: " ++ dec (x_status c) ++ str " " ++ status_name (x_status c))])
  end.
(** routing/context.h:190-206; [clock]: the reading of the clock during each hook *)
Fixpoint run_hooks (hs : list (hook * Z)) (c : ctx) : ctx * list report :=
  match hs with [] => (c, []) | (h, now) :: r => let '(c1, a) := run_hook now c h in let '(c2, b) := run_hooks r c1 in (c2, a ++ b) end.
End Observers.
