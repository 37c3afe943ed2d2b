(** Model of routing/radix_tree.h, routing/path_parameters.h, the matching part of routing/router_core.h and
    the route registration of routing/handler_node.h, route.h, route_group.h, controller.h. *)
From Verif Require Import Base UtilModel.
Open Scope N_scope.

(** path_parameters.h:32-70 - the map; insertion-ordered association list, keys unique.
    set = insert_or_assign (line 69). *)
Definition params : Type := list (list N * list N).

Fixpoint params_set (k v : list N) (ps : params) : params :=
  match ps with
  | [] => [(k, v)]
  | (k', v') :: r => if beq k' k then (k, v) :: r else (k', v') :: params_set k v r
  end.

(** path_parameters.h:78-85 *)
Fixpoint params_get (k : list N) (ps : params) : option (list N) :=
  match ps with
  | [] => None
  | (k', v) :: r => if beq k' k then Some v else params_get k r
  end.

(** radix_tree.h:133 *)
Definition METHOD_SLOT_COUNT : N := 64.

(** radix_tree.h:141-148 *)
Definition method_slot (raw : Z) : N :=
  if (raw <? 0)%Z || (64 <=? raw)%Z then METHOD_SLOT_COUNT else Z.to_N raw.

(** radix_tree.h:279-313 split_path_to_segments. A string_view into the path is (offset, length); [rest] is
    what the loop index i has still to visit. *)
Fixpoint split_loop (p rest : list N) (i start : nat) : list (nat * nat) :=
  match rest with
  | [] => if Nat.ltb start (length p) then [(start, length p - start)%nat] else []
  | c :: r =>
      if c =? 47 then (if Nat.ltb start i then [(start, i - start)%nat] else []) ++ split_loop p r (S i) (S i)
      else split_loop p r (S i) start
  end.

Definition split_path_to_segments (p : list N) : list (nat * nat) :=
  match p with
  | [] => []
  | c :: r => if c =? 47 then split_loop p r 1 1 else split_loop p p 0 0
  end.

Definition substr (p : list N) (v : nat * nat) : list N := firstn (snd v) (skipn (fst v) p).

Section Tree.
Context {H : Type}.

(** radix_tree.h:164-212 Node. handlers is the array of 64 nullable pointers; a wildcard child never has
    children of its own (add_route stops at it, line 381), so it is its name and its handlers. The
    parameter child carries the name that its parent keeps in param_name. *)
Inductive node : Type :=
| Node (handlers : N -> option H) (statics : list (list N * node)) (param : option (list N * node))
       (wild : option (list N * (N -> option H))).

Definition nhandlers (t : node) := let '(Node h _ _ _) := t in h.
Definition nstatics (t : node) := let '(Node _ s _ _) := t in s.
Definition nparam (t : node) := let '(Node _ _ p _) := t in p.
Definition nwild (t : node) := let '(Node _ _ _ w) := t in w.

Definition no_handlers : N -> option H := fun _ => None.
Definition empty_node : node := Node no_handlers [] None None.

Definition set_handler (hs : N -> option H) (slot : N) (h : H) : N -> option H :=
  fun s => if s =? slot then Some h else hs s.

(** static_children.find / emplace (lines 196, 407-415) *)
Fixpoint find_static (s : list N) (l : list (list N * node)) : option node :=
  match l with
  | [] => None
  | (k, n) :: r => if beq k s then Some n else find_static s r
  end.

Fixpoint put_static (s : list N) (n : node) (l : list (list N * node)) : list (list N * node) :=
  match l with
  | [] => [(s, n)]
  | (k, n') :: r => if beq k s then (k, n) :: r else (k, n') :: put_static s n r
  end.

Definition mem_name (n : list N) (seen : list (list N)) : bool := existsb (beq n) seen.

(** radix_tree.h:419-424 - storing the handler at the terminal node; false: std::invalid_argument thrown. *)
Definition store (hs : N -> option H) (slot : N) (h : H) : (N -> option H) * bool :=
  if slot <? METHOD_SLOT_COUNT then (set_handler hs slot h, true) else (hs, false).

(** radix_tree.h:344-425 - one iteration of add_route per segment, from the current node down. The result
    holds the subtree with everything created before a throw, and false when std::invalid_argument was
    thrown. *)
Fixpoint add_from (t : node) (segs : list (list N)) (seen : list (list N)) (slot : N) (h : H) : node * bool :=
  let '(Node hs st pc wc) := t in
  match segs with
  | [] => let '(hs', ok) := store hs slot h in (Node hs' st pc wc, ok)
  | seg :: rest =>
      match seg with
      | [] => (t, false)
      | c :: name =>
          if c =? 42 then
            match name, rest with
            | [], _ => (t, false)
            | _ :: _, _ :: _ => (t, false)
            | _ :: _, [] =>
                if mem_name name seen then (t, false)
                else match wc with
                     | None =>
                         let '(whs', ok) := store no_handlers slot h in (Node hs st pc (Some (name, whs')), ok)
                     | Some (wname, whs) =>
                         if beq wname name then
                           let '(whs', ok) := store whs slot h in (Node hs st pc (Some (wname, whs')), ok)
                         else (t, false)
                     end
            end
          else if c =? 58 then
            match name with
            | [] => (t, false)
            | _ :: _ =>
                if mem_name name seen then (t, false)
                else match pc with
                     | None =>
                         let '(child, ok) := add_from empty_node rest (name :: seen) slot h in
                         (Node hs st (Some (name, child)) wc, ok)
                     | Some (pname, child0) =>
                         if beq pname name then
                           let '(child, ok) := add_from child0 rest (name :: seen) slot h in
                           (Node hs st (Some (pname, child)) wc, ok)
                         else (t, false)
                     end
            end
          else
            let child0 := match find_static seg st with Some n => n | None => empty_node end in
            let '(child, ok) := add_from child0 rest seen slot h in
            (Node hs (put_static seg child st) pc wc, ok)
      end
  end.

(** radix_tree.h:335-425 add_route *)
Definition add_route (t : node) (pattern : list N) (m : Z) (h : H) : node * bool :=
  add_from t (map (substr pattern) (split_path_to_segments pattern)) [] (method_slot m) h.

(** radix_tree.h:527-531 - the slice from the first remaining segment to the end of the last one *)
Definition wild_slice (p : list N) (segs : list (nat * nat)) : list N :=
  match segs with
  | [] => []
  | f :: _ => let l := last segs f in substr p (fst f, fst l + snd l - fst f)%nat
  end.

(** radix_tree.h:467-543 match_recursive *)
Fixpoint match_rec (p : list N) (t : node) (segs : list (nat * nat)) (slot : N) (ps : params)
  : option (params * H) :=
  let '(Node hs st pc wc) := t in
  match segs with
  | [] =>
      match hs slot with
      | Some h => Some (ps, h)
      | None =>
          match wc with
          | Some (n, whs) => match whs slot with Some h => Some (params_set n [] ps, h) | None => None end
          | None => None
          end
      end
  | v :: rest =>
      let seg := substr p v in
      let by_static :=
        match find_static seg st with
        | Some child => match_rec p child rest slot ps
        | None => None
        end in
      match by_static with
      | Some r => Some r
      | None =>
          let by_param :=
            match pc with
            | Some (n, child) => match_rec p child rest slot (params_set n seg ps)
            | None => None
            end in
          match by_param with
          | Some r => Some r
          | None =>
              match wc with
              | Some (n, whs) =>
                  match whs slot with Some h => Some (params_set n (wild_slice p segs) ps, h) | None => None end
              | None => None
              end
          end
      end
  end.

(** radix_tree.h:449-457 match *)
Definition match_route (t : node) (path : list N) (m : Z) : option (params * H) :=
  let slot := method_slot m in
  if slot <? METHOD_SLOT_COUNT then match_rec path t (split_path_to_segments path) slot [] else None.

Definition all_slots : list N := map N.of_nat (seq 0 64).

(** radix_tree.h:219-227 has_any_handler *)
Definition is_set (o : option H) : bool := match o with Some _ => true | None => false end.
Definition has_any_handler (hs : N -> option H) : bool := existsb (fun s => is_set (hs s)) all_slots.

(** radix_tree.h:235-245 collect_allowed_methods *)
Definition collect_allowed_methods (hs : N -> option H) : list N := filter (fun s => is_set (hs s)) all_slots.

(** std::sort by slot (insertion sort; the order of equal elements does not matter, they are equal) and
    std::unique *)
Fixpoint insert (x : N) (l : list N) : list N :=
  match l with
  | [] => [x]
  | y :: r => if x <=? y then x :: l else y :: insert x r
  end.
Definition sort (l : list N) : list N := fold_right insert [] l.
Fixpoint unique (l : list N) : list N :=
  match l with
  | x :: ((y :: _) as r) => if x =? y then unique r else x :: unique r
  | _ => l
  end.

(** radix_tree.h:569-584 merge_result and 253-260 merge_allowed_methods *)
Definition merge_result (result candidate : option (params * list N)) : option (params * list N) :=
  match candidate with
  | None => result
  | Some (_, []) => result
  | Some (ps, ms) =>
      match result with
      | None => Some (ps, unique (sort ms))
      | Some (rps, rms) => Some (rps, unique (sort (rms ++ ms)))
      end
  end.

(** radix_tree.h:561-626 find_path_recursive *)
Fixpoint find_path (p : list N) (t : node) (segs : list (nat * nat)) (ps : params) : option (params * list N) :=
  let '(Node hs st pc wc) := t in
  match segs with
  | [] =>
      let r1 := if has_any_handler hs then merge_result None (Some (ps, collect_allowed_methods hs)) else None in
      match wc with
      | Some (n, whs) =>
          if has_any_handler whs then merge_result r1 (Some (params_set n [] ps, collect_allowed_methods whs)) else r1
      | None => r1
      end
  | v :: rest =>
      let seg := substr p v in
      let r1 := match find_static seg st with
                | Some child => merge_result None (find_path p child rest ps)
                | None => None
                end in
      let r2 := match pc with
                | Some (n, child) => merge_result r1 (find_path p child rest (params_set n seg ps))
                | None => r1
                end in
      match wc with
      | Some (n, whs) =>
          if has_any_handler whs then
            merge_result r2 (Some (params_set n (wild_slice p segs) ps, collect_allowed_methods whs))
          else r2
      | None => r2
      end
  end.

(** radix_tree.h:556-629 allowed_methods *)
Definition allowed_methods (t : node) (path : list N) : option (params * list N) :=
  find_path path t (split_path_to_segments path) [].

(** A history of add_route calls on a fresh (or cleared, lines 634-638) tree: the tree and the calls that did
    not throw, oldest first. *)
Fixpoint add_all (t : node) (calls : list (list N * Z * H)) : node * list (list N * Z * H) :=
  match calls with
  | [] => (t, [])
  | (s, m, h) :: r =>
      let '(t1, ok) := add_route t s m h in
      let '(t2, acc) := add_all t1 r in
      (t2, if ok then (s, m, h) :: acc else acc)
  end.

End Tree.
Arguments node : clear implicits.

(** router_core.h:105-110 decode_path_parameters. decode_path_component's model returns an option only for
    its fuel, which is always enough (decode_path_defined). *)
Definition decode_params (ps : params) : params :=
  map (fun kv => (fst kv, match decode_path_component (snd kv) with Some v => v | None => snd kv end)) ps.

(** llhttp.h:418-466 method names (std::to_string(method), types.h:785) by slot; unnamed slots give an empty
    name (llhttp_method_name of an unknown value aborts; add_route accepts such a slot only for a raw value
    47..63, which no method constant has). *)
Definition method_names : list (list N) :=
  map str ["DELETE";"GET";"HEAD";"POST";"PUT";"CONNECT";"OPTIONS";"TRACE";"COPY";"LOCK";"MKCOL";"MOVE";"PROPFIND";
    "PROPPATCH";"SEARCH";"UNLOCK";"BIND";"REBIND";"UNBIND";"ACL";"REPORT";"MKACTIVITY";"CHECKOUT";"MERGE";"M-SEARCH";
    "NOTIFY";"SUBSCRIBE";"UNSUBSCRIBE";"PATCH";"PURGE";"MKCALENDAR";"LINK";"UNLINK";"SOURCE";"PRI";"DESCRIBE";
    "ANNOUNCE";"SETUP";"PLAY";"PAUSE";"TEARDOWN";"GET_PARAMETER";"SET_PARAMETER";"REDIRECT";"RECORD";"FLUSH";"QUERY"]%string.
Definition method_name (slot : N) : list N := nth (N.to_nat slot) method_names [].

(** router_core.h:87-97 *)
Fixpoint allow_loop (allow : list N) (ms : list N) : list N :=
  match ms with
  | [] => allow
  | m :: r => allow_loop ((match allow with [] => [] | _ => allow ++ [44; 32] end) ++ method_name m) r
  end.
Definition allowed_header_value (ms : list N) : list N := allow_loop [] ms.

(** router_core.h:337-445 route_request: what is decided before the chain starts. [Run] carries the chain of a
    matched route and its decoded parameters, [NotAllowed] the parameters and the Allow header of the 405 chain,
    [NoChain] is the 500 of an empty chain. The 404 and 405 chains are never empty (lines 132, 148). *)
Inductive decision (T : Type) :=
| TooLong | Run (ps : params) (chain : list T) | NotAllowed (ps : params) (allow : list N) | NotFound | NoChain.
Arguments TooLong {T}. Arguments Run {T}. Arguments NotAllowed {T}. Arguments NotFound {T}. Arguments NoChain {T}.

Definition route_request {T : Type} (t : node (list T)) (path : list N) (m : Z) : decision T :=
  if (4096 <? length path)%nat then TooLong
  else match match_route t path m with
       | Some (ps, chain) => match chain with [] => NoChain | _ => Run (decode_params ps) chain end
       | None =>
           match allowed_methods t path with
           | Some (ps, m1 :: ms) => NotAllowed (decode_params ps) (allowed_header_value (m1 :: ms))
           | _ => NotFound
           end
       end.

(** handler_node.h:48-66 normalize_path_segment *)
Fixpoint drop_slashes (s : list N) : list N :=
  match s with
  | c :: r => if c =? 47 then drop_slashes r else s
  | [] => []
  end.
Definition normalize_path_segment (s : list N) : list N := rev (drop_slashes (rev (drop_slashes s))).

(** handler_node.h:84-116 join_paths *)
Definition join_paths (parent segment : list N) : list N :=
  let p := normalize_path_segment parent in
  let s := normalize_path_segment segment in
  match p, s with
  | [], [] => [47]
  | _, _ => [47] ++ p ++ (match s with [] => [] | _ => (match p with [] => [] | _ => [47] end) ++ s end)
  end.

(** handler_node.h:136-150, route.h:239-246, route_group.h, controller.h: the declaration tree. A Controller
    compiles like a group whose children are routes (controller.h:388-412). *)
Inductive decl (T : Type) : Type :=
| RouteDecl (segment : list N) (m : Z) (middleware : list T) (handler : T)
| GroupDecl (segment : list N) (middleware : list T) (children : list (decl T)).
Arguments RouteDecl {T}. Arguments GroupDecl {T}.

(** route.h:317-341, route_group.h:66-76, controller.h:388-412 compile_tasks_and_register and
    handler_node.h:262-278: the registrations made, in order, each with its chain. *)
Fixpoint compile {T : Type} (built : list N) (inherited : list T) (d : decl T) : list (list N * Z * list T) :=
  match d with
  | RouteDecl seg m mw handler => [(join_paths built seg, m, inherited ++ mw ++ [handler])]
  | GroupDecl seg mw children =>
      flat_map (compile (join_paths built seg) (inherited ++ mw)) children
  end.

(** router_core.h:192-227 compile_all_routes: clear, then register everything; the first registration that
    throws ends it (the exception reaches the caller): None. *)
Fixpoint register_all {T : Type} (t : node (list T)) (regs : list (list N * Z * list T)) : node (list T) * bool :=
  match regs with
  | [] => (t, true)
  | (s, m, h) :: r =>
      let '(t1, ok) := add_route t s m h in
      if ok then register_all t1 r else (t1, false)
  end.
Definition compile_all_routes {T : Type} (top : list (decl T)) : node (list T) * bool :=
  register_all empty_node (flat_map (compile [] []) top).
