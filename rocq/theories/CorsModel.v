(** Model of middleware/cors.h and middleware/cors.cpp. *)
From Verif Require Import Base UtilModel StaticModel Http1Model RecvModel.
Local Open Scope N_scope.

(** cors.h:48-60 cors_security_limits *)
Definition MAX_ORIGIN_LENGTH : N := 2048.
Definition MAX_REGEX_PATTERNS : nat := 100.
Definition MAX_REGEX_PATTERN_LENGTH : N := 1024.

(** A predicate supplied from outside; None is an exception. *)
Definition matcher := list N -> option bool.
(** std::regex: construction fails (None, std::regex_error) or gives a matcher (std::regex_match). The engine itself is
    not modelled: every theorem holds for every engine. *)
Definition engine := list N -> option matcher.

(** cors.h:103-107 *)
Inductive strategy := Exact | Regex | Function_.

(** cors.h:293-303 the fields of CorsOptions. [o_compiled]: _patterns_compiled; [o_patterns]: _regex_patterns. *)
Record options := mkO {
  o_origins : list (list N); o_methods : list (list N); o_headers : list (list N); o_expose : list (list N);
  o_credentials : bool; o_max_age : Z; o_strategy : strategy; o_fn : option matcher;
  o_patterns : list matcher; o_compiled : bool }.

(** cors.h:110 *)
Definition options_new : options :=
  mkO [] [str "GET"; str "HEAD"; str "POST"] [] [] false 86400 Exact None [] false.

(** cors.h:126-133 *)
Definition origins (l : list (list N)) (o : options) : options :=
  mkO l (o_methods o) (o_headers o) (o_expose o) (o_credentials o) (o_max_age o) Exact None (o_patterns o) false.
(** cors.h:140-147 *)
Definition origin_patterns (l : list (list N)) (o : options) : options :=
  mkO l (o_methods o) (o_headers o) (o_expose o) (o_credentials o) (o_max_age o) Regex None (o_patterns o) false.
(** cors.h:155-162; a null function object is None *)
Definition origin_matcher (f : option matcher) (o : options) : options :=
  mkO [] (o_methods o) (o_headers o) (o_expose o) (o_credentials o) (o_max_age o) Function_ f (o_patterns o) false.
(** cors.h:170-174 *)
Definition methods (l : list (list N)) (o : options) : options :=
  mkO (o_origins o) l (o_headers o) (o_expose o) (o_credentials o) (o_max_age o) (o_strategy o) (o_fn o) (o_patterns o) (o_compiled o).
(** cors.h:177-181 *)
Definition all_methods : options -> options :=
  methods [str "GET"; str "POST"; str "PUT"; str "DELETE"; str "PATCH"; str "HEAD"; str "OPTIONS"].
(** cors.h:189-193 *)
Definition headers (l : list (list N)) (o : options) : options :=
  mkO (o_origins o) (o_methods o) l (o_expose o) (o_credentials o) (o_max_age o) (o_strategy o) (o_fn o) (o_patterns o) (o_compiled o).
(** cors.h:196-201 *)
Definition common_headers : options -> options :=
  headers [str "Accept"; str "Accept-Language"; str "Content-Language"; str "Content-Type"; str "Authorization"; str "X-Requested-With";
           str "Origin"; str "DNT"; str "User-Agent"; str "X-Forwarded-For"; str "If-Modified-Since"; str "Cache-Control"; str "Range"].
(** cors.h:209-214 *)
Definition expose_headers (l : list (list N)) (o : options) : options :=
  mkO (o_origins o) (o_methods o) (o_headers o) l (o_credentials o) (o_max_age o) (o_strategy o) (o_fn o) (o_patterns o) (o_compiled o).
(** cors.h:221-225 *)
Definition credentials (b : bool) (o : options) : options :=
  mkO (o_origins o) (o_methods o) (o_headers o) (o_expose o) b (o_max_age o) (o_strategy o) (o_fn o) (o_patterns o) (o_compiled o).
(** cors.h:233-237; the number of seconds already narrowed to int *)
Definition max_age (z : Z) (o : options) : options :=
  mkO (o_origins o) (o_methods o) (o_headers o) (o_expose o) (o_credentials o) z (o_strategy o) (o_fn o) (o_patterns o) (o_compiled o).

(** cors.cpp:30-47 *)
Definition permissive : options :=
  expose_headers [str "Content-Length"; str "X-Request-Id"; str "X-Response-Time"]
    (credentials false (common_headers (all_methods (origins [str "*"] options_new)))).
(** cors.cpp:49-57 *)
Definition secure (l : list (list N)) : options :=
  max_age 3600 (credentials false (headers [str "Content-Type"; str "Authorization"]
    (methods [str "GET"; str "POST"; str "OPTIONS"] (origins l options_new)))).

Section Engine.
Variable rx : engine.

(** cors.cpp:104-118 the loop of ensure_patterns_compiled *)
Fixpoint compile (n : nat) (l : list (list N)) : list matcher :=
  match n, l with
  | S n', p :: r =>
      if MAX_REGEX_PATTERN_LENGTH <? N.of_nat (length p) then compile n' r
      else match rx p with Some m => m :: compile n' r | None => compile n' r end
  | _, _ => []
  end.

(** cors.cpp:96-121 *)
Definition ensure_patterns_compiled (o : options) : options :=
  match o_strategy o with
  | Regex =>
      if o_compiled o then o
      else mkO (o_origins o) (o_methods o) (o_headers o) (o_expose o) (o_credentials o) (o_max_age o) (o_strategy o) (o_fn o)
               (compile MAX_REGEX_PATTERNS (o_origins o)) true
  | _ => o
  end.

(** cors.cpp:18-28 regex_match_with_timeout *)
Definition regex_match_with_timeout (origin : list N) (m : matcher) : bool :=
  if MAX_ORIGIN_LENGTH <? N.of_nat (length origin) then false
  else match m origin with Some b => b | None => false end.

(** cors.cpp:59-94; the options are mutable (the compiled patterns), so they are returned. *)
Definition is_origin_allowed (o : options) (origin : list N) : bool * options :=
  match origin with
  | [] => (false, o)
  | _ =>
    if MAX_ORIGIN_LENGTH <? N.of_nat (length origin) then (false, o) else
    match o_strategy o with
    | Exact => (if existsb (fun x => beq x (str "*")) (o_origins o) then true else existsb (fun x => beq x origin) (o_origins o), o)
    | Regex => let o := ensure_patterns_compiled o in (existsb (regex_match_with_timeout origin) (o_patterns o), o)
    | Function_ =>
        (match o_fn o with
         | None => false
         | Some f => match f origin with Some b => b | None => false end
         end, o)
    end
  end.

(** cors.h:257-261 *)
Definition should_allow_all_origins_via_wildcard (o : options) : bool :=
  match o_strategy o with Exact => existsb (fun x => beq x (str "*")) (o_origins o) | _ => false end.

(** The parts of a request and of a response the middleware looks at or changes. *)
Record request := mkQ { q_method : list N; q_headers : headers_map }.
Record response := mkR { r_status : N; r_headers : headers_map; r_body : list N }.
(** What the middleware tells the task chain: go on with the next task, or the response is ready. *)
Inductive verdict := Continue | Complete.

Definition set_header (k v : list N) (r : response) : response := mkR (r_status r) (set_value k v (r_headers r)) (r_body r).
Definition add_header (k v : list N) (r : response) : response := mkR (r_status r) (add_value k v (r_headers r)) (r_body r).
(** an answer with this status and no body *)
Definition answer (s : N) (r : response) : response := mkR s (r_headers r) [].

(** cors.h:436-459 the Access-Control-Allow-Headers answer. The split never runs out of fuel (None): see
    UtilProofs.split_and_trim_items. *)
Definition allow_headers (o : options) (requested : list N) (r : response) : response :=
  match requested with
  | [] => match o_headers o with
          | [] => r
          | l => set_header (str "Access-Control-Allow-Headers") (join l (str ", ")) r
          end
  | _ =>
      let client := match split_and_trim_header_list requested 44 with Some l => l | None => [] end in
      let approved := match o_headers o with
                      | [] => []
                      | l => filter (fun q => existsb (fun c => iequals q c) l) client
                      end in
      match approved with
      | [] => set_header (str "Access-Control-Allow-Headers") [] r
      | _ => add_header (str "Vary") (str "Access-Control-Request-Headers")
               (set_header (str "Access-Control-Allow-Headers") (join approved (str ", ")) r)
      end
  end.

(** cors.h:413-467 the preflight part; None when the request is not a preflight *)
Definition preflight (o : options) (q : request) (r : response) : option response :=
  if beq (q_method q) (str "OPTIONS") then
    match header (str "Access-Control-Request-Method") (q_headers q) with
    | [] => None
    | m =>
        let r := add_header (str "Vary") (str "Access-Control-Request-Method") r in
        if negb (existsb (fun c => iequals c m) (o_methods o)) then Some (answer 403 r)
        else
          let r := set_header (str "Access-Control-Allow-Methods") (join (o_methods o) (str ", ")) r in
          let r := allow_headers o (header (str "Access-Control-Request-Headers") (q_headers q)) r in
          let r := set_header (str "Access-Control-Max-Age") (to_string (o_max_age o)) r in
          Some (answer 204 r)
    end
  else None.

(** cors.h:357-477 process *)
Definition process (o : options) (q : request) (r : response) : response * verdict * options :=
  match header (str "Origin") (q_headers q) with
  | [] => (r, Continue, o)
  | origin =>
      let '(allowed, o) := is_origin_allowed o origin in
      let r := if allowed then
                 let v := if should_allow_all_origins_via_wildcard o && negb (o_credentials o) then str "*" else origin in
                 let r := set_header (str "Access-Control-Allow-Origin") v r in
                 if o_credentials o then set_header (str "Access-Control-Allow-Credentials") (str "true") r else r
               else r in
      let r := add_header (str "Vary") (str "Origin") r in
      if negb allowed then (r, Continue, o) else
      match preflight o q r with
      | Some r => (r, Complete, o)
      | None =>
          let r := match o_expose o with
                   | [] => r
                   | l => set_header (str "Access-Control-Expose-Headers") (join l (str ", ")) r
                   end in
          (r, Continue, o)
      end
  end.
End Engine.
