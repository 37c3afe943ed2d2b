(** What is said about CORS, without reference to the model. *)
From Verif Require Import Base UtilSpec Http1Spec.
Local Open Scope N_scope.

(** A rule saying which origins may read the responses. Patterns come with the matching engine. *)
Inductive policy :=
| Listed (l : list (list N))                    (* these origins; * stands for every origin *)
| Patterns (l : list (list N))                  (* origins matched by one of these regular expressions *)
| Decided (f : option (list N -> option bool)). (* a function decides; it may be missing and may throw (None) *)

(** The origin is one the policy admits. Of the patterns only the first hundred count, and among them those of at most
    1024 characters that are regular expressions; an exception never admits. *)
Definition Admits (rx : list N -> option (list N -> option bool)) (p : policy) (origin : list N) : Prop :=
  match p with
  | Listed l => In (str "*") l \/ In origin l
  | Patterns l => exists i e m, (i < 100)%nat /\ nth_error l i = Some e /\ N.of_nat (length e) <= 1024 /\ rx e = Some m /\ m origin = Some true
  | Decided f => exists g, f = Some g /\ g origin = Some true
  end.
Definition Allowed rx p (origin : list N) : Prop := origin <> [] /\ N.of_nat (length origin) <= 2048 /\ Admits rx p origin.

(** All the values a message carries under a name. *)
Definition sent (name : string) (h : list (list N * list (list N))) : list (list N) := values_of (str name) (fields_of h).
(** The first of them, empty if there is none. *)
Definition first (name : string) (h : list (list N * list (list N))) : list N := hd [] (sent name h).

(** The same up to the case of ASCII letters. *)
Definition Same (a b : list N) : Prop := map lower a = map lower b.

(** A preflight request: OPTIONS with a non-empty Access-Control-Request-Method. *)
Definition Preflight (method : list N) (h : list (list N * list (list N))) : Prop :=
  method = str "OPTIONS" /\ first "Access-Control-Request-Method" h <> [].

(** ** The configuration a sequence of calls asks for *)
Record settings := mkS {
  s_policy : policy; s_methods : list (list N); s_headers : list (list N); s_expose : list (list N); s_credentials : bool; s_max_age : Z }.
(** The calls an application makes on the options object; [Asks] is a question about an origin, which must not change anything. *)
Inductive call :=
| SetsOrigins (l : list (list N)) | SetsPatterns (l : list (list N)) | SetsMatcher (f : option (list N -> option bool))
| SetsMethods (l : list (list N)) | SetsHeaders (l : list (list N)) | SetsExposed (l : list (list N))
| SetsCredentials (b : bool) | SetsMaxAge (z : Z) | Asks (origin : list N).
Definition settings0 : settings := mkS (Listed []) [str "GET"; str "HEAD"; str "POST"] [] [] false 86400.
Definition sets (s : settings) (c : call) : settings :=
  match c with
  | SetsOrigins l => mkS (Listed l) (s_methods s) (s_headers s) (s_expose s) (s_credentials s) (s_max_age s)
  | SetsPatterns l => mkS (Patterns l) (s_methods s) (s_headers s) (s_expose s) (s_credentials s) (s_max_age s)
  | SetsMatcher f => mkS (Decided f) (s_methods s) (s_headers s) (s_expose s) (s_credentials s) (s_max_age s)
  | SetsMethods l => mkS (s_policy s) l (s_headers s) (s_expose s) (s_credentials s) (s_max_age s)
  | SetsHeaders l => mkS (s_policy s) (s_methods s) l (s_expose s) (s_credentials s) (s_max_age s)
  | SetsExposed l => mkS (s_policy s) (s_methods s) (s_headers s) l (s_credentials s) (s_max_age s)
  | SetsCredentials b => mkS (s_policy s) (s_methods s) (s_headers s) (s_expose s) b (s_max_age s)
  | SetsMaxAge z => mkS (s_policy s) (s_methods s) (s_headers s) (s_expose s) (s_credentials s) z
  | Asks _ => s
  end.
Definition settings_of (h : list call) : settings := fold_left sets h settings0.
(** Octets only. *)
Definition SettingsOk (s : settings) : Prop := Forall bytes_ok (s_methods s) /\ Forall bytes_ok (s_headers s) /\ Forall bytes_ok (s_expose s).
