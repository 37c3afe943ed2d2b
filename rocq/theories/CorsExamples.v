(** Concrete cases for the theorems on CORS (C111-C116), and statements that fail. *)
From Verif Require Import Base UtilModel UtilSpec StaticModel Http1Model Http1Spec RecvModel HeaderOps CorsModel CorsSpec CorsProps CorsProps2.
Local Open Scope N_scope.

(** A toy engine: a pattern matches itself; a pattern starting with an opening parenthesis is not a regular expression. *)
Definition toy : engine := fun p => match p with 40 :: _ => None | _ => Some (fun s => Some (beq p s)) end.
Definition shop : list call :=
  [SetsOrigins [str "https://a.example"]; SetsCredentials true; SetsMethods [str "GET"; str "PUT"]; SetsHeaders [str "X-One"; str "X-Two"]; SetsExposed [str "ETag"]; SetsMaxAge 600].
Definition hm (l : list (string * string)) : headers_map := map (fun p => (str (fst p), [str (snd p)])) l.
Definition ask (m : string) (l : list (string * string)) : request := mkQ (str m) (hm l).
Definition page : response := mkR 200 (hm [("Content-Type", "text/plain"); ("Vary", "Accept")]%string) (str "hello").
Ltac hmap := split; [repeat (constructor; [split; [repeat constructor|split; [discriminate|repeat constructor]]|]); constructor
                    |cbn; repeat (constructor; [cbn; intuition discriminate|]); constructor].
Ltac handles := split; [hmap|split; [hmap|split; [repeat split; repeat (constructor; [repeat constructor|]); constructor|eexists; vm_compute; reflexivity]]].

Definition granted : response :=
  mkR 200 [(str "Content-Type", [str "text/plain"]); (str "Vary", [str "Accept"; str "Origin"]); (str "Access-Control-Allow-Origin", [str "https://a.example"]);
           (str "Access-Control-Allow-Credentials", [str "true"]); (str "Access-Control-Expose-Headers", [str "ETag"])] (str "hello").
Example ex_granted : Handles toy shop (ask "GET" [("origin", "https://a.example")]%string) page granted Continue.
Proof. handles. Qed.
Example ex_granted_allowed : Allowed toy (s_policy (settings_of shop)) (first "Origin" (q_headers (ask "GET" [("origin", "https://a.example")]%string))).
Proof. split; [discriminate|]. split; [intros E; discriminate E|]. right. now left. Qed.
Example ex_refused : Handles toy shop (ask "GET" [("Origin", "https://A.example")]%string) page
  (mkR 200 [(str "Content-Type", [str "text/plain"]); (str "Vary", [str "Accept"; str "Origin"])] (str "hello")) Continue.
Proof. handles. Qed.
Example ex_refused_not_allowed : ~ Allowed toy (s_policy (settings_of shop)) (str "https://A.example").
Proof. intros (_ & _ & [[E|[]]|[E|[]]]); discriminate E. Qed.
Example ex_silent : Handles toy shop (ask "GET" []) page page Continue.
Proof. handles. Qed.
Definition pre (m : string) : request := ask "OPTIONS" [("Origin", "https://a.example"); ("Access-Control-Request-Method", m); ("Access-Control-Request-Headers", "x-two, X-Three ,,x-one")]%string.
Definition preflighted : response :=
  mkR 204 [(str "Content-Type", [str "text/plain"]); (str "Vary", [str "Accept"; str "Origin"; str "Access-Control-Request-Method"; str "Access-Control-Request-Headers"]);
           (str "Access-Control-Allow-Origin", [str "https://a.example"]); (str "Access-Control-Allow-Credentials", [str "true"]);
           (str "Access-Control-Allow-Methods", [str "GET, PUT"]); (str "Access-Control-Allow-Headers", [str "x-two, x-one"]); (str "Access-Control-Max-Age", [str "600"])] [].
Example ex_preflight : Handles toy shop (pre "put") page preflighted Complete.
Proof. handles. Qed.
Example ex_preflight_is : Preflight (q_method (pre "put")) (q_headers (pre "put")).
Proof. split; [reflexivity|discriminate]. Qed.
Example ex_preflight_forbidden : Handles toy shop (pre "DELETE") page
  (mkR 403 [(str "Content-Type", [str "text/plain"]); (str "Vary", [str "Accept"; str "Origin"; str "Access-Control-Request-Method"]);
           (str "Access-Control-Allow-Origin", [str "https://a.example"]); (str "Access-Control-Allow-Credentials", [str "true"])] []) Complete.
Proof. handles. Qed.
Example ex_unasked : Handles toy shop (ask "OPTIONS" [("Origin", "https://a.example"); ("Access-Control-Request-Method", "GET")]%string) page
  (mkR 204 [(str "Content-Type", [str "text/plain"]); (str "Vary", [str "Accept"; str "Origin"; str "Access-Control-Request-Method"]);
           (str "Access-Control-Allow-Origin", [str "https://a.example"]); (str "Access-Control-Allow-Credentials", [str "true"]);
           (str "Access-Control-Allow-Methods", [str "GET, PUT"]); (str "Access-Control-Allow-Headers", [str "X-One, X-Two"]); (str "Access-Control-Max-Age", [str "600"])] []) Complete.
Proof. handles. Qed.
(** Settings replaced after questions were asked: the last policy counts. *)
Definition changed : list call := [SetsPatterns [str "(bad"; str "https://p.example"]; Asks (str "https://p.example"); SetsPatterns [str "https://n.example"]].
Example ex_changed : fst (is_origin_allowed toy (made toy changed) (str "https://p.example")) = false /\ fst (is_origin_allowed toy (made toy changed) (str "https://n.example")) = true /\
  fst (is_origin_allowed toy (made toy [SetsPatterns [str "(bad"; str "https://p.example"]; Asks (str "x")]) (str "https://p.example")) = true /\
  fst (is_origin_allowed toy (made toy (changed ++ [SetsMatcher (Some (fun _ => None))])) (str "https://n.example")) = false.
Proof. vm_compute. auto. Qed.
Example ex_default : exists o, process toy permissive (ask "GET" [("Origin", "https://z.example")]%string) page =
  (mkR 200 [(str "Content-Type", [str "text/plain"]); (str "Vary", [str "Accept"; str "Origin"]); (str "Access-Control-Allow-Origin", [str "*"]);
            (str "Access-Control-Expose-Headers", [str "Content-Length, X-Request-Id, X-Response-Time"])] (str "hello"), Continue, o).
Proof. eexists. vm_compute. reflexivity. Qed.

(** ** Statements that fail *)
(** Not every preflight is answered here: from an origin that is refused it goes on to the handlers. *)
Theorem c114_refuted_refused_preflight : ~ forall rx h q r r' v, Handles rx h q r r' v -> first "Origin" (q_headers q) <> [] -> Preflight (q_method q) (q_headers q) -> v = Complete.
Proof.
  intros H. assert (HH : Handles toy [] (pre "GET") page (mkR 200 [(str "Content-Type", [str "text/plain"]); (str "Vary", [str "Accept"; str "Origin"])] (str "hello")) Continue) by handles.
  specialize (H _ _ _ _ _ _ HH ltac:(discriminate) ltac:(split; [reflexivity|discriminate])). discriminate H.
Qed.
(** A list with a star and credentials reflects any origin with credentials. *)
Theorem c112_refuted_star_credentials : ~ forall rx h q r r' v, Handles rx h q r r' v -> s_policy (settings_of h) = Listed [str "*"] ->
  sent "Access-Control-Allow-Credentials" (r_headers r') = sent "Access-Control-Allow-Credentials" (r_headers r).
Proof.
  intros H. assert (HH : Handles toy [SetsOrigins [str "*"]; SetsCredentials true] (ask "GET" [("Origin", "https://evil.example")]%string) page
    (mkR 200 [(str "Content-Type", [str "text/plain"]); (str "Vary", [str "Accept"; str "Origin"]); (str "Access-Control-Allow-Origin", [str "https://evil.example"]);
              (str "Access-Control-Allow-Credentials", [str "true"])] (str "hello")) Continue) by handles.
  specialize (H _ _ _ _ _ _ HH eq_refl). discriminate H.
Qed.
