(** Model of middleware/security_headers.h and middleware/security_headers.cpp. *)
From Verif Require Import Base UtilModel Http1Model RecvModel.
Local Open Scope N_scope.

(** security_headers.h:55-66 the fields of SecurityHeadersOptions *)
Record options := mkO {
  hsts : option (list N); nosniff : bool; x_frame : option (list N); csp : option (list N); csp_report : option (list N);
  referrer : option (list N); permissions : option (list N); coop : option (list N); coep : option (list N); corp : option (list N);
  x_cross_domain : option (list N); csp_nonce : bool }.
(** security_headers.h:69 *)
Definition options_new : options := mkO None false None None None None None None None None None false.
(** security_headers.cpp:35-49 *)
Definition secure_defaults : options :=
  mkO (Some (str "max-age=31536000; includeSubDomains")) true (Some (str "SAMEORIGIN"))
      (Some (str "default-src 'self';object-src 'none';frame-ancestors 'self';base-uri 'self';form-action 'self';")) None
      (Some (str "strict-origin-when-cross-origin")) None (Some (str "same-origin")) None None (Some (str "none")) false.

(** security_headers.cpp:18-32; [gen n] is qb::crypto::generate_secure_random_string(n, range_hex_lower) (not modelled) *)
Definition generate_random_nonce (gen : N -> list N) (length : N) : list N :=
  gen (if length <? 16 then 16 else if 128 <? length then 128 else length).

(** security_headers.h:298-306 process: what the context holds under csp_nonce afterwards; [old] is what it held before *)
Definition process_nonce (gen : N -> list N) (o : options) (old : option (list N)) : option (list N) :=
  if csp_nonce o then Some (generate_random_nonce gen 32) else old.

(** if (value) response.set_header(name, *value) *)
Definition put (name : string) (v : option (list N)) (h : headers_map) : headers_map :=
  match v with Some x => set_value (str name) x h | None => h end.

(** security_headers.h:329-336 *)
Definition default_csp (nonce : list N) : list N :=
  str "default-src 'self'; script-src 'self' 'nonce-" ++ nonce ++ str "' 'strict-dynamic'; style-src 'self' 'nonce-" ++ nonce ++
  str "'; object-src 'none'; base-uri 'self'; form-action 'self';".

(** security_headers.h:308-370 the hook at PRE_RESPONSE_SEND: [scheme] is request().uri().scheme(), [nonce] what the context
    holds under csp_nonce then *)
Definition before_send (o : options) (scheme : list N) (nonce : option (list N)) (h : headers_map) : headers_map :=
  let h := if beq scheme (str "https") then put "Strict-Transport-Security" (hsts o) h else h in
  let h := if nosniff o then set_value (str "X-Content-Type-Options") (str "nosniff") h else h in
  let h := put "X-Frame-Options" (x_frame o) h in
  let h := if csp_nonce o then
             match nonce with
             | Some n => match csp o with
                         | None => set_value (str "Content-Security-Policy") (default_csp n) h
                         | Some v => set_value (str "Content-Security-Policy") v h
                         end
             | None => h
             end
           else put "Content-Security-Policy" (csp o) h in
  let h := put "Content-Security-Policy-Report-Only" (csp_report o) h in
  let h := put "Referrer-Policy" (referrer o) h in
  let h := put "Permissions-Policy" (permissions o) h in
  let h := put "Cross-Origin-Opener-Policy" (coop o) h in
  let h := put "Cross-Origin-Embedder-Policy" (coep o) h in
  let h := put "Cross-Origin-Resource-Policy" (corp o) h in
  put "X-Permitted-Cross-Domain-Policies" (x_cross_domain o) h.
