(** What authentication is supposed to do, without reference to its code: vocabulary only. The record types for users, options,
    contexts and the libraries' interfaces come from the model file; none of its functions is used except [lookup]. *)
From Verif Require Import Base UtilSpec Http1Spec Http1Model CookieModel CorsSpec CorsModel ValJson SanSpec ReqSpec AuthModel.
From Coq Require Import SpecFloat.
Local Open Scope N_scope.

(** ** Credentials in a header *)
(** a text that neither begins nor ends with an octet of the class, and is not empty *)
Definition Solid (Sp : N -> Prop) (t : list N) : Prop := (exists c r, t = c :: r /\ ~ Sp c) /\ (exists c r, t = r ++ [c] /\ ~ Sp c).
(** blanks, the scheme in any case, a gap, the token, blanks *)
Definition Credentials (Sp : N -> Prop) (Gap : list N -> Prop) (scheme h t : list N) : Prop :=
  exists a s w b, h = a ++ s ++ w ++ t ++ b /\ Forall Sp a /\ Same s scheme /\ Gap w /\ Forall Sp w /\ Forall Sp b /\ Solid Sp t.
(** the blanks of the JWT middleware: no vertical tab *)
Definition Blank (c : N) : Prop := c = 32 \/ c = 9 \/ c = 10 \/ c = 12 \/ c = 13.

(** ** Names of algorithms *)
Definition algorithms : list (string * algorithm * jalg) :=
  [("HS256"%string, HMAC_SHA256, HS256); ("HS384"%string, HMAC_SHA384, HS384); ("HS512"%string, HMAC_SHA512, HS512);
   ("RS256"%string, RSA_SHA256, RS256); ("RS384"%string, RSA_SHA384, RS384); ("RS512"%string, RSA_SHA512, RS512);
   ("ES256"%string, ECDSA_SHA256, ES256); ("ES384"%string, ECDSA_SHA384, ES384); ("ES512"%string, ECDSA_SHA512, ES512);
   ("EdDSA"%string, ED25519, EdDSA)].
Definition Symmetric (a : algorithm) : Prop := In a [HMAC_SHA256; HMAC_SHA384; HMAC_SHA512].

(** ** Options *)
(** what the last call that says something says *)
Definition last_said {A} (f : setter -> option A) (d : A) (l : list setter) : A :=
  fold_left (fun a s => match f s with Some x => x | None => a end) l d.
Definition demanded (s : list N) : option (list N) := match s with [] => None | _ => Some s end.
(** the question put to the JWT library for these options *)
Definition Asks (o : options) (q : vopts) : Prop :=
  (exists n, In (n, ao_alg o, vo_alg q) algorithms) /\
  (Symmetric (ao_alg o) -> vo_key q = ao_secret o) /\ (~ Symmetric (ao_alg o) -> vo_key q = ao_public o) /\
  vo_exp q = ao_exp o /\ vo_nbf q = ao_nbf o /\ vo_skew q = ao_skew o /\
  vo_issuer q = demanded (ao_issuer o) /\ vo_audience q = demanded (ao_audience o) /\ vo_subject q = None.

(** ** Claims *)
Definition claims := list (list N * json).
Definition Claim (k : string) (p : claims) (j : json) : Prop := lookup (str k) p = Some j.
(** the text of a claim; empty when there is none or it is no text *)
Definition TextOf (k : string) (p : claims) (s : list N) : Prop := Claim k p (JStr s) \/ (s = [] /\ forall x, ~ Claim k p (JStr x)).
Section Json.
Variable parse : list N -> option json.
Variable dump : json -> option (list N).
(** the claim, or what its text says when it is a text *)
Definition Opened (k : string) (p : claims) (j : json) : Prop :=
  (Claim k p j /\ forall s, j <> JStr s) \/ (exists s, Claim k p (JStr s) /\ parse s = Some j).
(** the texts before the first item that is none *)
Definition Leading (l : list json) (rs : list (list N)) : Prop := exists rest, l = map JStr rs ++ rest /\ forall s r, rest <> JStr s :: r.
Definition Roles (p : claims) (rs : list (list N)) : Prop :=
  (exists l, Opened "roles" p (JArr l) /\ Leading l rs) \/ (rs = [] /\ forall l, ~ Opened "roles" p (JArr l)).
Definition Written (j : json) (t : list N) : Prop := j = JStr t \/ ((forall s, j <> JStr s) /\ dump j = Some t).
Definition Metadata (p : claims) (m : list (list N * list N)) : Prop :=
  (exists l l' rest, Opened "metadata" p (JObj l) /\ l = l' ++ rest /\ Forall2 (fun e x => fst e = fst x /\ Written (snd e) (snd x)) l' m /\
                     match rest with [] => True | e :: _ => forall t, ~ Written (snd e) t end) \/
  (m = [] /\ forall l, ~ Opened "metadata" p (JObj l)).
Definition Identified (u : user) : Prop := u_id u <> [] \/ u_name u <> [].
(** the user the claims describe *)
Definition Describes (p : claims) (u : user) : Prop :=
  Identified u /\ TextOf "sub" p (u_id u) /\ TextOf "username" p (u_name u) /\ Roles p (u_roles u) /\ Metadata p (u_meta u).
(** claims that came as texts: a JSON text stands for its value *)
Definition Reads (p : list (list N * list N)) (q : claims) : Prop :=
  Forall2 (fun e x => fst e = fst x /\ (parse (snd e) = Some (snd x) \/ (parse (snd e) = None /\ snd x = JStr (snd e)))) p q.

(** ** Unsigned tokens *)
(** the time a claim names. A number from 2^63 on names a time long past. *)
Inductive Instant : json -> Z -> Prop :=
| instant_int z : Instant (JInt z) z
| instant_unsigned n : n < 2 ^ 63 -> Instant (JUint n) (Z.of_N n)
| instant_wrapped n : 2 ^ 63 <= n < 2 ^ 64 -> Instant (JUint n) (Z.of_N n - 2 ^ 64)
| instant_text s z : Integer s z -> Long z -> Instant (JStr s) z.
Definition Acceptable (o : options) (now : Z) (p : claims) : Prop :=
  (ao_exp o = true -> forall j, Claim "exp" p j -> exists z, Instant j z /\ (now - ao_skew o <= z)%Z) /\
  (ao_nbf o = true -> forall j, Claim "nbf" p j -> exists z, Instant j z /\ (z <= now + ao_skew o)%Z) /\
  (ao_issuer o <> [] -> Claim "iss" p (JStr (ao_issuer o))) /\
  (ao_audience o <> [] -> Claim "aud" p (JStr (ao_audience o)) \/ exists l, Claim "aud" p (JArr l) /\ In (JStr (ao_audience o)) l).
(** numbers are 64-bit *)
Definition Ranged (j : json) : Prop := match j with JUint n => n < 2 ^ 64 | _ => True end.

(** ** Who a token stands for *)
Variable jwt_verify : Z -> vopts -> list N -> validation.
Variable jwt_decode : list N -> option (list N).
Definition Proves (o : options) (now : Z) (token : list N) (u : user) : Prop :=
  (ao_signed o = true /\ exists q p c, Asks o q /\ jwt_verify now q token = Valid p /\ Reads p c /\ Describes c u) \/
  (ao_signed o = false /\ exists t p, jwt_decode token = Some t /\ parse t = Some (JObj p) /\ Acceptable o now p /\ Describes p u).

(** ** The authentication middleware *)
Definition Held (c : ctx) (k : list N) (v : any) : Prop := lookup k (c_data c) = Some v.
(** the texts among the items *)
Inductive Texts : list json -> list (list N) -> Prop :=
| texts_nil : Texts [] []
| texts_in s l rs : Texts l rs -> Texts (JStr s :: l) (s :: rs)
| texts_out j l rs : (forall s, j <> JStr s) -> Texts l rs -> Texts (j :: l) rs.
(** the user a payload left by an earlier middleware describes; here all the texts among the roles count *)
Definition PayloadUser (j : json) (u : user) : Prop :=
  exists p, j = JObj p /\ Identified u /\ TextOf "sub" p (u_id u) /\ TextOf "username" p (u_name u) /\ u_meta u = [] /\
    ((exists l, Opened "roles" p (JArr l) /\ Texts l (u_roles u)) \/ (u_roles u = [] /\ forall l, ~ Opened "roles" p (JArr l))).
Inductive InContext (m : auth_mw) (c : ctx) : user -> Prop :=
| in_user u : Held c (am_key m) (AnyUser u) -> Identified u -> InContext m c u
| in_payload j u : (forall x, Held c (am_key m) (AnyUser x) -> ~ Identified x) -> Held c (str "jwt_payload") (AnyJson j) -> PayloadUser j u -> InContext m c u.
(** the value of the header the options name *)
Definition Sent (m : auth_mw) (c : ctx) : list N := hd [] (values_of (ao_header (am_options m)) (fields_of (c_headers c))).
Inductive Who (m : auth_mw) (now : Z) (c : ctx) : user -> Prop :=
| who_context u : InContext m c u -> Who m now c u
| who_token t u : (forall x, ~ InContext m c x) -> Credentials Space (fun w => w <> []) (ao_scheme (am_options m)) (Sent m c) t ->
    Proves (am_options m) now t u -> Who m now c u.
Definition Authorized (m : auth_mw) (u : user) : Prop :=
  am_roles m = [] \/ if am_all m then incl (am_roles m) (u_roles u) else exists r, In r (am_roles m) /\ In r (u_roles u).
(** the context holds the user, and nothing else has changed in it *)
Definition Stored (k : list N) (v : any) (c c' : ctx) : Prop :=
  c_headers c' = c_headers c /\ c_queries c' = c_queries c /\ c_cookies c' = c_cookies c /\ c_response c' = c_response c /\
  forall n x, Held c' n x <-> (n = k /\ x = v) \/ (n <> k /\ Held c n x).
(** the response says this and nothing else has changed in the context *)
Definition Replied (status : N) (ctype : string) (body : list N) (c c' : ctx) : Prop :=
  c_headers c' = c_headers c /\ c_queries c' = c_queries c /\ c_cookies c' = c_cookies c /\ c_data c' = c_data c /\
  r_status (c_response c') = status /\ r_body (c_response c') = body /\ sent "Content-Type" (r_headers (c_response c')) = [str ctype] /\
  forall n, map lower n <> map lower (str "Content-Type") -> values_of n (fields_of (r_headers (c_response c'))) = values_of n (fields_of (r_headers (c_response c))).
Definition Refusal (status : N) (ctype : string) (message : list N) (c c' : ctx) : Prop :=
  exists body, dump (JObj [(str "error", JStr message)]) = Some body /\ Replied status ctype body c c'.

(** ** The JWT middleware *)
Variable to_long : list N -> option Z.
Variable to_double : list N -> option spec_float.
Variable algorithm_named : list N -> option jalg.
Definition NumberShape (s : list N) : Prop :=
  (exists c r, s = c :: r /\ (c = 45 \/ 48 <= c <= 57)) /\ Forall (fun c => 48 <= c <= 57 \/ In c (str "-+.eE")) s.
(** the value a claim's text is taken for *)
Inductive Typed (s : list N) : json -> Prop :=
| typed_true : s = str "true" -> Typed s (JBool true)
| typed_false : s = str "false" -> Typed s (JBool false)
| typed_int z : s <> str "true" -> s <> str "false" -> to_long s = Some z -> Typed s (JInt z)
| typed_real d : s <> str "true" -> s <> str "false" -> to_long s = None -> NumberShape s -> to_double s = Some d -> ReqModel.finite d = true -> Typed s (JReal d)
| typed_text : s <> str "true" -> s <> str "false" -> to_long s = None -> (NumberShape s -> forall d, to_double s = Some d -> ReqModel.finite d = false) -> Typed s (JStr s).
(** where the token is looked for *)
Definition Found (o : jwt_options) (c : ctx) (t : list N) : Prop :=
  match jo_location o with
  | InHeader => let h := hd [] (values_of (jo_name o) (fields_of (c_headers c))) in
                match jo_scheme o with
                | [] => Solid Blank t /\ exists a b, h = a ++ t ++ b /\ Forall Blank a /\ Forall Blank b
                | sch => Credentials Blank (fun w => exists r, w = 32 :: r) sch h t
                end
  | InCookie => t <> [] /\ exists k, jar_get (c_cookies c) (jo_name o) = Some k /\ ck_value k = t
  | InQuery => t <> [] /\ hd [] (values_of (jo_name o) (fields_of (c_queries c))) = t
  end.
(** the question put to the library *)
Definition JwtAsks (o : jwt_options) (q : vopts) : Prop :=
  algorithm_named (jo_algorithm o) = Some (vo_alg q) /\ vo_key q = jo_secret o /\ vo_exp q = jo_exp o /\ vo_nbf q = jo_nbf o /\ vo_skew q = jo_leeway o /\
  (if jo_iss o then vo_issuer q = Some (jo_issuer o) else vo_issuer q = None) /\
  (if jo_aud o then vo_audience q = Some (jo_audience o) else vo_audience q = None) /\
  (if jo_sub o then vo_subject q = Some (jo_subject o) else vo_subject q = None).
(** the moment a claim names, as the middleware reads it: fractions are cut off *)
Inductive Moment : json -> Z -> Prop :=
| moment_int z : Moment (JInt z) z
| moment_real d : ReqModel.finite d = true -> SFleb (double_of (-2 ^ 63)) d = true -> SFltb d (double_of (2 ^ 63)) = true -> Moment (JReal d) (ReqModel.trunc d)
| moment_text s z : to_long s = Some z -> Moment (JStr s) z.
Definition Passes (o : jwt_options) (now : Z) (token : list N) (p : claims) : Prop :=
  exists q l, JwtAsks o q /\ jwt_verify now q token = Valid l /\ Forall2 (fun e x => fst e = fst x /\ Typed (snd e) (snd x)) l p /\
    (jo_iat o = true -> forall j, Claim "iat" p j -> exists z, Moment j z /\ (z <= now + jo_leeway o)%Z).
(** the token gets past every check of the middleware *)
Definition Cleared (m : jwt_mw) (now : Z) (c : ctx) (p : claims) : Prop :=
  (exists t, Found (jm_options m) c t /\ Passes (jm_options m) now t p) /\
  (forall k, In k (jm_required m) -> exists j, lookup k p = Some j) /\
  (forall f, jm_validator m = Some f -> f (JObj p) = VAccepts).
(** how the library's verdicts are reported *)
Definition verdicts : list (verror * jwt_error) :=
  [(INVALID_FORMAT, INVALID_TOKEN); (INVALID_SIGNATURE, BAD_SIGNATURE); (TOKEN_EXPIRED, EXPIRED); (TOKEN_NOT_ACTIVE, NOT_ACTIVE);
   (INVALID_ISSUER, INVALID_CLAIM); (INVALID_AUDIENCE, INVALID_CLAIM); (INVALID_SUBJECT, INVALID_CLAIM); (CLAIM_MISMATCH, INVALID_CLAIM); (OTHER_ERROR, INVALID_TOKEN)].
(** why a request is stopped *)
Inductive Reason (m : jwt_mw) (now : Z) (c : ctx) : jwt_error -> Prop :=
| no_token : (forall t, ~ Found (jm_options m) c t) -> Reason m now c MISSING_TOKEN
| no_algorithm t : Found (jm_options m) c t -> algorithm_named (jo_algorithm (jm_options m)) = None -> Reason m now c ALGORITHM_MISMATCH
| not_valid t q v code : Found (jm_options m) c t -> JwtAsks (jm_options m) q -> jwt_verify now q t = Invalid v -> In (v, code) verdicts -> Reason m now c code
| odd_iat t q l p j : Found (jm_options m) c t -> JwtAsks (jm_options m) q -> jwt_verify now q t = Valid l -> Forall2 (fun e x => fst e = fst x /\ Typed (snd e) (snd x)) l p ->
    jo_iat (jm_options m) = true -> Claim "iat" p j -> (forall z, ~ Moment j z) -> Reason m now c INVALID_CLAIM
| future_iat t q l p j z : Found (jm_options m) c t -> JwtAsks (jm_options m) q -> jwt_verify now q t = Valid l -> Forall2 (fun e x => fst e = fst x /\ Typed (snd e) (snd x)) l p ->
    jo_iat (jm_options m) = true -> Claim "iat" p j -> Moment j z -> (now + jo_leeway (jm_options m) < z)%Z -> Reason m now c NOT_ACTIVE
| lacks_claim t p k : Found (jm_options m) c t -> Passes (jm_options m) now t p -> In k (jm_required m) -> lookup k p = None -> Reason m now c INVALID_CLAIM
| validator_says t p f e : Found (jm_options m) c t -> Passes (jm_options m) now t p -> (forall k, In k (jm_required m) -> exists j, lookup k p = Some j) ->
    jm_validator m = Some f -> f (JObj p) = VRejects (Some e) -> Reason m now c (ei_code e)
| validator_fails t p f : Found (jm_options m) c t -> Passes (jm_options m) now t p -> (forall k, In k (jm_required m) -> exists j, lookup k p = Some j) ->
    jm_validator m = Some f -> (f (JObj p) = VRejects None \/ exists w, f (JObj p) = VThrows w) -> Reason m now c INVALID_CLAIM.
End Json.
