(** auth/ (options, user, manager) and the middlewares built on it: middleware/auth.h and middleware/jwt.h. The JSON and JWT
    libraries (nlohmann, qb::jwt), the number parser qb::to_number and the application's callbacks are parameters. *)
From Verif Require Import Base UtilModel Http1Model RecvModel CookieModel CorsModel ValJson SanModel ReqModel.
From Coq Require Import SpecFloat.
Local Open Scope N_scope.

(** ** Users and options *)
(** auth/user.h:33-68; the metadata map as a list of entries with distinct names, in the order an object would list them *)
Record user := mkU { u_id : list N; u_name : list N; u_roles : list (list N); u_meta : list (list N * list N) }.
(** user.h:48-51 *)
Definition has_role (u : user) (r : list N) : bool := existsb (fun x => beq x r) (u_roles u).
(** user.cpp:20-32 *)
Definition has_any_role (u : user) (rs : list (list N)) : bool := match rs with [] => false | _ => existsb (has_role u) rs end.
(** user.cpp:34-46 *)
Definition has_all_roles (u : user) (rs : list (list N)) : bool := match rs with [] => true | _ => forallb (has_role u) rs end.

(** auth/options.h Algorithm and qb::jwt::Algorithm *)
Inductive algorithm := HMAC_SHA256 | HMAC_SHA384 | HMAC_SHA512 | RSA_SHA256 | RSA_SHA384 | RSA_SHA512 | ECDSA_SHA256 | ECDSA_SHA384 | ECDSA_SHA512 | ED25519.
Inductive jalg := HS256 | HS384 | HS512 | RS256 | RS384 | RS512 | ES256 | ES384 | ES512 | EdDSA.
(** options.cpp:21-44 *)
Definition algorithm_from_string (s : list N) : option algorithm :=
  if iequals s (str "HS256") then Some HMAC_SHA256 else if iequals s (str "HS384") then Some HMAC_SHA384
  else if iequals s (str "HS512") then Some HMAC_SHA512 else if iequals s (str "RS256") then Some RSA_SHA256
  else if iequals s (str "RS384") then Some RSA_SHA384 else if iequals s (str "RS512") then Some RSA_SHA512
  else if iequals s (str "ES256") then Some ECDSA_SHA256 else if iequals s (str "ES384") then Some ECDSA_SHA384
  else if iequals s (str "ES512") then Some ECDSA_SHA512 else if iequals s (str "EdDSA") then Some ED25519 else None.

(** options.h:54-79 *)
Record options := mkAO {
  ao_secret : list N; ao_public : list N; ao_private : list N; ao_alg : algorithm; ao_expiration : Z; ao_skew : Z;
  ao_issuer : list N; ao_audience : list N; ao_header : list N; ao_scheme : list N;
  ao_signed : bool; ao_exp : bool; ao_nbf : bool; ao_iss : bool; ao_aud : bool }.
Definition default_options : options :=
  mkAO [] [] [] HMAC_SHA256 3600 0 [] [] (str "Authorization") (str "Bearer") true true true false false.
(** options.h:92-261 the setters *)
Inductive setter :=
| SSecret (k : list N) | SPublic (k : list N) | SPrivate (k : list N) | SAlgorithm (a : algorithm) | SExpiration (z : Z)
| SIssuer (s : list N) | SAudience (s : list N) | SHeader (s : list N) | SScheme (s : list N)
| SSigned (b : bool) | SVerifyExp (b : bool) | SVerifyNbf (b : bool) | SSkew (z : Z).
Definition empty (s : list N) : bool := match s with [] => true | _ => false end.
Definition set (o : options) (s : setter) : options :=
  let '(mkAO sk pu pr al ex sw is au hd sc sg ve vn vi va) := o in
  match s with
  | SSecret k => mkAO k pu pr al ex sw is au hd sc sg ve vn vi va
  | SPublic k => mkAO sk k pr al ex sw is au hd sc sg ve vn vi va
  | SPrivate k => mkAO sk pu k al ex sw is au hd sc sg ve vn vi va
  | SAlgorithm a => mkAO sk pu pr a ex sw is au hd sc sg ve vn vi va
  | SExpiration z => mkAO sk pu pr al z sw is au hd sc sg ve vn vi va
  | SIssuer s => mkAO sk pu pr al ex sw s au hd sc sg ve vn (negb (empty s)) va
  | SAudience s => mkAO sk pu pr al ex sw is s hd sc sg ve vn vi (negb (empty s))
  | SHeader s => mkAO sk pu pr al ex sw is au s sc sg ve vn vi va
  | SScheme s => mkAO sk pu pr al ex sw is au hd s sg ve vn vi va
  | SSigned b => mkAO sk pu pr al ex sw is au hd sc b ve vn vi va
  | SVerifyExp b => mkAO sk pu pr al ex sw is au hd sc sg b vn vi va
  | SVerifyNbf b => mkAO sk pu pr al ex sw is au hd sc sg ve b vi va
  | SSkew z => mkAO sk pu pr al ex z is au hd sc sg ve vn vi va
  end.
Definition configure (l : list setter) : options := fold_left set l default_options.

(** ** The JWT library *)
(** qb::jwt::VerifyOptions as far as it is used *)
Record vopts := mkVO {
  vo_alg : jalg; vo_key : list N; vo_exp : bool; vo_nbf : bool; vo_skew : Z;
  vo_issuer : option (list N); vo_audience : option (list N); vo_subject : option (list N) }.   (* None: not checked *)
Inductive verror := INVALID_FORMAT | INVALID_SIGNATURE | TOKEN_EXPIRED | TOKEN_NOT_ACTIVE | INVALID_ISSUER | INVALID_AUDIENCE | INVALID_SUBJECT | CLAIM_MISMATCH | OTHER_ERROR.
(** qb::jwt::ValidationResult: the claims as texts, or the error *)
Inductive validation := Valid (p : list (list N * list N)) | Invalid (e : verror).

(** manager.cpp:164-198 and 265-299 (the two switches are the same) *)
Definition jwt_algorithm (a : algorithm) : jalg :=
  match a with
  | HMAC_SHA256 => HS256 | HMAC_SHA384 => HS384 | HMAC_SHA512 => HS512 | RSA_SHA256 => RS256 | RSA_SHA384 => RS384 | RSA_SHA512 => RS512
  | ECDSA_SHA256 => ES256 | ECDSA_SHA384 => ES384 | ECDSA_SHA512 => ES512 | ED25519 => EdDSA
  end.
Definition is_hmac (a : jalg) : bool := match a with HS256 | HS384 | HS512 => true | _ => false end.

(** What a request handler finds in the context: values under names (routing/context.h:657-729); [AnyOther] is a value of another type. *)
Inductive any := AnyUser (u : user) | AnyJson (j : json) | AnyOther.
(** routing/context.h:657-661 *)
Fixpoint put (k : list N) (v : any) (d : list (list N * any)) : list (list N * any) :=
  match d with [] => [(k, v)] | e :: r => if beq (fst e) k then (k, v) :: r else e :: put k v r end.
(** routing/context.h:671-683 *)
Definition get_user (k : list N) (d : list (list N * any)) : option user := match lookup k d with Some (AnyUser u) => Some u | _ => None end.
Definition get_json (k : list N) (d : list (list N * any)) : option json := match lookup k d with Some (AnyJson j) => Some j | _ => None end.

(** The context as far as the middlewares touch it. *)
Record ctx := mkC { c_headers : headers_map; c_queries : headers_map; c_cookies : jar; c_data : list (list N * any); c_response : response }.
Definition with_data (d : list (list N * any)) (c : ctx) : ctx := mkC (c_headers c) (c_queries c) (c_cookies c) d (c_response c).
Definition with_response (r : response) (c : ctx) : ctx := mkC (c_headers c) (c_queries c) (c_cookies c) (c_data c) r.
(** How process leaves: with the result it completes the task with, with the handler having completed the context itself, or with an exception. *)
Inductive exit_ := Continues | Completes | Fails | HandlerDone | Escapes.

(** ascii find_first_not_of: without the leading octets of the class *)
Fixpoint drop_if (p : N -> bool) (s : list N) : list N := match s with [] => [] | c :: r => if p c then drop_if p r else s end.
(** substr(find_first_not_of, find_last_not_of - find_first_not_of + 1) *)
Definition strip (p : N -> bool) (s : list N) : list N := rev (drop_if p (rev (drop_if p s))).

Section Library.
Variable parse : list N -> option json.       (* json::parse, None: it throws *)
Variable dump : json -> option (list N).      (* dump(), None: it throws *)
Variable jwt_create : list (list N * list N) -> jalg -> list N -> list N.
Variable jwt_verify : Z -> vopts -> list N -> validation.     (* at that time *)
Variable jwt_decode : list N -> option (list N).  (* the payload text of a token, None: it throws *)

(** manager.cpp:96-133. [now] and [now'] are the two readings of the clock. *)
Definition create_payload (o : options) (u : user) (now now' : N) : list (list N * json) :=
  [(str "sub", JStr (u_id u)); (str "iat", JUint now)] ++
  (if ao_exp o then [(str "exp", JUint (Z.to_N ((Z.of_N now' + ao_expiration o) mod 18446744073709551616)))] else []) ++
  (if ao_iss o then [(str "iss", JStr (ao_issuer o))] else []) ++
  (if ao_aud o then [(str "aud", JStr (ao_audience o))] else []) ++
  [(str "username", JStr (u_name u)); (str "roles", JArr (map JStr (u_roles u)))] ++
  (match u_meta u with [] => [] | m => [(str "metadata", JObj (map (fun e => (fst e, JStr (snd e))) m))] end).
(** manager.cpp:150-158; None: dump throws *)
Fixpoint texts (p : list (list N * json)) : option (list (list N * list N)) :=
  match p with
  | [] => Some []
  | (k, j) :: r =>
      match (match j with JStr s => Some s | _ => dump j end), texts r with
      | Some t, Some l => Some ((k, t) :: l)
      | _, _ => None
      end
  end.
(** manager.cpp:142-212 *)
Definition generate_token (o : options) (u : user) (now now' : N) : option (list N) :=
  match texts (create_payload o u now now') with
  | Some p =>
      let a := jwt_algorithm (ao_alg o) in
      Some (jwt_create p a (if is_hmac a then ao_secret o else ao_private o))
  | None => None
  end.

(** manager.cpp:218-256 *)
Definition extract_token_from_header (o : options) (h : list N) : list N :=
  match drop_if ascii_is_space h with
  | [] => []
  | view =>
      let n := length (ao_scheme o) in
      if (length view <? n + 2)%nat then []
      else if negb (iequals (firstn n view) (ao_scheme o)) then []
      else if negb (ascii_is_space (nth n view 0)) then []
      else strip ascii_is_space (skipn n view)
  end.

(** manager.cpp:68-92: is_number_integer holds for unsigned numbers too, so get<int64_t> reads both *)
Definition time_claim (j : json) : option Z :=
  match j with JInt z => Some z | JUint n => Some (wrap n) | JStr s => from_chars_ll s | _ => None end.
(** manager.cpp:345-367 (the clock and the tolerance are far from the limits of int64_t) *)
Definition not_expired (o : options) (now : Z) (p : list (list N * json)) : bool :=
  if ao_exp o then
    match lookup (str "exp") p with
    | Some j => match time_claim j with Some e => negb (now - ao_skew o >? e)%Z | None => false end
    | None => true
    end
  else true.
Definition active (o : options) (now : Z) (p : list (list N * json)) : bool :=
  if ao_nbf o then
    match lookup (str "nbf") p with
    | Some j => match time_claim j with Some e => negb (now + ao_skew o <? e)%Z | None => false end
    | None => true
    end
  else true.
(** manager.cpp:369-374 *)
Definition issued (o : options) (p : list (list N * json)) : bool :=
  if ao_iss o then match lookup (str "iss") p with Some (JStr s) => beq s (ao_issuer o) | _ => false end else true.
(** manager.cpp:376-398 *)
Definition addressed (o : options) (p : list (list N * json)) : bool :=
  if ao_aud o then
    match lookup (str "aud") p with
    | Some (JStr s) => beq s (ao_audience o)
    | Some (JArr l) => existsb (fun j => match j with JStr s => beq s (ao_audience o) | _ => false end) l
    | _ => false
    end
  else true.

(** manager.cpp:405-411 *)
Definition text_claim (k : list N) (p : list (list N * json)) : list N := match lookup k p with Some (JStr s) => s | _ => [] end.
(** manager.cpp:420 and 436: a text is read as JSON *)
Definition opened (j : json) : option json := match j with JStr s => parse s | _ => Some j end.
(** manager.cpp:422-424: get<std::string> throws at the first item that is no string; the roles before it stay *)
Fixpoint leading_roles (l : list json) : list (list N) := match l with JStr s :: r => s :: leading_roles r | _ => [] end.
(** manager.cpp:438-444 *)
Fixpoint leading_meta (l : list (list N * json)) : list (list N * list N) :=
  match l with
  | [] => []
  | (k, j) :: r => match (match j with JStr s => Some s | _ => dump j end) with Some t => (k, t) :: leading_meta r | None => [] end
  end.
(** manager.cpp:401-453 *)
Definition read_user (p : list (list N * json)) : option user :=
  let id := text_claim (str "sub") p in
  let name := text_claim (str "username") p in
  if empty id && empty name then None
  else Some (mkU id name
         (match lookup (str "roles") p with Some j => match opened j with Some (JArr l) => leading_roles l | _ => [] end | None => [] end)
         (match lookup (str "metadata") p with Some j => match opened j with Some (JObj l) => leading_meta l | _ => [] end | None => [] end)).

(** manager.cpp:263-320 *)
Definition verify_options (o : options) : vopts :=
  let a := jwt_algorithm (ao_alg o) in
  mkVO a (if is_hmac a then ao_secret o else ao_public o) (ao_exp o) (ao_nbf o) (ao_skew o)
       (if ao_iss o then Some (ao_issuer o) else None) (if ao_aud o then Some (ao_audience o) else None) None.
(** manager.cpp:327-334 *)
Definition reread (p : list (list N * list N)) : list (list N * json) :=
  map (fun e => (fst e, match parse (snd e) with Some j => j | None => JStr (snd e) end)) p.
(** manager.cpp:259-454 *)
Definition verify_token (o : options) (now : Z) (token : list N) : option user :=
  if ao_signed o then
    match jwt_verify now (verify_options o) token with
    | Valid p => read_user (reread p)
    | Invalid _ => None
    end
  else
    match jwt_decode token with
    | Some t =>
        match parse t with
        | Some (JObj p) => if not_expired o now p && active o now p && issued o p && addressed o p then read_user p else None
        | _ => None
        end
    | None => None
    end.

(** ** middleware/auth.h *)
(** auth.h:364-369 *)
Record auth_mw := mkAM { am_options : options; am_key : list N; am_required : bool; am_roles : list (list N); am_all : bool }.
(** auth.h:340-346: items that are no strings are left out *)
Definition string_items (l : list json) : list (list N) := flat_map (fun j => match j with JStr s => [s] | _ => [] end) l.
(** auth.h:315-362 *)
Definition user_from_jwt_payload (j : json) : option user :=
  match j with
  | JObj p =>
      let id := text_claim (str "sub") p in
      let name := text_claim (str "username") p in
      if empty id && empty name then None
      else Some (mkU id name
             (match lookup (str "roles") p with
              | Some (JArr l) => string_items l
              | Some (JStr s) => match parse s with Some (JArr l) => string_items l | _ => [] end
              | _ => [] end) [])
  | _ => None
  end.
(** auth.h:291-300 *)
Definition refuse (status : N) (message : string) (c : ctx) : exit_ * ctx :=
  let h := set_value (str "Content-Type") (str "application/json; charset=utf-8") (r_headers (c_response c)) in
  match dump (JObj [(str "error", JStr (str message))]) with
  | Some text => (Completes, with_response (mkR status h text) c)
  | None => (Escapes, with_response (mkR status h (r_body (c_response c))) c)
  end.
(** auth.h:103-129 the user the context already holds *)
Definition context_user (m : auth_mw) (c : ctx) : option user :=
  match (match get_user (am_key m) (c_data c) with
         | Some u => if empty (u_id u) && empty (u_name u) then None else Some u
         | None => None end) with
  | Some u => Some u
  | None => match get_json (str "jwt_payload") (c_data c) with Some j => user_from_jwt_payload j | None => None end
  end.
(** auth.h:163-177 *)
Definition admit (m : auth_mw) (u : user) (c : ctx) : exit_ * ctx :=
  let c := with_data (put (am_key m) (AnyUser u) (c_data c)) c in
  match am_roles m with
  | [] => (Continues, c)
  | rs => if (if am_all m then has_all_roles u rs else has_any_role u rs) then (Continues, c)
          else refuse 403 "Insufficient permissions based on user roles." c
  end.
(** auth.h:99-178 *)
Definition auth_process (m : auth_mw) (now : Z) (c : ctx) : exit_ * ctx :=
  match context_user m c with
  | Some u => admit m u c
  | None =>
      match header (ao_header (am_options m)) (c_headers c) with
      | [] => if am_required m then refuse 401 "Authentication required: Missing token or authorization header." c else (Continues, c)
      | h =>
          match extract_token_from_header (am_options m) h with
          | [] => refuse 401 "Invalid authentication format in header." c
          | token =>
              match verify_token (am_options m) now token with
              | Some u => admit m u c
              | None => refuse 401 "Invalid or expired token; user authentication failed." c
              end
          end
      end
  end.
(** auth.h:381-385, 447-456, 470-476 the factories *)
Definition auth_middleware (o : options) : auth_mw := mkAM o (str "user") true [] false.
Definition role_auth_middleware (roles : list (list N)) (all : bool) : auth_mw := mkAM default_options (str "user") true roles all.
Definition optional_auth_middleware (o : options) : auth_mw := mkAM o (str "user") false [] false.
(** auth.h:398-435; None: std::invalid_argument *)
Definition jwt_auth_middleware (secret alg : list N) : option auth_mw :=
  match algorithm_from_string alg with
  | None => None
  | Some a =>
      let o := set default_options (SAlgorithm a) in
      Some (auth_middleware (match a with HMAC_SHA256 | HMAC_SHA384 | HMAC_SHA512 => set o (SSecret secret) | _ => set o (SPublic secret) end))
  end.

(** ** middleware/jwt.h *)
Inductive location := InHeader | InCookie | InQuery.
(** jwt.h:48-64 *)
Record jwt_options := mkJO {
  jo_secret : list N; jo_algorithm : list N; jo_exp : bool; jo_nbf : bool; jo_iat : bool; jo_iss : bool; jo_aud : bool; jo_sub : bool;
  jo_issuer : list N; jo_audience : list N; jo_subject : list N; jo_leeway : Z; jo_location : location; jo_name : list N; jo_scheme : list N }.
Inductive jwt_error := MISSING_TOKEN | INVALID_TOKEN | EXPIRED | NOT_ACTIVE | BAD_SIGNATURE | INVALID_CLAIM | ALGORITHM_MISMATCH.
Record error_info := mkEI { ei_code : jwt_error; ei_message : list N }.
(** The callbacks. A validator accepts, rejects (perhaps with an error of its own) or throws (a std::exception has a text); the error
    handler changes the response, may complete the context itself, or throws before having done so; the success handler changes
    the response or throws. *)
Inductive vout := VAccepts | VRejects (e : option error_info) | VThrows (what : option (list N)).
Inductive hout := HReturns (r : response) (completed : bool) | HThrows (r : response).
Record jwt_mw := mkJM {
  jm_options : jwt_options; jm_required : list (list N); jm_validator : option (json -> vout);
  jm_error : option (error_info -> response -> hout); jm_success : option (json -> response -> response * bool) }.  (* true: it threw *)

Variable to_long : list N -> option Z.              (* qb::to_number<long long> *)
Variable to_double : list N -> option spec_float.   (* qb::to_number<double> *)
Variable dump_error : list N -> list N.             (* the text of the exception dump throws on a message *)
Variable algorithm_named : list N -> option jalg.   (* qb::jwt::algorithm_from_string *)

(** the class of octets in jwt.h:303-323: no vertical tab *)
Definition jwt_space (c : N) : bool := (c =? 32) || (c =? 9) || (c =? 10) || (c =? 13) || (c =? 12).
(** jwt.h:297-334 *)
Definition token_in_header (o : jwt_options) (v : list N) : option (list N) :=
  match strip jwt_space v with
  | [] => None
  | v =>
      match jo_scheme o with
      | [] => Some v
      | sch =>
          if (length sch <? length v)%nat && beq (map ascii_to_lower sch) (map ascii_to_lower (firstn (length sch) v))
          then if negb (nth (length sch) v 0 =? 32) then None
               else match drop_if jwt_space (skipn (length sch) v) with [] => None | t => Some t end
          else None
      end
  end.
(** jwt.h:295-343 *)
Definition extract_token (o : jwt_options) (c : ctx) : option (list N) :=
  let some v := match v with [] => None | _ => Some v end in
  match jo_location o with
  | InHeader => token_in_header o (header (jo_name o) (c_headers c))
  | InCookie => some (match jar_get (c_cookies c) (jo_name o) with Some k => ck_value k | None => [] end)
  | InQuery => some (header (jo_name o) (c_queries c))
  end.
(** jwt.h:428-434 *)
Definition number_shape (s : list N) : bool :=
  match s with
  | [] => false
  | c :: _ => ((c =? 45) || ((48 <=? c) && (c <=? 57))) &&
              forallb (fun c => ((48 <=? c) && (c <=? 57)) || (c =? 45) || (c =? 43) || (c =? 46) || (c =? 101) || (c =? 69)) s
  end.
(** jwt.h:410-446 *)
Definition coerce (s : list N) : json :=
  if beq s (str "true") then JBool true
  else if beq s (str "false") then JBool false
  else match to_long s with
       | Some z => JInt z
       | None => if number_shape s
                 then match to_double s with Some d => if finite d then JReal d else JStr s | None => JStr s end
                 else JStr s
       end.
(** jwt.h:347-375 *)
Definition int64_claim (j : json) : option Z :=
  match j with
  | JInt z => Some z
  | JUint n => Some (wrap n)
  | JReal d => if finite d && SFleb (double_of (-9223372036854775808)) d && SFltb d (double_of 9223372036854775808) then Some (trunc d) else None
  | JStr s => to_long s
  | _ => None
  end.
(** jwt.h:377-403 *)
Definition jwt_verify_options (o : jwt_options) (a : jalg) : vopts :=
  mkVO a (jo_secret o) (jo_exp o) (jo_nbf o) (jo_leeway o)
       (if jo_iss o then Some (jo_issuer o) else None) (if jo_aud o then Some (jo_audience o) else None) (if jo_sub o then Some (jo_subject o) else None).
(** jwt.h:466-494 *)
Definition error_of (e : verror) : error_info :=
  match e with
  | INVALID_FORMAT => mkEI INVALID_TOKEN (str "Invalid token format.")
  | INVALID_SIGNATURE => mkEI BAD_SIGNATURE (str "Invalid token signature.")
  | TOKEN_EXPIRED => mkEI EXPIRED (str "Token has expired.")
  | TOKEN_NOT_ACTIVE => mkEI NOT_ACTIVE (str "Token is not yet active.")
  | INVALID_ISSUER => mkEI INVALID_CLAIM (str "Invalid issuer.")
  | INVALID_AUDIENCE => mkEI INVALID_CLAIM (str "Invalid audience.")
  | INVALID_SUBJECT => mkEI INVALID_CLAIM (str "Invalid subject.")
  | CLAIM_MISMATCH => mkEI INVALID_CLAIM (str "A specific claim value mismatch occurred.")
  | OTHER_ERROR => mkEI INVALID_TOKEN (str "Unknown JWT validation error.")
  end.
(** jwt.h:345-497 *)
Definition jwt_verify_token (o : jwt_options) (now : Z) (token : list N) : error_info + list (list N * json) :=
  match algorithm_named (jo_algorithm o) with
  | None => inl (mkEI ALGORITHM_MISMATCH (str "JWT algorithm '" ++ jo_algorithm o ++ str "' is not supported or recognized by the library."))
  | Some a =>
      match jwt_verify now (jwt_verify_options o a) token with
      | Valid p =>
          let p := map (fun e => (fst e, coerce (snd e))) p in
          if jo_iat o then
            match lookup (str "iat") p with
            | Some j => match int64_claim j with
                        | None => inl (mkEI INVALID_CLAIM (str "Invalid 'iat' claim format."))
                        | Some z => if (z >? now + jo_leeway o)%Z then inl (mkEI NOT_ACTIVE (str "Token issued in the future (invalid 'iat').")) else inr p
                        end
            | None => inr p
            end
          else inr p
      | Invalid e => inl (error_of e)
      end
  end.
(** jwt.h:513-518 *)
Definition unauthorized (e : error_info) (c : ctx) : exit_ * ctx :=
  let h := set_value (str "Content-Type") (str "application/json") (r_headers (c_response c)) in
  match dump (JObj [(str "error", JStr (ei_message e))]) with
  | Some text => (Completes, with_response (mkR 401 h text) c)
  | None => (Escapes, with_response (mkR 401 h (r_body (c_response c))) c)
  end.
(** jwt.h:499-519 *)
Definition handle_error (m : jwt_mw) (e : error_info) (c : ctx) : exit_ * ctx :=
  match jm_error m with
  | None => unauthorized e c
  | Some h =>
      match h e (c_response c) with
      | HReturns r completed => (if completed then HandlerDone else Completes, with_response r c)
      | HThrows r => unauthorized e (with_response r c)
      end
  end.
(** jwt.h:219-231: the rejection is reported inside the try block, so an exception on the way is taken for one of the validator's *)
Definition reject (m : jwt_mw) (e : error_info) (c : ctx) : exit_ * ctx :=
  match handle_error m e c with
  | (Escapes, c') => handle_error m (mkEI INVALID_CLAIM (str "Custom JWT validator threw exception: " ++ dump_error (ei_message e))) c'
  | x => x
  end.
(** jwt.h:209-214 the first required claim that is missing *)
Definition missing_claim (l : list (list N)) (p : list (list N * json)) : option (list N) :=
  find (fun k => match lookup k p with None => true | Some _ => false end) l.
(** jwt.h:194-249 *)
Definition jwt_process (m : jwt_mw) (now : Z) (c : ctx) : exit_ * ctx :=
  match extract_token (jm_options m) c with
  | None => handle_error m (mkEI MISSING_TOKEN (str "JWT token is missing.")) c
  | Some token =>
      match jwt_verify_token (jm_options m) now token with
      | inl e => handle_error m e c
      | inr p =>
          match missing_claim (jm_required m) p with
          | Some k => handle_error m (mkEI INVALID_CLAIM (str "Required claim '" ++ k ++ str "' is missing.")) c
          | None =>
              match (match jm_validator m with Some f => f (JObj p) | None => VAccepts end) with
              | VRejects (Some e) => reject m e c
              | VRejects None => reject m (mkEI INVALID_CLAIM (str "Custom JWT validation failed.")) c
              | VThrows (Some w) => handle_error m (mkEI INVALID_CLAIM (str "Custom JWT validator threw exception: " ++ w)) c
              | VThrows None => handle_error m (mkEI INVALID_CLAIM (str "Custom JWT validator threw unknown exception.")) c
              | VAccepts =>
                  let c := with_data (put (str "jwt_payload") (AnyJson (JObj p)) (c_data c)) c in
                  match jm_success m with
                  | None => (Continues, c)
                  | Some f =>
                      match f (JObj p) (c_response c) with
                      | (r, false) => (Continues, with_response r c)
                      | (r, true) => (Fails, with_response (mkR 500 (set_value (str "Content-Type") (str "text/plain; charset=utf-8") (r_headers r)) (str "Error in JWT success handler.")) c)
                      end
                  end
              end
          end
      end
  end.
End Library.
