(** middleware/recaptcha.{h,cpp}. Percent coding, the JSON library and the texts of floats and exceptions are parameters. *)
From Verif Require Import Base UtilModel Http1Model RecvModel CorsModel ValJson FormModel.
From Coq Require Import SpecFloat.
Local Open Scope N_scope.

Inductive location := InHeader | InBody | InQuery.
Inductive challenge := Auto | V2 | V3.
(** recaptcha.h:225-230 *)
Record options := mkRO { ro_secret : list N; ro_min : spec_float; ro_url : list N; ro_location : location; ro_type : challenge; ro_field : list N }.
Definition half : spec_float := S754_finite false 8388608 (-24).
Definition options_new (secret : list N) : options :=
  mkRO secret half (str "https://www.google.com/recaptcha/api/siteverify") InBody Auto (str "g-recaptcha-response").
(** recaptcha.h:88-163 *)
Inductive setter := SSecret (k : list N) | SMin (d : spec_float) | SType (t : challenge) | SUrl (u : list N)
| SFromHeader (f : list N) | SFromBody (f : list N) | SFromQuery (f : list N).
Definition set (o : options) (s : setter) : options :=
  match s with
  | SSecret k => mkRO k (ro_min o) (ro_url o) (ro_location o) (ro_type o) (ro_field o)
  | SMin d => mkRO (ro_secret o) d (ro_url o) (ro_location o) (ro_type o) (ro_field o)
  | SType t => mkRO (ro_secret o) (ro_min o) (ro_url o) (ro_location o) t (ro_field o)
  | SUrl u => mkRO (ro_secret o) (ro_min o) u (ro_location o) (ro_type o) (ro_field o)
  | SFromHeader f => mkRO (ro_secret o) (ro_min o) (ro_url o) InHeader (ro_type o) f
  | SFromBody f => mkRO (ro_secret o) (ro_min o) (ro_url o) InBody (ro_type o) f
  | SFromQuery f => mkRO (ro_secret o) (ro_min o) (ro_url o) InQuery (ro_type o) f
  end.
(** recaptcha.h:171-196 the presets *)
Definition preset_v3 (secret : list N) (min : spec_float) : options := fold_left set [SMin min; SType V3; SFromBody (str "g-recaptcha-response")] (options_new secret).
Definition preset_v2 (secret : list N) : options := fold_left set [SType V2; SFromBody (str "g-recaptcha-response")] (options_new secret).
Definition preset_strict (secret : list N) (min : spec_float) : options := fold_left set [SMin min; SType V3; SFromHeader (str "X-reCAPTCHA-Token")] (options_new secret).

(** recaptcha.h:234-244 without the time stamp; [g_score] is None if there is no score *)
Record result := mkG { g_success : bool; g_score : option spec_float; g_action : list N; g_hostname : list N; g_errors : list N }.
(** The request as far as it is looked at. *)
Record request := mkRQ { rq_headers : headers_map; rq_queries : headers_map; rq_body : list N }.

Section Library.
Variable encode decode : list N -> list N.
Variable parse : list N -> option json.
Variable what : list N -> list N.              (* the text of the exception for that body *)
Variable dump : json -> option (list N).
Variable as_float : json -> spec_float.        (* get<float>() of a number *)
Variable float_text : spec_float -> list N.    (* std::to_string *)

(** recaptcha.cpp:19-25 *)
Definition verification_body (secret token : list N) (ip : option (list N)) : list N :=
  str "secret=" ++ encode secret ++ str "&response=" ++ encode token ++
  match ip with Some (c :: r) => str "&remoteip=" ++ encode (c :: r) | _ => [] end.

(** recaptcha.h:459-496 *)
Definition extract (o : options) (q : request) : option (list N) :=
  let some v := match v with [] => None | _ => Some v end in
  match ro_location o with
  | InHeader => some (header (ro_field o) (rq_headers q))
  | InQuery => some (header (ro_field o) (rq_queries q))
  | InBody =>
      match rq_body q with
      | [] => None
      | body =>
          match (match parse body with Some (JObj m) => match lookup (ro_field o) m with Some (JStr s) => Some s | _ => None end | _ => None end) with
          | Some s => Some s
          | None => match form_get_first (ro_field o) (read_form decode body) with Some (c :: r) => Some (c :: r) | _ => None end
          end
      end
  end.

Definition is_number (j : json) : bool := match j with JInt _ | JUint _ | JReal _ => true | _ => false end.
Definition text_of (k : string) (m : list (list N * json)) : list N := match lookup (str k) m with Some (JStr s) => s | _ => [] end.
(** recaptcha.h:534-542 *)
Fixpoint concat_errors (l : list json) (acc : list N) : list N :=
  match l with
  | [] => acc
  | JStr s :: r => concat_errors r ((match acc with [] => [] | _ => acc ++ str ", " end) ++ s)
  | _ :: r => concat_errors r acc
  end.
(** recaptcha.h:504-549; value() throws for what is no object and for a success that is no boolean *)
Definition parse_reply (status : N) (body : list N) : result :=
  if negb (status =? 200) then mkG false None [] [] (str "Google API HTTP error: " ++ dec status)
  else
    let bad := mkG false None [] [] (str "Google API JSON parsing error: " ++ what body) in
    match parse body with
    | Some (JObj m) =>
        match lookup (str "success") m with
        | None | Some (JBool _) =>
            mkG (match lookup (str "success") m with Some (JBool b) => b | _ => false end)
                (match lookup (str "score") m with Some j => if is_number j then Some (as_float j) else None | None => None end)
                (text_of "action" m) (text_of "hostname" m)
                (match lookup (str "error-codes") m with Some (JArr l) => concat_errors l [] | _ => [] end)
        | Some _ => bad
        end
    | _ => bad
    end.

(** recaptcha.h:559-569; None: dump throws *)
Definition error_response (status : N) (message details : list N) (r : response) : option response :=
  let h := set_value (str "Content-Type") (str "application/json; charset=utf-8") (r_headers r) in
  match dump (JObj ((match details with [] => [] | _ => [(str "details", JStr details)] end) ++ [(str "error", JStr message)])) with
  | Some t => Some (mkR status h t)
  | None => None
  end.

(** recaptcha.h:372-377 *)
Definition below (o : options) (g : result) : bool :=
  match ro_type o, g_score g with V2, _ => false | _, Some s => SFltb s (ro_min o) | _, None => false end.
Definition unscored (o : options) (g : result) : bool := match ro_type o, g_score g with V3, None => true | _, _ => false end.
(** recaptcha.h:378-386 *)
Definition detail (o : options) (g : result) : list N :=
  str "Verification failed." ++
  (if negb (g_success g) && negb (match g_errors g with [] => true | _ => false end) then str " Errors: " ++ g_errors g
   else if unscored o g then str " Score is required for reCAPTCHA v3."
   else if below o g then
     str " Score (" ++ float_text (match g_score g with Some s => s | None => S754_zero false end) ++ str ") is below threshold (" ++ float_text (ro_min o) ++ str ")."
   else []).
Inductive verdict := Passed | Blocked (r : option response).   (* None: the exception of dump leaves the callback *)
(** recaptcha.h:368-390 *)
Definition decide (o : options) (status : N) (body : list N) (r : response) : result * verdict :=
  let g := parse_reply status body in
  (g, if negb (g_success g) || unscored o g || below o g
      then Blocked (error_response 403 (str "reCAPTCHA challenge failed") (detail o g) r) else Passed).

(** ** The middleware over time. Requests are numbered in the order of process; [open]: verifications under way, with the options object
    they hold (recaptcha.h:360), and whether the request has ended (is_cancelled or is_completed, 364). *)
Record entry := mkE { e_id : nat; e_options : options; e_over : bool }.
Record sys := mkS { s_options : options; s_open : list entry; s_next : nat }.
Inductive event :=
| Update (o : options)                                    (* update_options *)
| Process (q : request) (r : response)
| Ends (id : nat)                                         (* the request is cancelled or completed otherwise *)
| Reply (id : nat) (status : N) (body : list N) (r : response).   (* the answer of the service; [r]: the response as it then is *)
Inductive out :=
| Throws                                                  (* std::invalid_argument *)
| Asks (id : nat) (url body : list N)                     (* POST, application/x-www-form-urlencoded *)
| Continues (id : nat) (g : result)                       (* CONTINUE with the result stored in the context *)
| Stops (id : nat) (g : option result) (r : option response).    (* COMPLETE with that response *)
Definition step (s : sys) (e : event) : sys * list out :=
  match e with
  | Update o => match ro_secret o with [] => (s, [Throws]) | _ => (mkS o (s_open s) (s_next s), []) end      (* 438-446 *)
  | Process q r =>                                                                                           (* 335-398 *)
      let o := s_options s in
      match extract o q with
      | None | Some [] => (mkS o (s_open s) (S (s_next s)), [Stops (s_next s) None (error_response 400 (str "reCAPTCHA token missing or empty") [] r)])
      | Some t => (mkS o (mkE (s_next s) o false :: s_open s) (S (s_next s)), [Asks (s_next s) (ro_url o) (verification_body (ro_secret o) t None)])
      end
  | Ends id => (mkS (s_options s) (map (fun e => if Nat.eqb (e_id e) id then mkE (e_id e) (e_options e) true else e) (s_open s)) (s_next s), [])
  | Reply id status body r =>                                                                                (* 361-391 *)
      match find (fun e => Nat.eqb (e_id e) id) (s_open s) with
      | None => (s, [])
      | Some e =>
          let s' := mkS (s_options s) (filter (fun e => negb (Nat.eqb (e_id e) id)) (s_open s)) (s_next s) in
          if e_over e then (s', [])
          else match decide (e_options e) status body r with
               | (g, Passed) => (s', [Continues id g])
               | (g, Blocked r') => (s', [Stops id (Some g) r'])
               end
      end
  end.
Fixpoint run (s : sys) (es : list event) : sys * list (list out) :=
  match es with
  | [] => (s, [])
  | e :: r => let '(s1, o) := step s e in let '(s2, os) := run s1 r in (s2, o :: os)
  end.
(** recaptcha.h:277-301; None: the constructor throws *)
Definition start (o : options) : option sys := match ro_secret o with [] => None | _ => Some (mkS o [] 0) end.
End Library.
