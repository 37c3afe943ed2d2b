(** Model of validation/parameter_validator.{h,cpp}, validation/request_validator.{h,cpp} and middleware/validation.h. The texts of
    the messages are not modelled. *)
From Verif Require Import Base UtilModel Http1Model RecvModel ValJson ValModel SanModel.
From Coq Require Import SpecFloat.
Local Open Scope N_scope.

(** rule.h:40-62 IRule: the policy of the Result, the value, the path, and the errors the Result holds; what it returns (None: an
    exception) and the errors held then. *)
Definition irule := policy -> json -> list N -> list error -> option bool * list error.
(** parameter_validator.h:35-110. [rs_type]: None is DataType::ANY. [rs_parser]: the custom parser; None is an exception. *)
Record rule_set := mkRS {
  rs_name : list N; rs_type : option data_type; rs_required : bool; rs_default : option (list N); rs_rules : list irule;
  rs_parser : option (list N -> option (json * bool)) }.
(** parameter_validator.h:115-181: an icase_unordered_map in iteration order, and the mode *)
Record param_validator := mkPV { pv_defs : list (list N * rule_set); pv_strict : bool }.
Definition find_def (name : list N) (l : list (list N * rule_set)) : option rule_set :=
  match find (fun e => iequals (fst e) name) l with Some e => Some (snd e) | None => None end.
(** parameter_validator.cpp:26-29: operator[] keeps the key that is there; a new key comes at some place of the map, here at the end *)
Fixpoint put_def (name : list N) (rs : rule_set) (l : list (list N * rule_set)) : list (list N * rule_set) :=
  match l with [] => [(name, rs)] | (k, x) :: r => if iequals k name then (k, rs) :: r else (k, x) :: put_def name rs r end.
Definition add_param (rs : rule_set) (v : param_validator) : param_validator := mkPV (put_def (rs_name rs) rs (pv_defs v)) (pv_strict v).

(** std::from_chars of a long long over the whole field *)
Definition from_chars_ll (s : list N) : option Z :=
  let number ds := match ds with [] => None | _ => if forallb (fun c => (48 <=? c) && (c <=? 57)) ds then Some (fold_left (fun a c => 10 * a + Z.of_N (c - 48))%Z ds 0%Z) else None end in
  match s with
  | 45 :: ds => match number ds with Some z => if (z <=? 9223372036854775808)%Z then Some (- z)%Z else None | None => None end
  | _ => match number s with Some z => if (z <=? 9223372036854775807)%Z then Some z else None | None => None end
  end.
(** static_cast<long long> of a finite double: towards zero *)
Definition trunc (d : spec_float) : Z :=
  match d with
  | S754_finite s m e => let a := (if (0 <=? e) then Z.pos m * 2 ^ e else Z.pos m / 2 ^ (- e))%Z in if s then (- a)%Z else a
  | _ => 0%Z
  end.
Definition finite (d : spec_float) : bool := match d with S754_zero _ | S754_finite _ _ _ => true | _ => false end.

(** A request as far as the validator touches it: query parameters, headers, body. *)
Record vrequest := mkVR { vr_queries : headers_map; vr_headers : headers_map; vr_body : list N }.
(** The functions added for a name (icase_unordered_map); None: the function throws. *)
Definition sanitizers := list (list N * list (list N -> option (list N))).
(** request_validator.h:138-150. The schema validator keeps its own policy, which stays the default. *)
Record validator := mkV {
  v_policy : policy; v_schema : option json; v_query : option param_validator; v_header : option param_validator; v_path : option param_validator;
  v_body_sanitizer : option (list (list N * list (list N -> option (list N)))); v_query_sanitizers : sanitizers; v_header_sanitizers : sanitizers }.
(** How RequestValidator::validate ends: an exception, or its bool, the errors of the Result and the request as it is then. *)
Inductive outcome := Threw | Out (ok : bool) (es : list error) (r : vrequest).

(** the sanitizers of one value, in order: the value then, and whether all of them returned *)
Fixpoint run_all (fs : list (list N -> option (list N))) (v : list N) : list N * bool :=
  match fs with [] => (v, true) | f :: r => match f v with Some v' => run_all r v' | None => (v, false) end end.

Section Library.
(** std::regex, dump() for previews, the items a set takes as equal: as in ValModel *)
Variable rx : list N -> option (list N -> option bool).
Variable dump : json -> list N.
Variable same : json -> json -> bool.
(** qb::to_number_prefix<double> over the whole field *)
Variable real : list N -> option spec_float.
(** qb::to_number_prefix<size_t> in paths of sanitizers *)
Variable number : list N -> option N.
(** qb::json::parse; None: parse_error *)
Variable parse : list N -> option json.
(** dump() of a whole document: None is the type_error for strings that are not UTF-8 *)
Variable dump_document : json -> option (list N).
(** dump(2) *)
Variable dump_pretty : json -> option (list N).
(** the text that goes with an error *)
Variable message : error -> list N.
(** request_validator.cpp:216-218 whether the message of a type error speaks of null, object or array *)
Variable speaks : error -> bool.

(** rule.cpp: a rule of the library as an IRule (each validate function adds one error if the test fails) *)
Definition builtin (r : rule) : irule :=
  fun p v path es => if passes same r v then (Some true, es) else (Some false, add dump p path (rule_name r) (Some v) es).
(** rule.cpp:52-85 TypeRule *)
Definition type_rule (t : data_type) : irule :=
  fun p v path es => if has_type t v then (Some true, es) else (Some false, add dump p path "type" (Some v) es).

(** parameter_validator.cpp:31-112: None is success = false, with its error added *)
Definition parse_value (v : list N) (t : option data_type) : option json :=
  match t with
  | Some TString | Some TArray => Some (JStr v)
  | Some TInteger => match from_chars_ll v with Some z => Some (JInt z) | None => None end
  | Some TNumber =>
      match real v with
      | Some d =>
          if negb (finite d) then None
          else if SFleb (double_of (-9223372036854775808)) d && SFltb d (double_of 9223372036854775808)
               then if SFeqb (double_of (trunc d)) d then Some (JInt (trunc d)) else Some (JReal d)
               else Some (JReal d)
      | None => None
      end
  | Some TBoolean =>
      let l := map ascii_to_lower v in
      if beq l (str "true") || beq l (str "1") then Some (JBool true) else if beq l (str "false") || beq l (str "0") then Some (JBool false) else None
  | Some TObject | Some TNull | None => None
  end.

(** parameter_validator.cpp:174-193: the rules in order, none is skipped *)
Fixpoint apply_rules (rules : list irule) (p : policy) (j : json) (path : list N) (ok : bool) (es : list error) : bool * list error :=
  match rules with
  | [] => (ok, es)
  | r :: rest =>
      match r p j path es with
      | (Some b, es) => apply_rules rest p j path (ok && b) es
      | (None, es) => apply_rules rest p j path false (add dump p path "ruleExecutionException" (Some j) es)
      end
  end.
(** parameter_validator.cpp:145-193 for a value *)
Definition validate_present (name v : list N) (rs : rule_set) (p : policy) (source : string) (es : list error) : json * list error :=
  let path := str source ++ [46] ++ name in
  let go j := let '(ok, es) := apply_rules (rs_rules rs) p j path true es in (if ok then j else JNull, es) in
  match rs_parser rs with
  | Some f =>
      match f v with
      | None => (JNull, add dump p path "customParseException" (Some (JStr v)) es)
      | Some (_, false) => (JNull, match es with [] => add dump p path "customParse" (Some (JStr v)) es | _ => es end)
      | Some (j, true) => go j
      end
  | None => match parse_value v (rs_type rs) with Some j => go j | None => (JNull, add dump p path "type" (Some (JStr v)) es) end
  end.
(** parameter_validator.cpp:114-194 validate_single *)
Definition validate_single (name : list N) (value : option (list N)) (rs : rule_set) (p : policy) (source : string) (es : list error) : json * list error :=
  match value with
  | Some v => validate_present name v rs p source es
  | None =>
      match rs_default rs with
      | Some v => validate_present name v rs p source es
      | None => if rs_required rs then (JNull, add dump p (str source ++ [46] ++ name) "required" (Some JNull) es) else (JNull, es)
      end
  end.
(** one occurrence, in its own child of the Result: request_validator.cpp:260-266, 270-275, 340-346 *)
Definition check (name : list N) (value : option (list N)) (rs : rule_set) (p : policy) (source : string) (acc : bool * list error) : bool * list error :=
  match snd (validate_single name value rs p source []) with
  | [] => acc
  | new => (false, snd acc ++ new)
  end.
(** request_validator.cpp:254-277, 296-316: the definitions *)
Definition check_defined (p : policy) (source : string) (params : headers_map) (d : list N * rule_set) (acc : bool * list error) : bool * list error :=
  match find_header (fst d) params with
  | Some (v :: vs) => fold_left (fun acc v => check (fst d) (Some v) (snd d) p source acc) (v :: vs) acc
  | _ => check (fst d) None (snd d) p source acc
  end.
(** request_validator.cpp:279-289, 317-326: the names in the request *)
Definition check_unexpected (p : policy) (source : string) (defs : list (list N * rule_set)) (e : list N * list (list N)) (acc : bool * list error) : bool * list error :=
  match snd e, find_def (fst e) defs with
  | v :: _, None => (false, add dump p (str source ++ [46] ++ fst e) "unexpectedParameter" (Some (JStr v)) (snd acc))
  | _, _ => acc
  end.
(** request_validator.cpp:246-291, 293-328 *)
Definition check_params (p : policy) (source : string) (pv : option param_validator) (params : headers_map) (acc : bool * list error) : bool * list error :=
  match pv with
  | None => acc
  | Some pv =>
      let acc := fold_left (fun acc d => check_defined p source params d acc) (pv_defs pv) acc in
      if pv_strict pv then fold_left (fun acc e => check_unexpected p source (pv_defs pv) e acc) params acc else acc
  end.
(** request_validator.cpp:330-357; [path_params]: None is the null pointer, else the lookup *)
Definition check_path (p : policy) (pv : option param_validator) (path_params : option (list N -> option (list N))) (acc : bool * list error) : bool * list error :=
  match pv with
  | None => acc
  | Some pv =>
      match path_params with
      | Some get => fold_left (fun acc d => check (rs_name (snd d)) (get (rs_name (snd d))) (snd d) p "path" acc) (pv_defs pv) acc
      | None => (false, snd acc ++ map (fun d => mkE (str "path." ++ rs_name (snd d)) (str "required") (apply_policy dump p (Some JNull))) (pv_defs pv))
      end
  end.
(** request_validator.cpp:202-244; None: an exception of the schema validator, which the code does not catch (only parse_error) *)
Definition check_body (fuel : nat) (p : policy) (schema : option json) (body : list N) (acc : bool * list error) : option (bool * list error) :=
  match schema with
  | None => Some acc
  | Some s =>
      match body with
      | [] =>
          match validate rx dump same fuel default_policy s JNull [] with
          | Some (Done true _) => Some acc
          | Some (Done false new) =>
              let new := if existsb (fun e => beq (e_rule e) (str "type") && speaks e) new then new else add dump default_policy (str "body") "contentRequired" (Some JNull) [] in
              Some (false, snd acc ++ new)
          | _ => None
          end
      | _ =>
          match parse body with
          | None => Some (false, add dump p (str "body") "invalidFormat.validate" (Some (JStr body)) (snd acc))
          | Some j =>
              match validate rx dump same fuel default_policy s j [] with
              | Some (Done true _) => Some acc
              | Some (Done false new) => Some (false, snd acc ++ new)
              | _ => None
              end
          end
      end
  end.

(** request_validator.cpp:106-129: the values of a name; a failure stops the rest of them *)
Fixpoint sanitize_values (p : policy) (path : list N) (rule : string) (fs : list (list N -> option (list N))) (vs : list (list N)) (acc : bool * list error) : list (list N) * (bool * list error) :=
  match vs with
  | [] => ([], acc)
  | v :: r =>
      match run_all fs v with
      | (v', true) => let '(r', acc) := sanitize_values p path rule fs r acc in (v' :: r', acc)
      | (v', false) => (v' :: r, (false, add dump p path rule (Some (JStr v')) (snd acc)))
      end
  end.
Definition find_sanitizers (name : list N) (l : sanitizers) : option (list (list N -> option (list N))) :=
  match find (fun e => iequals (fst e) name) l with Some e => Some (snd e) | None => None end.
(** request_validator.cpp:99-133, 135-169 *)
Fixpoint sanitize_map (p : policy) (source : string) (rule : string) (ss : sanitizers) (m : headers_map) (acc : bool * list error) : headers_map * (bool * list error) :=
  match m with
  | [] => ([], acc)
  | (name, vs) :: r =>
      let '(vs', acc) := match find_sanitizers name ss with
                         | Some fs => sanitize_values p (str source ++ [46] ++ name) rule fs vs acc
                         | None => (vs, acc)
                         end in
      let '(r', acc) := sanitize_map p source rule ss r acc in ((name, vs') :: r', acc)
  end.
(** request_validator.cpp:171-199; None: dump() throws, which is not caught *)
Definition sanitize_body (p : policy) (rules : option (list (list N * list (list N -> option (list N))))) (body : list N) (acc : bool * list error) : option (list N * (bool * list error)) :=
  match rules with
  | None => Some (body, acc)
  | Some rules =>
      match body with
      | [] => Some (body, acc)
      | _ =>
          match parse body with
          | None => Some (body, (false, add dump p (str "body") "invalidFormat.sanitize" (Some (JStr body)) (snd acc)))
          | Some j =>
              match sanitize number rules j with
              | None => Some (body, (false, add dump p (str "body") "sanitizeException.body" (Some (JStr body)) (snd acc)))
              | Some j' => match dump_document j' with Some t => Some (t, acc) | None => None end
              end
          end
      end
  end.

(** request_validator.cpp:89-359. Each child Result is merged at the end of its part, in the order of the parts; its errors are
    appended directly here. *)
Definition validate_request (fuel : nat) (v : validator) (r : vrequest) (path_params : option (list N -> option (list N))) (es : list error) : outcome :=
  let p := v_policy v in
  let '(queries, acc) := sanitize_map p "query" "sanitizeException.query" (v_query_sanitizers v) (vr_queries r) (true, es) in
  let '(hs, acc) := sanitize_map p "header" "sanitizeException.header" (v_header_sanitizers v) (vr_headers r) acc in
  match sanitize_body p (v_body_sanitizer v) (vr_body r) acc with
  | None => Threw
  | Some (body, acc) =>
      let r' := mkVR queries hs body in
      match check_body fuel p (v_schema v) body acc with
      | None => Threw
      | Some acc =>
          let acc := check_params p "query" (v_query v) queries acc in
          let acc := check_params p "header" (v_header v) hs acc in
          let '(ok, es) := check_path p (v_path v) path_params acc in
          Out ok es r'
      end
  end.

(** middleware/validation.h:91-104; objects keep their members sorted by name *)
Definition report (es : list error) : json :=
  JObj [(str "errors", JArr (map (fun e => JObj ([(str "field", JStr (e_path e)); (str "message", JStr (message e)); (str "rule", JStr (e_rule e))] ++
                                            match e_value e with Some x => [(str "value", x)] | None => [] end)) es));
        (str "message", JStr (str "Validation failed."))].
(** middleware/validation.h:79-109. [Passed]: CONTINUE with the request as it is now; [Answered]: COMPLETE with that status, headers
    and body; [Escaped]: an exception leaves process. *)
Inductive handled := Passed (r : vrequest) | Answered (status : N) (h : headers_map) (body : list N) | Escaped.
Definition process (fuel : nat) (v : validator) (r : vrequest) (path_params : list N -> option (list N)) (response : headers_map) : handled :=
  match validate_request fuel v r (Some path_params) [] with
  | Threw => Escaped
  | Out true _ r' => Passed r'
  | Out false es _ =>
      match dump_pretty (report es) with
      | Some text => Answered 400 (set_value (str "Content-Type") (str "application/json; charset=utf-8") response) text
      | None => Escaped
      end
  end.
End Library.
