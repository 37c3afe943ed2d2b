From Verif Require Import Base UtilModel UtilSpec UtilProofs H2FieldSpec Http1Model Http1Spec Http1Proofs RecvModel ValJson ValModel ValSpec ValProps ValProps2 ValProps3 ValExamples SanModel ReqModel FloatFacts ReqSpec ReqProps ReqProps2 ReqProps3.
From Coq Require Import SpecFloat.
Local Open Scope N_scope.

(** The rules of the library report what they reject. *)
Theorem builtin_honest dump same r : Honest (builtin dump same r).
Proof.
  intros j. unfold builtin. destruct (passes same r j); [left; reflexivity|right]. intros p path es. cbn [fst snd]. split; [discriminate|]. eexists. split; [reflexivity|discriminate].
Qed.
Theorem type_rule_honest dump t : Honest (type_rule dump t).
Proof.
  intros j. unfold type_rule. destruct (has_type t j); [left; reflexivity|right]. intros p path es. cbn [fst snd]. split; [discriminate|]. eexists. split; [reflexivity|discriminate].
Qed.
Theorem builtin_holds dump same r j : Holds (builtin dump same r) j <-> passes same r j = true.
Proof.
  unfold Holds, builtin. destruct (passes same r j); [split; [reflexivity|intros _ p path es; reflexivity]|]. split; [intros H; specialize (H default_policy [] []); discriminate H|discriminate].
Qed.

(** ** What errors reveal *)
Section Policy.
Variable rx : list N -> option (list N -> option bool).
Variable dump : json -> list N.
Variable same : json -> json -> bool.
Variable real : list N -> option spec_float.
Variable number : list N -> option N.
Variable parse : list N -> option json.
Variable dump_document : json -> option (list N).
Variable speaks : error -> bool.
Definition Shown (p : policy) (es : list error) : Prop := Forall (fun e => Shows dump p (e_value e)) es.
(** A rule that leaves the values to the policy. *)
Definition Discreet (r : irule) : Prop := forall p j path es, Shown p es -> Shown p (snd (r p j path es)).
Lemma shown_add p path rule x es : Shown p es -> Shown p (add dump p path rule x es).
Proof. intros H. unfold Shown, add. apply Forall_app. split; [exact H|]. constructor; [apply (apply_policy_shows rx dump)|constructor]. Qed.
Lemma builtin_discreet r : Discreet (builtin dump same r).
Proof. intros p j path es H. unfold builtin. destruct (passes same r j); [exact H|now apply shown_add]. Qed.
Lemma shown_rules p : forall rules, Forall Discreet rules -> forall j path ok es, Shown p es -> Shown p (snd (apply_rules dump rules p j path ok es)).
Proof.
  induction 1 as [|r rules Hr _ IH]; intros j path ok es H; cbn [apply_rules]; [exact H|]. pose proof (Hr p j path es H) as HX. destruct (r p j path es) as [[b|] es']; cbn [snd] in HX; apply IH; [exact HX|now apply shown_add].
Qed.
Lemma shown_check p name value rs source acc : Forall Discreet (rs_rules rs) -> Shown p (snd acc) -> Shown p (snd (check dump real name value rs p source acc)).
Proof.
  intros HR H. assert (HP : forall v, Shown p (snd (validate_present dump real name v rs p source []))).
  { intros v. unfold validate_present. assert (HG : forall j, Shown p (snd (let '(ok, es) := apply_rules dump (rs_rules rs) p j (str source ++ [46] ++ name) true [] in (if ok then j else JNull, es)))).
    { intros j. pose proof (shown_rules p _ HR j (str source ++ [46] ++ name) true [] (Forall_nil _)) as HX. destruct (apply_rules _ _ _ _ _ _ _). exact HX. }
    destruct (rs_parser rs) as [f|]; [destruct (f v) as [[j [|]]|]|destruct (parse_value real v (rs_type rs))]; try apply HG; apply shown_add; constructor. }
  assert (HS : Shown p (snd (validate_single dump real name value rs p source []))).
  { unfold validate_single. destruct value; [apply HP|]. destruct (rs_default rs); [apply HP|]. destruct (rs_required rs); [apply shown_add; constructor|constructor]. }
  unfold check. destruct (snd (validate_single dump real name value rs p source [])) as [|e l]; [exact H|]. cbn [snd]. apply Forall_app. now split.
Qed.
Lemma shown_fold {A} p (f : bool * list error -> A -> bool * list error) l : (forall a acc, In a l -> Shown p (snd acc) -> Shown p (snd (f acc a))) -> forall acc, Shown p (snd acc) -> Shown p (snd (fold_left f l acc)).
Proof. induction l as [|a l IH]; intros H acc Ha; cbn [fold_left]; [exact Ha|]. apply IH; [intros; apply H; auto; now right|]. apply H; [now left|exact Ha]. Qed.
Definition DiscreetRules (pv : option param_validator) : Prop := forall v d, pv = Some v -> In d (pv_defs v) -> Forall Discreet (rs_rules (snd d)).
Lemma shown_params p source pv params acc : DiscreetRules pv -> Shown p (snd acc) -> Shown p (snd (check_params dump real p source pv params acc)).
Proof.
  intros HD H. unfold check_params. destruct pv as [pv|]; [|exact H].
  assert (H1 : Shown p (snd (fold_left (fun acc d => check_defined dump real p source params d acc) (pv_defs pv) acc))).
  { apply shown_fold; [|exact H]. intros d a Hd Ha. specialize (HD pv d eq_refl Hd). unfold check_defined. destruct (find_header (fst d) params) as [[|v vs]|]; try now apply shown_check. apply shown_fold; [|exact Ha]. intros x a' _ Hx. now apply shown_check. }
  destruct (pv_strict pv); [|exact H1]. apply shown_fold; [|exact H1]. intros e a _ Ha. unfold check_unexpected. destruct (snd e); [exact Ha|]. destruct (find_def (fst e) (pv_defs pv)); [exact Ha|]. now apply shown_add.
Qed.
Lemma shown_values p path rule fs : forall vs acc, Shown p (snd acc) -> Shown p (snd (snd (sanitize_values dump p path rule fs vs acc))).
Proof.
  induction vs as [|v vs IH]; intros acc H; cbn [sanitize_values]; [exact H|]. destruct (run_all fs v) as [v' [|]]; [|now apply shown_add]. specialize (IH acc H). now destruct (sanitize_values dump p path rule fs vs acc).
Qed.
Lemma shown_map p source rule ss : forall m acc, Shown p (snd acc) -> Shown p (snd (snd (sanitize_map dump p source rule ss m acc))).
Proof.
  induction m as [|[name vs] m IH]; intros acc H; cbn [sanitize_map]; [exact H|].
  assert (HX : Shown p (snd (snd (match find_sanitizers name ss with Some fs => sanitize_values dump p (str source ++ [46] ++ name) rule fs vs acc | None => (vs, acc) end)))) by (destruct (find_sanitizers name ss); [now apply shown_values|exact H]).
  destruct (match find_sanitizers name ss with Some fs => _ | None => _ end) as [vs' a1]. specialize (IH a1 HX). now destruct (sanitize_map dump p source rule ss m a1).
Qed.
(** C137: without a schema for the body, the errors show no more of the request than the policy allows. *)
Theorem c137_values fuel v r path_params ok es' r' : v_schema v = None -> DiscreetRules (v_query v) -> DiscreetRules (v_header v) -> DiscreetRules (v_path v) ->
  validate_request rx dump same real number parse dump_document speaks fuel v r path_params [] = Out ok es' r' -> Forall (fun e => Shows dump (v_policy v) (e_value e)) es'.
Proof.
  intros HS D1 D2 D3. unfold validate_request. rewrite HS.
  pose proof (shown_map (v_policy v) "query" "sanitizeException.query" (v_query_sanitizers v) (vr_queries r) (true, []) (Forall_nil _)) as V1.
  destruct (sanitize_map dump (v_policy v) "query" "sanitizeException.query" (v_query_sanitizers v) (vr_queries r) (true, [])) as [q a1]. cbn [snd] in V1.
  pose proof (shown_map (v_policy v) "header" "sanitizeException.header" (v_header_sanitizers v) (vr_headers r) a1 V1) as V2.
  destruct (sanitize_map dump (v_policy v) "header" "sanitizeException.header" (v_header_sanitizers v) (vr_headers r) a1) as [h a2]. cbn [snd] in V2.
  assert (V3 : forall b a3, sanitize_body dump number parse dump_document (v_policy v) (v_body_sanitizer v) (vr_body r) a2 = Some (b, a3) -> Shown (v_policy v) (snd a3)).
  { unfold sanitize_body. intros b a3. destruct (v_body_sanitizer v) as [rules|]; [|intros H; injection H as _ <-; exact V2]. destruct (vr_body r); [intros H; injection H as _ <-; exact V2|].
    destruct (parse _); [|intros H; injection H as _ <-; now apply shown_add]. destruct (sanitize _ _ _); [|intros H; injection H as _ <-; now apply shown_add]. destruct (dump_document _); [|discriminate]. intros H; injection H as _ <-; exact V2. }
  destruct (sanitize_body dump number parse dump_document (v_policy v) (v_body_sanitizer v) (vr_body r) a2) as [[b a3]|]; [|discriminate]. specialize (V3 b a3 eq_refl). cbn [check_body].
  pose proof (shown_params (v_policy v) "query" (v_query v) q a3 D1 V3) as V5. set (a5 := check_params dump real (v_policy v) "query" (v_query v) q a3) in *.
  pose proof (shown_params (v_policy v) "header" (v_header v) h a5 D2 V5) as V6. set (a6 := check_params dump real (v_policy v) "header" (v_header v) h a5) in *.
  assert (V7 : Shown (v_policy v) (snd (check_path dump real (v_policy v) (v_path v) path_params a6))).
  { unfold check_path. destruct (v_path v) as [pv|]; [|exact V6]. destruct path_params as [get|].
    - apply shown_fold; [|exact V6]. intros d a Hd Ha. apply shown_check; [now apply (D3 pv)|exact Ha].
    - cbn [snd]. apply Forall_app. split; [exact V6|]. apply Forall_forall. intros e He. apply in_map_iff in He as (d & <- & _). apply (apply_policy_shows rx dump). }
  destruct (check_path _ _ _ _ _ _). intros H. injection H as _ <- _. exact V7.
Qed.
End Policy.

(** ** Registering parameters *)
Lemma put_names n rs l : bytes_ok n -> Named l -> Named (put_def n rs l) /\
  (forall m, bytes_ok m -> find_def m (put_def n rs l) = if beq (map lower m) (map lower n) then Some rs else find_def m l) /\
  (forall x, In x (map (fun e => map lower (fst e)) (put_def n rs l)) -> x = map lower n \/ In x (map (fun e => map lower (fst e)) l)).
Proof.
  intros Hn [HB HD]. induction l as [|[k x] l IH]; cbn [put_def].
  - split; [split; [now constructor|cbn; constructor; [easy|constructor]]|]. split; [|cbn; intros y [<-|[]]; now left]. intros m Hm. unfold find_def. cbn [find fst].
    destruct (beq (map lower m) (map lower n)) eqn:E.
    + apply beq_eq in E. now rewrite (proj2 (iequals_spec n m Hn Hm) (eq_sym E)).
    + apply beq_neq in E. destruct (iequals n m) eqn:E2; [|reflexivity]. apply iequals_spec in E2; auto. congruence.
  - inversion HB as [|? ? H1 H2]; subst. inversion HD as [|? ? H3 H4]; subst. cbn [fst] in *. destruct (IH H2 H4) as (I1 & I2 & I3). destruct (iequals k n) eqn:E.
    + apply iequals_spec in E; auto. split; [split; [now constructor|cbn [map fst] in *; now constructor]|]. split; [|cbn [map fst]; intros y Hy; now right].
      intros m Hm. unfold find_def. cbn [find fst]. destruct (beq (map lower m) (map lower n)) eqn:E2.
      * apply beq_eq in E2. assert (EK : map lower k = map lower m) by congruence. now rewrite (proj2 (iequals_spec k m H1 Hm) EK).
      * apply beq_neq in E2. destruct (iequals k m) eqn:E3; [apply iequals_spec in E3; auto; congruence|reflexivity].
    + assert (EN : map lower k <> map lower n) by (intros EX; apply iequals_spec in EX; auto; congruence). destruct I1 as [J1 J2]. split; [split; [now constructor|]|].
      * cbn [map fst]. constructor; [|exact J2]. intros HX. apply I3 in HX as [HX|HX]; [congruence|contradiction].
      * split; [|cbn [map fst]; intros y [<-|Hy]; [right; now left|]; apply I3 in Hy as [Hy|Hy]; [now left|right; now right]].
        intros m Hm. specialize (I2 m Hm). unfold find_def in *. cbn [find fst]. destruct (iequals k m) eqn:E3; [|exact I2]. apply iequals_spec in E3; auto. destruct (beq (map lower m) (map lower n)) eqn:E4; [apply beq_eq in E4; congruence|reflexivity].
Qed.
(** C138: registering a parameter replaces the rules under that name, up to case, and no others. *)
Theorem c138_register rs pv m : bytes_ok (rs_name rs) -> Named (pv_defs pv) -> bytes_ok m ->
  Named (pv_defs (add_param rs pv)) /\ pv_strict (add_param rs pv) = pv_strict pv /\
  (map lower m = map lower (rs_name rs) -> find_def m (pv_defs (add_param rs pv)) = Some rs) /\
  (map lower m <> map lower (rs_name rs) -> find_def m (pv_defs (add_param rs pv)) = find_def m (pv_defs pv)).
Proof.
  intros H1 H2 Hm. unfold add_param. cbn [pv_defs pv_strict]. destruct (put_names (rs_name rs) rs (pv_defs pv) H1 H2) as (I1 & I2 & _). split; [exact I1|]. split; [reflexivity|]. rewrite (I2 m Hm). split; intros H.
  - now rewrite (proj2 (beq_eq _ _) H).
  - now rewrite (proj2 (beq_neq _ _) H).
Qed.

(** ** An application *)
Definition real1 (s : list N) : option spec_float := if beq s (str "2.5") then Some (S754_finite false 5629499534213120 (-51)) else if beq s (str "1e3") then Some (S754_finite false 8796093022208000 (-43)) else None.
Lemma real1_double v d : real1 v = Some d -> Double d.
Proof. unfold real1. destruct (beq v (str "2.5")); [intros H; injection H as <-; vm_compute; reflexivity|]. destruct (beq v (str "1e3")); [intros H; injection H as <-; vm_compute; reflexivity|discriminate]. Qed.
Example whole_number : parse_value real1 (str "1e3") (Some TNumber) = Some (JInt 1000).
Proof. vm_compute. reflexivity. Qed.
Example fraction : exists d, parse_value real1 (str "2.5") (Some TNumber) = Some (JReal d).
Proof. eexists. vm_compute. reflexivity. Qed.
Example limits : parse_value real1 (str "-9223372036854775808") (Some TInteger) = Some (JInt (-9223372036854775808)) /\ parse_value real1 (str "9223372036854775808") (Some TInteger) = None /\
  parse_value real1 (str "+1") (Some TInteger) = None /\ parse_value real1 (str " 1") (Some TInteger) = None /\ parse_value real1 (str "007") (Some TInteger) = Some (JInt 7) /\ parse_value real1 (str "TRUE") (Some TBoolean) = Some (JBool true).
Proof. vm_compute. repeat split. Qed.

Definition page : rule_set := mkRS (str "page") (Some TInteger) false (Some (str "1")) [builtin dump1 json_eq (Minimum (double_of 1) false)] None.
Definition token : rule_set := mkRS (str "X-Token") (Some TString) true None [builtin dump1 json_eq (MinLength 3)] None.
Definition ident : rule_set := mkRS (str "id") (Some TInteger) true None [] None.
Definition app1 : validator :=
  mkV (set_error_value_policy NoValue 0) None (Some (add_param page (mkPV [] false))) (Some (add_param token (mkPV [] false))) (Some (add_param ident (mkPV [] true))) None
      [(str "page", [fun s => Some (trim s)])] [].
Definition get1 (n : list N) : option (list N) := if beq n (str "id") then Some (str "42") else None.
Definition run (r : vrequest) := process rx1 dump1 json_eq real1 (fun _ => None) (fun _ => None) (fun _ => None) (fun _ => Some (str "report")) (fun _ => []) (fun _ => false) 10 app1 r get1 [].
Definition run_errors (r : vrequest) := validate_request rx1 dump1 json_eq real1 (fun _ => None) (fun _ => None) (fun _ => None) (fun _ => false) 10 app1 r (Some get1) [].
Lemma named_one {A} n (x : A) : bytes_ok n -> Named [(n, x)].
Proof. intros H. split; [now constructor|]. cbn. constructor; [easy|constructor]. Qed.
Lemma str_bytes s : bytes_ok (str s).
Proof. unfold bytes_ok, str. apply Forall_forall. intros x Hx. apply in_map_iff in Hx as (c & <- & _). apply N_ascii_bounded. Qed.
Example app1_configured : Configured 10 app1.
Proof.
  unfold Configured, app1. cbn [v_query_sanitizers v_header_sanitizers v_query v_header v_path v_schema].
  split; [apply named_one, str_bytes|]. split; [split; constructor|]. split; [|split; [discriminate|]].
  - intros pv [H|[H|H]]; injection H as <-; (split; [exact (named_one _ _ (str_bytes _))|discriminate]).
  - unfold HonestRules. repeat split; intros v d Hv; injection Hv as <-; cbn; intros [<-|[]]; cbn; repeat (apply Forall_cons; [apply builtin_honest|]); apply Forall_nil.
Qed.
Example app1_octets : Octets app1.
Proof.
  split.
  - cbn. intros e f x y [[<-|[]]|[]]. cbn. intros [<-|[]] Hx H. injection H as <-. unfold bytes_ok, trim in *.
    assert (HD : forall l, Forall (fun b => b < 256) l -> Forall (fun b => b < 256) (drop_space l)) by (induction 1 as [|c l Hc Hl IH]; cbn; [apply Forall_nil|]; destruct (ascii_is_space c) eqn:E; [exact IH|]; now apply Forall_cons).
    specialize (HD x Hx) as H1. destruct (drop_space x) as [|c t]; [apply Forall_nil|]. apply Forall_rev, HD, Forall_rev, H1.
  - cbn. intros pv d x [H|[H|H]]; injection H as <-; cbn; intros [<-|[]]; cbn; intros H; try discriminate H. injection H as <-. exact (str_bytes "1").
Qed.
Example app1_accepts : run (mkVR [(str "page", [str " 2 "; str "3"])] [(str "x-token", [str "secret"])] []) = Passed (mkVR [(str "page", [str "2"; str "3"])] [(str "x-token", [str "secret"])] []).
Proof. vm_compute. reflexivity. Qed.
Example app1_rejects : run_errors (mkVR [(str "page", [str "2"; str "0"])] [] []) =
  Out false [mkE (str "query.page") (str "minimum") None; mkE (str "header.X-Token") (str "required") None] (mkVR [(str "page", [str "2"; str "0"])] [] []).
Proof. vm_compute. reflexivity. Qed.
Example app1_answers : run (mkVR [(str "page", [str "0"])] [(str "x-token", [str "secret"])] []) = Answered 400 [(str "Content-Type", [str "application/json; charset=utf-8"])] (str "report").
Proof. vm_compute. reflexivity. Qed.

(** ** Where the code falls short *)
(** A rule that returns false without adding an error does not count: the parameter is accepted. *)
Definition silent : irule := fun _ _ _ es => (Some false, es).
Theorem c134_silent_rule_refuted : exists rs v r, In silent (rs_rules rs) /\ v_query v = Some (mkPV [(rs_name rs, rs)] false) /\ find_header (rs_name rs) (vr_queries r) <> None /\
  validate_request rx1 dump1 json_eq real1 (fun _ => None) (fun _ => None) (fun _ => None) (fun _ => false) 10 v r None [] = Out true [] r.
Proof.
  set (rs := mkRS (str "q") (Some TString) true None [silent] None). set (r := mkVR [(str "q", [str "anything"])] [] []).
  exists rs, (mkV default_policy None (Some (mkPV [(rs_name rs, rs)] false)) None None None [] []), r. split; [now left|]. split; [reflexivity|]. split; [discriminate|]. vm_compute. reflexivity.
Qed.
(** The policy set on the validator does not reach the schema of the body: its errors carry the whole value. *)
Definition parse1 (s : list N) : option json := if beq s (str "[1]") then Some (JArr [JUint 1]) else Some (JStr s).
Theorem c137_body_refuted : exists v r es r', v_policy v = set_error_value_policy NoValue 0 /\
  validate_request rx1 dump1 json_eq real1 (fun _ => None) parse1 (fun _ => None) (fun _ => false) 10 v r None [] = Out false es r' /\
  map e_value es = [Some (JStr (str "a password"))].
Proof.
  eexists (mkV (set_error_value_policy NoValue 0) (Some (obj [("type", S_ "object")]%string)) None None None None [] []), (mkVR [] [] (str "a password")), _, _.
  split; [reflexivity|]. split; vm_compute; reflexivity.
Qed.
(** A pattern that is no regular expression makes every request with a body throw. *)
Theorem c135_pattern_refuted : exists v r, validate_request rx1 dump1 json_eq real1 (fun _ => None) parse1 (fun _ => None) (fun _ => false) 10 v r None [] = Threw.
Proof.
  exists (mkV default_policy (Some (obj [("pattern", S_ "(")]%string)) None None None None [] []), (mkVR [] [] (str "[1]")). vm_compute. reflexivity.
Qed.
(** An error whose value cannot be written as JSON (a query parameter that is not UTF-8) makes the middleware throw instead of answering. *)
Theorem c136_escape_refuted : exists dump_pretty v r, v_schema v = None /\ process rx1 dump1 json_eq real1 (fun _ => None) parse1 (fun _ => None) dump_pretty (fun _ => []) (fun _ => false) 10 v r get1 [] = Escaped.
Proof.
  exists (fun _ => None), (mkV default_policy None (Some (add_param page (mkPV [] false))) None None None [] []), (mkVR [(str "page", [[255]])] [] []). split; [reflexivity|]. vm_compute. reflexivity.
Qed.
