From Verif Require Import Base UtilModel UtilSpec UtilProofs H2FieldSpec Http1Model Http1Spec Http1Proofs RecvModel ValJson ValModel ValSpec ValProps ValProps2 ValProps3 SanModel ReqModel FloatFacts ReqSpec ReqProps.
From Coq Require Import SpecFloat.
Local Open Scope N_scope.

(** ** Maps *)
Lemma named_find {A} n (m : list (list N * A)) : bytes_ok n -> Named m ->
  match find (fun e => iequals (fst e) n) m with
  | Some e => filter (fun e => beq (map lower (fst e)) (map lower n)) m = [e]
  | None => filter (fun e => beq (map lower (fst e)) (map lower n)) m = []
  end.
Proof.
  intros Hn [HB HD]. induction m as [|e m IH]; [reflexivity|]. inversion HB as [|? ? H1 H2]; subst. inversion HD as [|? ? H3 H4]; subst. cbn [find filter].
  assert (HE : iequals (fst e) n = beq (map lower (fst e)) (map lower n)).
  { destruct (beq (map lower (fst e)) (map lower n)) eqn:E; [apply beq_eq in E; now apply iequals_spec|]. apply beq_neq in E. destruct (iequals (fst e) n) eqn:E2; [|reflexivity]. now apply iequals_spec in E2. }
  rewrite HE. destruct (beq (map lower (fst e)) (map lower n)) eqn:E; [|now apply IH]. f_equal. apply beq_eq in E.
  assert (HF : forall l : list (list N * A), (forall x, In x l -> beq (map lower (fst x)) (map lower n) = false) -> filter (fun e => beq (map lower (fst e)) (map lower n)) l = []) by (induction l as [|x l IHl]; intros Hl; cbn; [reflexivity|]; rewrite (Hl x (or_introl eq_refl)); apply IHl; intros; apply Hl; now right).
  apply HF. intros x Hx. apply beq_neq. intros HX. apply H3. apply in_map_iff. exists x. split; [congruence|exact Hx].
Qed.
Lemma values_split n (m : list (list N * list (list N))) : values_of n (fields_of m) = flat_map snd (filter (fun e => beq (map lower (fst e)) (map lower n)) m).
Proof.
  unfold values_of, fields_of. induction m as [|e m IH]; [reflexivity|]. cbn [flat_map filter]. rewrite filter_app, map_app, IH. destruct (beq (map lower (fst e)) (map lower n)) eqn:E.
  - cbn [flat_map]. f_equal. induction (snd e) as [|v vs IHv]; [reflexivity|]. cbn [map filter fst]. rewrite E. cbn [map snd]. now f_equal.
  - cbn [app]. replace (map snd _) with (@nil (list N)); [reflexivity|]. induction (snd e) as [|v vs IHv]; [reflexivity|]. cbn [map filter fst]. now rewrite E.
Qed.
Lemma params_values n m : bytes_ok n -> Named m -> values_of n (fields_of m) = match find_header n m with Some vs => vs | None => [] end.
Proof.
  intros Hn Hm. rewrite values_split. unfold find_header. pose proof (named_find n m Hn Hm) as H. destruct (find _ m) as [e|]; rewrite H; cbn; [apply app_nil_r|reflexivity].
Qed.
Lemma functions_find n ss : bytes_ok n -> Named ss -> Functions ss n = match find_sanitizers n ss with Some fs => fs | None => [] end.
Proof.
  intros Hn Hm. unfold Functions, find_sanitizers. pose proof (named_find n ss Hn Hm) as H. destruct (find _ ss) as [e|]; rewrite H; cbn; [apply app_nil_r|reflexivity].
Qed.
Lemma find_def_iff n defs : bytes_ok n -> Named defs -> (find_def n defs = None <-> ~ exists d, In d defs /\ map lower (fst d) = map lower n).
Proof.
  intros Hn Hm. unfold find_def. pose proof (named_find n defs Hn Hm) as H. destruct (find _ defs) as [e|].
  - split; [discriminate|]. intros HX. destruct HX. assert (HI : In e (filter (fun e => beq (map lower (fst e)) (map lower n)) defs)) by (rewrite H; now left). apply filter_In in HI as [H1 H2]. apply beq_eq in H2. now exists e.
  - split; [|reflexivity]. intros _ (d & H1 & H2). assert (HI : In d (filter (fun e => beq (map lower (fst e)) (map lower n)) defs)) by (apply filter_In; split; [exact H1|now apply beq_eq]). now rewrite H in HI.
Qed.

(** ** Verdicts with errors: what a part of the validator does to the verdict and the errors, given whether its claim holds *)
Definition Verdict (P : Prop) (acc acc' : bool * list error) : Prop := exists new, snd acc' = snd acc ++ new /\ (P /\ new = [] /\ fst acc' = fst acc \/ ~ P /\ new <> [] /\ fst acc' = false).
Lemma verdict_id acc (P : Prop) : P -> Verdict P acc acc.
Proof. intros H. exists []. split; [now rewrite app_nil_r|]. left. repeat split; auto. Qed.
Lemma verdict_trans P Q a b c : Verdict P a b -> Verdict Q b c -> Verdict (P /\ Q) a c.
Proof.
  intros (n1 & E1 & H1) (n2 & E2 & H2). exists (n1 ++ n2). split; [rewrite E2, E1; now rewrite app_assoc|].
  destruct H1 as [(H1 & -> & F1)|(H1 & N1 & F1)], H2 as [(H2 & -> & F2)|(H2 & N2 & F2)].
  - left. repeat split; auto. congruence.
  - right. repeat split; auto; tauto.
  - right. repeat split; [tauto|rewrite app_nil_r; auto|congruence].
  - right. repeat split; [tauto| |auto]. destruct n1; [congruence|discriminate].
Qed.
Lemma verdict_iff (P Q : Prop) a b : (P <-> Q) -> Verdict P a b -> Verdict Q a b.
Proof. intros HE (n & E & H). exists n. split; [exact E|]. destruct H as [(H & R)|(H & R)]; [left|right]; (split; [tauto|exact R]). Qed.
Lemma verdict_fold {A} (P : A -> Prop) (f : bool * list error -> A -> bool * list error) l :
  (forall a acc, In a l -> Verdict (P a) acc (f acc a)) -> forall acc, Verdict (Forall P l) acc (fold_left f l acc).
Proof.
  induction l as [|a l IH]; intros H acc; cbn [fold_left]; [now apply verdict_id|]. eapply verdict_iff; [|eapply verdict_trans; [apply (H a acc); now left|apply IH; intros; apply H; now right]].
  split; [intros [H1 H2]; now constructor|intros HX; now inversion HX].
Qed.

Section Props.
Variable rx : list N -> option (list N -> option bool).
Variable dump : json -> list N.
Variable same : json -> json -> bool.
Variable real : list N -> option spec_float.
Variable parse : list N -> option json.
Variable speaks : error -> bool.
Hypothesis real_double : forall v d, real v = Some d -> Double d.

Lemma add_new p path rule x es : add dump p path rule x es <> [] /\ exists new, new <> [] /\ add dump p path rule x es = es ++ new.
Proof. unfold add. split; [now destruct es|]. eexists. now split; [|reflexivity]. Qed.

Lemma rules_verdict : forall rules, Forall Honest rules -> forall p j path ok es, Verdict (Forall (fun r => Holds r j) rules) (ok, es) (apply_rules dump rules p j path ok es).
Proof.
  induction 1 as [|r rules Hr HR IH]; intros p j path ok es; cbn [apply_rules]; [now apply verdict_id|].
  destruct (Hr j) as [HT|HF].
  - rewrite (HT p path es). rewrite andb_true_r. eapply verdict_iff; [|apply IH]. split; [intros H; constructor; [|exact H]; intros p' path' es'; now rewrite HT|intros H; now inversion H].
  - destruct (HF p path es) as (H1 & new & H2 & H3). assert (HN : ~ Holds r j) by (intros HX; now apply H1).
    assert (HV : forall acc', (exists n, n <> [] /\ snd acc' = es ++ n) -> fst acc' = false -> Verdict False (ok, es) acc') by (intros acc' (n & Hn & E) Ef; exists n; split; [exact E|]; right; repeat split; auto).
    destruct (r p j path es) as [[b|] es1] eqn:E; cbn [fst snd] in *.
    + destruct b; [congruence|]. rewrite andb_false_r. eapply verdict_iff; [|eapply (verdict_trans False); [apply (HV (false, es1)); [exists new; split; [now apply H3|exact H2]|reflexivity]|apply IH]]. split; [tauto|]. intros H. inversion H; contradiction.
    + destruct (add_new p path "ruleExecutionException" (Some j) es1) as (_ & n2 & Hn2 & E2). eapply verdict_iff; [|eapply (verdict_trans False); [apply (HV (false, add dump p path "ruleExecutionException" (Some j) es1)); [|reflexivity]|apply IH]].
      * split; [tauto|]. intros H. inversion H; contradiction.
      * exists (new ++ n2). split; [destruct new; [exact Hn2|discriminate]|]. cbn [snd]. rewrite E2, H2. now rewrite app_assoc.
Qed.
(** one value: no errors exactly if it is acceptable *)
Lemma present_errors name v rs p source : bytes_ok v -> Forall Honest (rs_rules rs) -> (snd (validate_present dump real name v rs p source []) = [] <-> Accepts real rs v).
Proof.
  intros Hv HR. unfold validate_present, Accepts. set (path := str source ++ [46] ++ name).
  assert (HG : forall j, snd (let '(ok, es) := apply_rules dump (rs_rules rs) p j path true [] in (if ok then j else JNull, es)) = [] <-> Forall (fun r => Holds r j) (rs_rules rs)).
  { intros j. destruct (rules_verdict _ HR p j path true []) as (new & E & H). destruct (apply_rules dump (rs_rules rs) p j path true []) as [ok es]. cbn [snd fst app] in *. subst es. split.
    - intros ->. destruct H as [(H & _)|(_ & H & _)]; [exact H|congruence].
    - intros HX. destruct H as [(_ & H & _)|(H & _)]; [exact H|contradiction]. }
  destruct (rs_parser rs) as [f|] eqn:EP.
  - destruct (f v) as [[j b]|] eqn:EF; [|split; [intros H; now apply add_new in H|intros (j & H & _); discriminate H]]. destruct b.
    + rewrite HG. split; [intros H; now exists j|intros (j' & H & H2); now injection H as <-].
    + cbn [snd]. split; [intros H; now apply add_new in H|intros (j' & H & _); discriminate H].
  - destruct (parse_value real v (rs_type rs)) as [j|] eqn:EV.
    + rewrite HG. apply (c133_parse real real_double _ _ _ Hv) in EV. split; [intros H; now exists j|]. intros (j' & H & H2). apply (c133_parse real real_double _ _ _ Hv) in H. apply (c133_parse real real_double _ _ _ Hv) in EV. assert (j = j') as -> by congruence. exact H2.
    + cbn [snd]. split; [intros H; now apply add_new in H|]. intros (j & H & _). apply (c133_parse real real_double _ _ _ Hv) in H. congruence.
Qed.
Definition DefaultOk (rs : rule_set) : Prop := forall v, rs_default rs = Some v -> bytes_ok v.
Lemma check_verdict name value rs p source acc : (forall v, value = Some v -> bytes_ok v) -> DefaultOk rs -> Forall Honest (rs_rules rs) ->
  Verdict (AcceptsAll real rs (match value with Some x => [x] | None => [] end)) acc (check dump real name value rs p source acc).
Proof.
  intros Hv HD HR. unfold check, validate_single, AcceptsAll.
  assert (HP : forall v P, bytes_ok v -> (P <-> Accepts real rs v) -> Verdict P acc (match snd (validate_present dump real name v rs p source []) with [] => acc | new => (false, snd acc ++ new) end)).
  { intros v P Hb HE. pose proof (present_errors name v rs p source Hb HR) as HX. destruct (snd (validate_present dump real name v rs p source [])) as [|e l]; [apply verdict_id; tauto|].
    exists (e :: l). split; [reflexivity|]. right. repeat split; [|discriminate]. intros H. destruct HX as [_ HX]. discriminate HX. tauto. }
  destruct value as [v|].
  - apply HP; [now apply Hv|]. split; [intros H; now inversion H|intros H; constructor; [exact H|constructor]].
  - destruct (rs_default rs) as [v|] eqn:E; [apply HP; [now apply HD|tauto]|]. destruct (rs_required rs); [|now apply verdict_id].
    cbn [snd]. unfold add. cbn [app]. eexists. split; [reflexivity|]. right. repeat split; discriminate.
Qed.
Lemma defined_verdict p source params d acc : bytes_ok (fst d) -> Named params -> Forall (fun e => Forall bytes_ok (snd e)) params -> DefaultOk (snd d) -> Forall Honest (rs_rules (snd d)) ->
  Verdict (AcceptsAll real (snd d) (values_of (fst d) (fields_of params))) acc (check_defined dump real p source params d acc).
Proof.
  intros Hd Hm Hv HD HR. unfold check_defined. rewrite params_values by assumption. unfold find_header. destruct (find (fun e => iequals (fst e) (fst d)) params) as [e|] eqn:E; [|now apply (check_verdict _ None)].
  apply find_some in E as [E _]. rewrite Forall_forall in Hv. specialize (Hv e E). cbn [snd]. destruct (snd e) as [|v vs]; [now apply (check_verdict _ None)|].
  eapply verdict_iff; [|apply (verdict_fold (Accepts real (snd d)))].
  - cbn [AcceptsAll]. reflexivity.
  - intros x acc' Hx. eapply verdict_iff; [|apply (check_verdict _ (Some x)); [|exact HD|exact HR]].
    + cbn [AcceptsAll]. split; [intros H; now inversion H|intros H; constructor; [exact H|constructor]].
    + intros y Hy. injection Hy as <-. rewrite Forall_forall in Hv. now apply Hv.
Qed.
Lemma unexpected_verdict p source defs e acc : bytes_ok (fst e) -> Named defs ->
  Verdict (forall v, In v (snd e) -> exists d, In d defs /\ map lower (fst d) = map lower (fst e)) acc (check_unexpected dump p source defs e acc).
Proof.
  intros He Hd. unfold check_unexpected. destruct (snd e) as [|v vs]; [apply verdict_id; intros v []|]. pose proof (find_def_iff (fst e) defs He Hd) as HF. destruct (find_def (fst e) defs).
  - apply verdict_id. intros _ _. destruct HF as [_ HF]. destruct (existsb (fun d => beq (map lower (fst d)) (map lower (fst e))) defs) eqn:EX.
    + apply existsb_exists in EX as (d & H1 & H2). apply beq_eq in H2. now exists d.
    + discriminate HF. intros (d & H1 & H2). assert (existsb (fun d => beq (map lower (fst d)) (map lower (fst e))) defs = true) by (apply existsb_exists; exists d; split; [exact H1|now apply beq_eq]). congruence.
  - unfold add. eexists. split; [reflexivity|]. right. repeat split; [|discriminate]. intros H. apply HF; [reflexivity|]. apply (H v). now left.
Qed.
Definition DefaultsOk (pv : option param_validator) : Prop := forall v d, pv = Some v -> In d (pv_defs v) -> DefaultOk (snd d).
Lemma params_verdict p source pv params acc : Named params -> Forall (fun e => Forall bytes_ok (snd e)) params -> (forall v, pv = Some v -> Named (pv_defs v)) -> HonestRules pv -> DefaultsOk pv ->
  Verdict (ParamsOk real pv params) acc (check_params dump real p source pv params acc).
Proof.
  intros Hm Hv Hn HR HD. unfold check_params. destruct pv as [pv|]; [|apply verdict_id; intros v H; discriminate H]. specialize (Hn pv eq_refl).
  assert (H1 : Verdict (forall name rs, In (name, rs) (pv_defs pv) -> AcceptsAll real rs (values_of name (fields_of params))) acc (fold_left (fun acc d => check_defined dump real p source params d acc) (pv_defs pv) acc)).
  { eapply verdict_iff; [|apply (verdict_fold (fun d => AcceptsAll real (snd d) (values_of (fst d) (fields_of params))) (fun acc d => check_defined dump real p source params d acc))].
    - rewrite Forall_forall. split; [intros H name rs HI; now apply (H (name, rs))|intros H [name rs] HI; now apply H].
    - intros d acc' Hd. apply defined_verdict; auto; [|now apply (HD pv)|now apply (HR pv)]. destruct Hn as [Hn _]. rewrite Forall_forall in Hn. now apply Hn. }
  destruct (pv_strict pv) eqn:ES.
  - eapply verdict_iff; [|eapply verdict_trans; [exact H1|apply (verdict_fold (fun e => forall v, In v (snd e) -> exists d, In d (pv_defs pv) /\ map lower (fst d) = map lower (fst e)) (fun acc e => check_unexpected dump p source (pv_defs pv) e acc))]].
    + unfold ParamsOk. split.
      * intros [HA HB] v Hx. injection Hx as <-. split; [exact HA|]. intros _ f Hf. unfold fields_of in Hf. apply in_flat_map in Hf as (e & He & Hf). apply in_map_iff in Hf as (w & <- & Hw). cbn [fst]. rewrite Forall_forall in HB. now apply (HB e He w).
      * intros H. destruct (H pv eq_refl) as [HA HB]. split; [exact HA|]. apply Forall_forall. intros e He w Hw. apply (HB ES (fst e, w)). unfold fields_of. apply in_flat_map. exists e. split; [exact He|]. apply in_map_iff. now exists w.
    + intros e acc' He. apply unexpected_verdict; [|exact Hn]. destruct Hm as [Hm _]. rewrite Forall_forall in Hm. now apply Hm.
  - eapply verdict_iff; [|exact H1]. unfold ParamsOk. split.
    + intros HA v Hx. injection Hx as <-. split; [exact HA|]. congruence.
    + intros H. now destruct (H pv eq_refl).
Qed.
Lemma path_verdict p pv path_params acc : (forall v, pv = Some v -> pv_defs v <> []) -> HonestRules pv -> DefaultsOk pv -> (forall get n v, path_params = Some get -> get n = Some v -> bytes_ok v) ->
  Verdict (PathOk real pv path_params) acc (check_path dump real p pv path_params acc).
Proof.
  intros Hn HR HD Hg. unfold check_path. destruct pv as [pv|]; [|apply verdict_id; intros v H; discriminate H]. destruct path_params as [get|].
  - eapply verdict_iff; [|apply (verdict_fold (fun d => AcceptsAll real (snd d) (match get (rs_name (snd d)) with Some x => [x] | None => [] end)) (fun acc d => check dump real (rs_name (snd d)) (get (rs_name (snd d))) (snd d) p "path" acc))].
    + rewrite Forall_forall. unfold PathOk. split; [intros H v Hx; injection Hx as <-; exists get; now split|]. intros H d Hd. destruct (H pv eq_refl) as (g & Hx & HA). injection Hx as <-. now apply HA.
    + intros d acc' Hd. apply check_verdict; [intros v; now apply Hg|now apply (HD pv)|now apply (HR pv)].
  - eexists. split; [reflexivity|]. right. split; [intros H; destruct (H pv eq_refl) as (g & Hx & _); discriminate Hx|]. split; [|reflexivity]. specialize (Hn pv eq_refl). now destruct (pv_defs pv).
Qed.
Lemma body_verdict fuel p schema body acc acc' : (forall s, schema = Some s -> (depth s < fuel)%nat /\ (depth s < 64)%nat) ->
  check_body rx dump same parse speaks fuel p schema body acc = Some acc' -> Verdict (BodyOk rx same parse schema body) acc acc'.
Proof.
  intros HS. unfold check_body, BodyOk. destruct schema as [s|]; [|intros H; injection H as <-; apply verdict_id; intros s H; discriminate H]. destruct (HS s eq_refl) as [H1 H2].
  assert (HV : forall j b new (P : Prop), validate rx dump same fuel default_policy s j [] = Some (Done b new) -> (P <-> Satisfies rx same s j) -> (b = true <-> P) /\ (b = false -> new <> [])).
  { intros j b new P E HP. pose proof (c124_valid _ _ _ _ _ _ _ _ _ _ H1 H2 E) as HA. destruct (c125_errors _ _ _ _ _ _ _ _ _ _ H1 H2 E) as (n & E2 & HB). cbn [app] in E2. subst n. split; [tauto|]. intros -> ->. destruct HB as [HB _]. specialize (HB eq_refl). destruct HA as [_ HA]. discriminate (HA HB). }
  destruct body as [|c body].
  - destruct (validate rx dump same fuel default_policy s JNull []) as [[b new| |]|] eqn:E; try discriminate.
    destruct (HV JNull b new (forall s0, Some s = Some s0 -> exists j, ([] = (@nil N) /\ j = JNull \/ [] <> (@nil N) /\ parse [] = Some j) /\ Satisfies rx same s0 j) E) as [HB HN].
    { split; [intros H; destruct (H s eq_refl) as (j & [(_ & ->)|(HX & _)] & HS'); [exact HS'|congruence]|]. intros H s0 Hs. injection Hs as <-. exists JNull. split; [left; now split|exact H]. }
    destruct b; intros HE; injection HE as <-; [apply verdict_id; now apply HB|].
    eexists. split; [reflexivity|]. right. split; [intros HX; apply HB in HX; discriminate HX|]. split; [|reflexivity]. destruct (existsb _ new); [now apply HN|]. intros HX. now apply add_new in HX.
  - destruct (parse (c :: body)) as [j|] eqn:EP.
    + destruct (validate rx dump same fuel default_policy s j []) as [[b new| |]|] eqn:E; try discriminate.
      destruct (HV j b new (forall s0, Some s = Some s0 -> exists j0, (c :: body = [] /\ j0 = JNull \/ c :: body <> [] /\ Some j = Some j0) /\ Satisfies rx same s0 j0) E) as [HB HN].
      { split; [intros H; destruct (H s eq_refl) as (j0 & [(HX & _)|(_ & HX)] & HS'); [discriminate HX|injection HX as <-; exact HS']|]. intros H s0 Hs. injection Hs as <-. exists j. split; [right; now split|exact H]. }
      destruct b; intros HE; injection HE as <-; [apply verdict_id; now apply HB|].
      eexists. split; [reflexivity|]. right. split; [intros HX; apply HB in HX; discriminate HX|]. split; [now apply HN|reflexivity].
    + intros HE; injection HE as <-. unfold add. eexists. split; [reflexivity|]. right. split; [|split; [discriminate|reflexivity]]. intros H. destruct (H s eq_refl) as (j & [(HX & _)|(_ & HX)] & _); discriminate HX.
Qed.
End Props.
