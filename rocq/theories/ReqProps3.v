From Verif Require Import Base UtilModel UtilSpec UtilProofs H2FieldSpec Http1Model Http1Spec Http1Proofs RecvModel ValJson ValModel ValSpec ValProps ValProps2 ValProps3 SanModel ReqModel FloatFacts ReqSpec ReqProps ReqProps2.
From Coq Require Import SpecFloat.
Local Open Scope N_scope.

Lemma run_through : forall fs v v', run_all fs v = (v', true) <-> Through fs v v'.
Proof.
  induction fs as [|f fs IH]; intros v v'; cbn [run_all]; [split; [intros H; injection H as <-; constructor|intros H; now inversion H]|].
  destruct (f v) as [w|] eqn:E; [rewrite IH; split; [intros H; now apply through_cons with w|intros H; inversion H as [|? ? ? w' ? H1 H2]; subst; assert (w = w') as -> by congruence; exact H2]|].
  split; [discriminate|]. intros H. inversion H; congruence.
Qed.
Lemma run_bytes fs : (forall f x y, In f fs -> bytes_ok x -> f x = Some y -> bytes_ok y) -> forall v, bytes_ok v -> bytes_ok (fst (run_all fs v)).
Proof.
  induction fs as [|f fs IH]; intros H v Hv; cbn [run_all]; [exact Hv|]. destruct (f v) as [w|] eqn:E; [|exact Hv]. apply IH; [intros; apply (H f0 x); auto; now right|]. apply (H f v); auto; now left.
Qed.

Section Props.
Variable rx : list N -> option (list N -> option bool).
Variable dump : json -> list N.
Variable same : json -> json -> bool.
Variable real : list N -> option spec_float.
Variable number : list N -> option N.
Variable parse : list N -> option json.
Variable dump_document dump_pretty : json -> option (list N).
Variable message : error -> list N.
Variable speaks : error -> bool.
Hypothesis real_double : forall v d, real v = Some d -> Double d.

Lemma values_verdict p path rule fs : forall vs acc, let '(vs', acc') := sanitize_values dump p path rule fs vs acc in Verdict (Forall2 (Through fs) vs vs') acc acc'.
Proof.
  induction vs as [|v vs IH]; intros acc; cbn [sanitize_values]; [apply verdict_id; constructor|]. destruct (run_all fs v) as [v' [|]] eqn:E.
  - specialize (IH acc). destruct (sanitize_values dump p path rule fs vs acc) as [vs' acc']. eapply verdict_iff; [|exact IH]. apply run_through in E. split; [intros H; now constructor|intros H; now inversion H].
  - unfold add. eexists. split; [reflexivity|]. right. split; [|split; [discriminate|reflexivity]]. intros H. inversion H as [|? ? ? ? H1 _]; subst. apply run_through in H1. congruence.
Qed.
Lemma map_verdict p source rule ss : Named ss -> forall m acc, Forall (fun e => bytes_ok (fst e)) m ->
  let '(m', acc') := sanitize_map dump p source rule ss m acc in Verdict (CleanMap ss m m') acc acc'.
Proof.
  intros Hs. induction m as [|[name vs] m IH]; intros acc Hm; cbn [sanitize_map]; [apply verdict_id; constructor|]. inversion Hm as [|? ? H1 H2]; subst. cbn [fst] in H1.
  assert (HV : let '(vs', acc') := match find_sanitizers name ss with Some fs => sanitize_values dump p (str source ++ [46] ++ name) rule fs vs acc | None => (vs, acc) end in Verdict (Forall2 (Through (Functions ss name)) vs vs') acc acc').
  { rewrite (functions_find name ss H1 Hs). destruct (find_sanitizers name ss) as [fs|]; [apply values_verdict|]. apply verdict_id. clear. induction vs; constructor; auto. constructor. }
  destruct (match find_sanitizers name ss with Some fs => sanitize_values dump p (str source ++ [46] ++ name) rule fs vs acc | None => (vs, acc) end) as [vs' acc1].
  specialize (IH acc1 H2). destruct (sanitize_map dump p source rule ss m acc1) as [m' acc2]. eapply verdict_iff; [|eapply verdict_trans; [exact HV|exact IH]].
  unfold CleanMap. split; [intros [HA HB]; constructor; [now split|exact HB]|]. intros H. inversion H as [|? ? ? ? [_ HA] HB]; subst. now split.
Qed.
Lemma values_bytes p path rule fs : (forall f x y, In f fs -> bytes_ok x -> f x = Some y -> bytes_ok y) -> forall vs acc, Forall bytes_ok vs -> Forall bytes_ok (fst (sanitize_values dump p path rule fs vs acc)).
Proof.
  intros Hf. induction vs as [|v vs IH]; intros acc Hv; cbn [sanitize_values]; [constructor|]. inversion Hv as [|? ? H1 H2]; subst. pose proof (run_bytes fs Hf v H1) as HB. destruct (run_all fs v) as [v' [|]]; cbn [fst] in HB.
  - specialize (IH acc H2). destruct (sanitize_values dump p path rule fs vs acc). now constructor.
  - now constructor.
Qed.
Lemma map_kept p source rule ss : (forall e f x y, In e ss -> In f (snd e) -> bytes_ok x -> f x = Some y -> bytes_ok y) -> forall m acc, RequestMap m -> RequestMap (fst (sanitize_map dump p source rule ss m acc)).
Proof.
  intros Hf m acc [[HB HD] HV].
  assert (H : forall m acc, map fst (fst (sanitize_map dump p source rule ss m acc)) = map fst m).
  { clear. induction m as [|[name vs] m IH]; intros acc; cbn [sanitize_map]; [reflexivity|]. destruct (match find_sanitizers name ss with Some fs => _ | None => _ end) as [vs' acc1]. specialize (IH acc1). destruct (sanitize_map dump p source rule ss m acc1). cbn [fst map] in *. now f_equal. }
  assert (HV' : forall acc, Forall (fun e => Forall bytes_ok (snd e)) (fst (sanitize_map dump p source rule ss m acc))).
  { clear HB HD H acc. induction m as [|[name vs] m IH]; intros acc; cbn [sanitize_map]; [constructor|]. inversion HV as [|? ? H1 H2]; subst. cbn [snd] in H1.
    assert (HX : Forall bytes_ok (fst (match find_sanitizers name ss with Some fs => sanitize_values dump p (str source ++ [46] ++ name) rule fs vs acc | None => (vs, acc) end))).
    { unfold find_sanitizers. destruct (find _ ss) as [e|] eqn:E; [|exact H1]. apply find_some in E as [E _]. apply values_bytes; [|exact H1]. intros f x y Hi. now apply (Hf e). }
    destruct (match find_sanitizers name ss with Some fs => _ | None => _ end) as [vs' acc1]. specialize (IH H2 acc1). destruct (sanitize_map dump p source rule ss m acc1). cbn [fst] in *. now constructor. }
  split; [|apply HV']. specialize (H m acc). set (m' := fst (sanitize_map dump p source rule ss m acc)) in *. clearbody m'. split.
  - rewrite Forall_forall in HB |- *. intros e He. apply (in_map fst) in He. rewrite H in He. apply in_map_iff in He as (x & E & Hx). rewrite <- E. now apply HB.
  - replace (map (fun e => map lower (fst e)) m') with (map (map lower) (map fst m')) by now rewrite map_map. rewrite H, map_map. exact HD.
Qed.
Lemma sanitize_body_verdict p rules body acc body' acc' : sanitize_body dump number parse dump_document p rules body acc = Some (body', acc') -> Verdict (CleanBody number parse dump_document rules body body') acc acc'.
Proof.
  unfold sanitize_body, CleanBody. destruct rules as [rules|]; [|intros H; injection H as <- <-; now apply verdict_id]. destruct body as [|c body]; [intros H; injection H as <- <-; now apply verdict_id|].
  destruct (parse (c :: body)) as [j|] eqn:EP.
  - destruct (sanitize number rules j) as [j'|] eqn:ES.
    + destruct (dump_document j') as [t|] eqn:ED; [|discriminate]. intros H; injection H as <- <-. apply verdict_id. exists j, j'. auto.
    + intros H; injection H as <- <-. unfold add. eexists. split; [reflexivity|]. right. split; [|split; [discriminate|reflexivity]]. intros (x & x' & H1 & H2 & _). congruence.
  - intros H; injection H as <- <-. unfold add. eexists. split; [reflexivity|]. right. split; [|split; [discriminate|reflexivity]]. intros (x & x' & H1 & _). congruence.
Qed.

(** C134: the verdict is true exactly if every sanitizer worked and the request as it is then meets all the rules; errors are added
    exactly if it is false, and the errors that were there stay. *)
Theorem c134_request fuel v r path_params es ok es' r' : Configured fuel v -> Octets v -> RequestMap (vr_queries r) -> RequestMap (vr_headers r) ->
  (forall get n x, path_params = Some get -> get n = Some x -> bytes_ok x) ->
  validate_request rx dump same real number parse dump_document speaks fuel v r path_params es = Out ok es' r' ->
  (ok = true <-> Cleaned number parse dump_document v r r' /\ Meets rx same real parse v r' path_params) /\
  exists new, es' = es ++ new /\ (new = [] <-> ok = true).
Proof.
  intros (C1 & C2 & C3 & C4 & C5 & C6 & C7) (O1 & O2) Hq Hh Hg. unfold validate_request.
  pose proof (map_verdict (v_policy v) "query" "sanitizeException.query" (v_query_sanitizers v) C1 (vr_queries r) (true, es) (proj1 (proj1 Hq))) as V1.
  pose proof (map_kept (v_policy v) "query" "sanitizeException.query" (v_query_sanitizers v) ltac:(intros e f x y He; apply (O1 e); now left) (vr_queries r) (true, es) Hq) as K1.
  destruct (sanitize_map dump (v_policy v) "query" "sanitizeException.query" (v_query_sanitizers v) (vr_queries r) (true, es)) as [q a1]. cbn [fst] in K1.
  pose proof (map_verdict (v_policy v) "header" "sanitizeException.header" (v_header_sanitizers v) C2 (vr_headers r) a1 (proj1 (proj1 Hh))) as V2.
  pose proof (map_kept (v_policy v) "header" "sanitizeException.header" (v_header_sanitizers v) ltac:(intros e f x y He; apply (O1 e); now right) (vr_headers r) a1 Hh) as K2.
  destruct (sanitize_map dump (v_policy v) "header" "sanitizeException.header" (v_header_sanitizers v) (vr_headers r) a1) as [h a2]. cbn [fst] in K2.
  destruct (sanitize_body dump number parse dump_document (v_policy v) (v_body_sanitizer v) (vr_body r) a2) as [[b a3]|] eqn:E3; [|discriminate]. apply sanitize_body_verdict in E3.
  destruct (check_body rx dump same parse speaks fuel (v_policy v) (v_schema v) b a3) as [a4|] eqn:E4; [|discriminate]. apply body_verdict in E4; [|exact C4].
  assert (HN : forall pv, v_query v = Some pv \/ v_header v = Some pv \/ v_path v = Some pv -> Named (pv_defs pv)) by (intros pv H; now apply C3 in H).
  assert (D1 : DefaultsOk (v_query v)) by (intros pv d H1 H2 x H3; apply (O2 pv d x); auto).
  assert (D2 : DefaultsOk (v_header v)) by (intros pv d H1 H2 x H3; apply (O2 pv d x); auto).
  assert (D3 : DefaultsOk (v_path v)) by (intros pv d H1 H2 x H3; apply (O2 pv d x); auto).
  pose proof (params_verdict rx dump same real parse speaks real_double (v_policy v) "query" (v_query v) q a4 (proj1 K1) (proj2 K1) ltac:(intros pv H; apply HN; auto) C5 D1) as V5.
  set (a5 := check_params dump real (v_policy v) "query" (v_query v) q a4) in *.
  pose proof (params_verdict rx dump same real parse speaks real_double (v_policy v) "header" (v_header v) h a5 (proj1 K2) (proj2 K2) ltac:(intros pv H; apply HN; auto) C6 D2) as V6.
  set (a6 := check_params dump real (v_policy v) "header" (v_header v) h a5) in *.
  pose proof (path_verdict rx dump same real parse speaks real_double (v_policy v) (v_path v) path_params a6 ltac:(intros pv H; apply C3; auto) C7 D3 Hg) as V7.
  destruct (check_path dump real (v_policy v) (v_path v) path_params a6) as [ok7 es7]. intros H. injection H as <- <- <-.
  pose proof (verdict_trans _ _ _ _ _ V1 (verdict_trans _ _ _ _ _ V2 (verdict_trans _ _ _ _ _ E3 (verdict_trans _ _ _ _ _ E4 (verdict_trans _ _ _ _ _ V5 (verdict_trans _ _ _ _ _ V6 V7)))))) as V.
  destruct V as (new & E & V). cbn [fst snd] in *. unfold Cleaned, Meets. cbn [vr_queries vr_headers vr_body].
  destruct V as [(HP & -> & ->)|(HP & Hn & ->)].
  - split; [split; [intros _; tauto|reflexivity]|]. exists []. split; [exact E|tauto].
  - split; [split; [discriminate|tauto]|]. exists new. split; [exact E|]. split; [contradiction|discriminate].
Qed.

(** C135: the validator returns normally if the schema is usable and sanitized documents can be written. *)
Theorem c135_no_throw fuel v r path_params es : Configured fuel v ->
  (forall s, v_schema v = Some s -> AllUsable rx s /\ exists m, s = JObj m) ->
  (forall rules j j', v_body_sanitizer v = Some rules -> parse (vr_body r) = Some j -> sanitize number rules j = Some j' -> dump_document j' <> None) ->
  validate_request rx dump same real number parse dump_document speaks fuel v r path_params es <> Threw.
Proof.
  intros (_ & _ & _ & C4 & _) HS HD. unfold validate_request.
  destruct (sanitize_map dump (v_policy v) "query" "sanitizeException.query" (v_query_sanitizers v) (vr_queries r) (true, es)) as [q a1].
  destruct (sanitize_map dump (v_policy v) "header" "sanitizeException.header" (v_header_sanitizers v) (vr_headers r) a1) as [h a2].
  destruct (sanitize_body dump number parse dump_document (v_policy v) (v_body_sanitizer v) (vr_body r) a2) as [[b a3]|] eqn:E3.
  - destruct (check_body rx dump same parse speaks fuel (v_policy v) (v_schema v) b a3) as [a4|] eqn:E4.
    + destruct (check_path _ _ _ _ _ _). discriminate.
    + exfalso. unfold check_body in E4. destruct (v_schema v) as [s|]; [|discriminate E4]. destruct (C4 s eq_refl) as [H1 H2]. destruct (HS s eq_refl) as (HU & m & ->).
      assert (HX : forall j, exists b es', validate rx dump same fuel default_policy (JObj m) j [] = Some (Done b es')) by (intros j; now apply c126_no_throw).
      destruct b as [|c b]; [destruct (HX JNull) as (x & e & Ex)|destruct (parse (c :: b)) as [j|]; [destruct (HX j) as (x & e & Ex)|discriminate E4]]; rewrite Ex in E4; destruct x; discriminate E4.
  - exfalso. unfold sanitize_body in E3. destruct (v_body_sanitizer v) as [rules|]; [|discriminate E3]. destruct (vr_body r) as [|c b] eqn:EB; [discriminate E3|]. destruct (parse (c :: b)) as [j|] eqn:EP; [|discriminate E3].
    destruct (sanitize number rules j) as [j'|] eqn:ES; [|discriminate E3]. specialize (HD rules j j' eq_refl eq_refl ES). destruct (dump_document j'); [discriminate E3|congruence].
Qed.

Lemma values_complete p path rule fs : forall vs vs2 acc, Forall2 (Through fs) vs vs2 -> fst (sanitize_values dump p path rule fs vs acc) = vs2.
Proof.
  intros vs vs2 acc H. revert acc. induction H as [|v v2 vs vs2 H1 _ IH]; intros acc; cbn [sanitize_values]; [reflexivity|]. apply run_through in H1. rewrite H1. specialize (IH acc). destruct (sanitize_values dump p path rule fs vs acc). cbn [fst] in *. now f_equal.
Qed.
Lemma map_complete p source rule ss : Named ss -> forall m m2 acc, Forall (fun e => bytes_ok (fst e)) m -> CleanMap ss m m2 -> fst (sanitize_map dump p source rule ss m acc) = m2.
Proof.
  intros Hs m m2 acc Hm H. revert acc Hm. unfold CleanMap in H. induction H as [|[name vs] [name2 vs2] m m2 [H1 H2] _ IH]; intros acc Hm; cbn [sanitize_map]; [reflexivity|]. inversion Hm as [|? ? H3 H4]; subst. cbn [fst snd] in *. subst name2.
  assert (HV : fst (match find_sanitizers name ss with Some fs => sanitize_values dump p (str source ++ [46] ++ name) rule fs vs acc | None => (vs, acc) end) = vs2).
  { rewrite (functions_find name ss H3 Hs) in H2. destruct (find_sanitizers name ss) as [fs|]; [now apply values_complete|]. cbn [fst]. clear - H2. induction H2 as [|x y l l' H _ IH]; [reflexivity|]. f_equal; [now inversion H|exact IH]. }
  destruct (match find_sanitizers name ss with Some fs => _ | None => _ end) as [vs' acc1]. specialize (IH acc1 H4). destruct (sanitize_map dump p source rule ss m acc1). cbn [fst] in *. congruence.
Qed.
Lemma body_complete p rules body acc body2 r : CleanBody number parse dump_document rules body body2 -> sanitize_body dump number parse dump_document p rules body acc = Some r -> fst r = body2.
Proof.
  unfold CleanBody, sanitize_body. destruct rules as [rules|]; [|intros -> H; now injection H as <-]. destruct body as [|c body]; [intros -> H; now injection H as <-|].
  intros (j & j' & H1 & H2 & H3). rewrite H1, H2, H3. intros H. now injection H as <-.
Qed.
(** If the sanitizers can all work, the request afterwards is the sanitized one. *)
Lemma cleaned_result fuel v r path_params es ok es' r' r2 : Configured fuel v -> RequestMap (vr_queries r) -> RequestMap (vr_headers r) ->
  validate_request rx dump same real number parse dump_document speaks fuel v r path_params es = Out ok es' r' -> Cleaned number parse dump_document v r r2 -> r2 = r'.
Proof.
  intros (C1 & C2 & _) Hq Hh. unfold validate_request. intros H (H1 & H2 & H3).
  pose proof (map_complete (v_policy v) "query" "sanitizeException.query" _ C1 _ _ (true, es) (proj1 (proj1 Hq)) H1) as M1.
  destruct (sanitize_map dump (v_policy v) "query" "sanitizeException.query" (v_query_sanitizers v) (vr_queries r) (true, es)) as [q a1].
  pose proof (map_complete (v_policy v) "header" "sanitizeException.header" _ C2 _ _ a1 (proj1 (proj1 Hh)) H2) as M2.
  destruct (sanitize_map dump (v_policy v) "header" "sanitizeException.header" (v_header_sanitizers v) (vr_headers r) a1) as [h a2].
  destruct (sanitize_body dump number parse dump_document (v_policy v) (v_body_sanitizer v) (vr_body r) a2) as [[b a3]|] eqn:E3; [|discriminate H]. apply (body_complete _ _ _ _ _ _ H3) in E3.
  destruct (check_body rx dump same parse speaks fuel (v_policy v) (v_schema v) b a3) as [a4|]; [|discriminate H]. destruct (check_path _ _ _ _ _ _). injection H as _ _ <-. cbn [fst] in *. subst. now destruct r2.
Qed.

(** C136: the middleware passes a request on exactly if it is valid, and then as sanitized; otherwise the response is a 400 in JSON
    that lists the errors, at least one; or an exception leaves it. *)
Theorem c136_middleware fuel v r get response : Configured fuel v -> Octets v -> RequestMap (vr_queries r) -> RequestMap (vr_headers r) ->
  (forall n x, get n = Some x -> bytes_ok x) ->
  match process rx dump same real number parse dump_document dump_pretty message speaks fuel v r get response with
  | Passed r' => Cleaned number parse dump_document v r r' /\ Meets rx same real parse v r' (Some get)
  | Answered status h body =>
      ~ (exists r', Cleaned number parse dump_document v r r' /\ Meets rx same real parse v r' (Some get)) /\
      status = 400 /\ h = set_value (str "Content-Type") (str "application/json; charset=utf-8") response /\
      exists es, es <> [] /\ dump_pretty (report message es) = Some body
  | Escaped => True
  end.
Proof.
  intros HC HO Hq Hh Hg. unfold process. destruct (validate_request rx dump same real number parse dump_document speaks fuel v r (Some get) []) as [|ok es r'] eqn:E; [exact I|].
  destruct (c134_request fuel v r (Some get) [] ok es r' HC HO Hq Hh ltac:(intros g n x Hx; injection Hx as <-; apply Hg) E) as [HI (new & En & HN)]. cbn [app] in En. subst new. destruct ok.
  - now apply HI.
  - destruct (dump_pretty (report message es)) as [body|] eqn:ED; [|exact I]. split.
    + intros (r2 & H1 & H2). pose proof (cleaned_result _ _ _ _ _ _ _ _ _ HC Hq Hh E H1). subst r2. destruct HI as [_ HI]. discriminate HI. now split.
    + split; [reflexivity|]. split; [reflexivity|]. exists es. split; [|exact ED]. intros ->. destruct HN as [HN _]. discriminate (HN eq_refl).
Qed.
End Props.
