From Verif Require Import Base UtilModel UtilSpec UtilProofs Http1Model Http1Spec Http1Proofs RecvModel RecvInv CookieModel CorsSpec CorsModel ValJson SanModel SanSpec SanProps ReqModel ReqSpec ReqProps WsSession HeaderOps HdrProps AuthModel AuthSpec AuthProps AuthProps2 AuthProps3.
From Coq Require Import SpecFloat.
Local Open Scope N_scope.

(** ** Contexts *)
Definition GoodContext (c : ctx) : Prop := HeaderMap (c_headers c) /\ HeaderMap (c_queries c) /\ HeaderMap (r_headers (c_response c)).
(** the scheme begins with something else than white space *)
Definition GoodAuth (m : auth_mw) : Prop :=
  Configured (am_options m) /\ bytes_ok (ao_header (am_options m)) /\ bytes_ok (ao_scheme (am_options m)) /\ exists c r, ao_scheme (am_options m) = c :: r /\ ~ Space c.
Lemma lookup_put k v n : forall d, lookup n (put k v d) = if beq k n then Some v else lookup n d.
Proof.
  unfold lookup. induction d as [|[x y] d IH]; cbn [put find fst].
  - destruct (beq k n); reflexivity.
  - destruct (beq x k) eqn:E; cbn [find fst].
    + apply beq_eq in E. subst x. destruct (beq k n); reflexivity.
    + destruct (beq x n) eqn:E2; [|exact IH]. destruct (beq k n) eqn:E3; [|reflexivity]. apply beq_eq in E2, E3. subst. rewrite beq_refl in E. discriminate E.
Qed.
Lemma stored_put k v c : Stored k v c (with_data (put k v (c_data c)) c).
Proof.
  unfold Stored, with_data, Held. cbn [c_headers c_queries c_cookies c_response c_data]. repeat (split; [reflexivity|]). intros n x. rewrite lookup_put. destruct (beq k n) eqn:E.
  - apply beq_eq in E. subst n. split; [intros H; injection H as <-; now left|intros [[_ ->]|[H _]]; [reflexivity|now destruct H]].
  - apply beq_neq in E. split; [intros H; right; split; [congruence|exact H]|intros [[H _]|[_ H]]; [congruence|exact H]].
Qed.
Lemma replied_set status (ctype : string) body c : HeaderMap (r_headers (c_response c)) ->
  Replied status ctype body c (with_response (mkR status (set_value (str "Content-Type") (str ctype) (r_headers (c_response c))) body) c).
Proof.
  intros HM. unfold Replied, with_response, sent. cbn [c_headers c_queries c_cookies c_response c_data r_status r_headers r_body]. repeat (split; [reflexivity|]).
  split; [rewrite set_values, beq_refl by (first [apply str_ok|assumption]); reflexivity|]. intros n Hn. rewrite set_values by (first [apply str_ok|assumption]).
  destruct (beq (map lower (str "Content-Type")) (map lower n)) eqn:E; [|reflexivity]. apply beq_eq in E. congruence.
Qed.

Section Json.
Variable parse : list N -> option json.
Variable dump : json -> option (list N).
Variable jwt_verify : Z -> vopts -> list N -> validation.
Variable jwt_decode : list N -> option (list N).

(** ** C146: the authentication middleware *)
Lemma string_items_iff : forall l rs, string_items l = rs <-> Texts l rs.
Proof.
  unfold string_items. assert (HD : forall l, Texts l (flat_map (fun j => match j with JStr s => [s] | _ => [] end) l)).
  { induction l as [|j l IH]; [constructor|]. cbn [flat_map]. destruct j; cbn [app]; try (apply texts_out; [intros ? HH; discriminate HH|exact IH]). now apply texts_in. }
  assert (HU : forall l rs, Texts l rs -> flat_map (fun j => match j with JStr s => [s] | _ => [] end) l = rs).
  { induction 1 as [|s l rs _ IH|j l rs HN _ IH]; [reflexivity| |]; cbn [flat_map app]; [now f_equal|]. destruct j; cbn [app]; try exact IH. now destruct (HN s). }
  intros l rs. split; [intros <-; apply HD|apply HU].
Qed.
Lemma payload_iff j u : user_from_jwt_payload parse j = Some u <-> PayloadUser parse j u.
Proof.
  unfold user_from_jwt_payload, PayloadUser. destruct j as [| | | | | | |p]; try (split; [discriminate|intros (p & H & _); discriminate H]).
  set (rs := match lookup (str "roles") p with Some (JArr l) => string_items l | Some (JStr s) => match parse s with Some (JArr l) => string_items l | _ => [] end | _ => [] end).
  assert (HR : forall r, rs = r <-> (exists l, Opened parse "roles" p (JArr l) /\ Texts l r) \/ (r = [] /\ forall l, ~ Opened parse "roles" p (JArr l))).
  { intros r. pose proof (opened_iff parse "roles" p) as HO.
    assert (E : rs = match (match lookup (str "roles") p with Some x => opened parse x | None => None end) with Some (JArr l) => string_items l | _ => [] end).
    { subst rs. destruct (lookup (str "roles") p) as [[| | | | |s| |]|]; reflexivity. }
    rewrite E. clear E rs. destruct (match lookup (str "roles") p with Some x => opened parse x | None => None end) as [[| | | | | |l|]|];
      try (split; [intros <-; right; split; [reflexivity|intros l Hl; apply HO in Hl; discriminate Hl]|intros [(l & Hl & _)|[-> _]]; [apply HO in Hl; discriminate Hl|reflexivity]]).
    rewrite string_items_iff. split.
    - intros H. left. exists l. split; [now apply HO|exact H].
    - intros [(l' & Hl & H)|[_ H]]; [apply HO in Hl; now injection Hl as <-|]. destruct (H l). now apply HO. }
  unfold Identified. split.
  - destruct (empty (text_claim (str "sub") p) && empty (text_claim (str "username") p)) eqn:E; [discriminate|]. intros H. injection H as <-. cbn [u_id u_name u_roles u_meta]. exists p. split; [reflexivity|].
    split; [|split; [now apply text_iff|split; [now apply text_iff|split; [reflexivity|now apply HR]]]].
    destruct (text_claim (str "sub") p) eqn:E1; [|left; discriminate]. destruct (text_claim (str "username") p) eqn:E2; [|right; discriminate]. discriminate E.
  - intros (p' & Ep & HI & HS & HN & Hm & Hr). injection Ep as <-. destruct u as [id nm ro mt]. cbn [u_id u_name u_roles u_meta] in *. apply text_iff in HS, HN. apply HR in Hr. rewrite HS, HN, Hr, Hm.
    destruct (empty id && empty nm) eqn:E; [|reflexivity]. apply nobody in E as [-> ->]. destruct HI as [HI|HI]; now destruct HI.
Qed.
Lemma identified_iff u : empty (u_id u) && empty (u_name u) = false <-> Identified u.
Proof.
  unfold Identified. destruct (empty (u_id u) && empty (u_name u)) eqn:E.
  - apply nobody in E as [-> ->]. split; [discriminate|intros [H|H]; now destruct H].
  - split; [intros _|reflexivity]. destruct (u_id u) eqn:E1; [|left; discriminate]. destruct (u_name u) eqn:E2; [|right; discriminate]. discriminate E.
Qed.
Lemma context_iff m c u : context_user parse m c = Some u <-> InContext parse m c u.
Proof.
  unfold context_user, get_user, get_json. split.
  - destruct (lookup (am_key m) (c_data c)) as [[x| |]|] eqn:E1.
    { destruct (empty (u_id x) && empty (u_name x)) eqn:EX.
      - destruct (lookup (str "jwt_payload") (c_data c)) as [[|j|]|] eqn:E2; try discriminate. intros H. apply payload_iff in H. apply (in_payload parse m c j); [|exact E2|exact H].
        unfold Held. intros y Hy. rewrite E1 in Hy. injection Hy as <-. intros HI. apply identified_iff in HI. congruence.
      - intros H. injection H as <-. apply in_user; [exact E1|now apply identified_iff]. }
    all: destruct (lookup (str "jwt_payload") (c_data c)) as [[|jj|]|] eqn:E2; try discriminate; intros H; apply payload_iff in H; apply (in_payload parse m c jj); [|exact E2|exact H]; unfold Held; intros y Hy; rewrite E1 in Hy; discriminate Hy.
  - intros [x HH HI|j x HH HJ HP].
    + unfold Held in HH. rewrite HH. apply identified_iff in HI. now rewrite HI.
    + unfold Held in *. rewrite HJ. apply payload_iff in HP. destruct (lookup (am_key m) (c_data c)) as [[y| |]|]; try exact HP.
      destruct (empty (u_id y) && empty (u_name y)) eqn:EY; [exact HP|]. apply identified_iff in EY. now destruct (HH y).
Qed.
Lemma authorized_iff m u : match am_roles m with [] => true | rs => if am_all m then has_all_roles u rs else has_any_role u rs end = true <-> Authorized m u.
Proof.
  unfold Authorized. destruct (am_roles m) as [|r rs] eqn:E; [split; [now left|reflexivity]|]. destruct (am_all m).
  - rewrite c144_all. split; [now right|intros [H|H]; [discriminate H|exact H]].
  - rewrite c144_any. split; [now right|intros [H|H]; [discriminate H|exact H]].
Qed.
(** JSON can say what the middleware has to say *)
Definition Speaks : Prop := forall s : string, exists t, dump (JObj [(str "error", JStr (str s))]) = Some t.
Notation who_process := (auth_process parse dump jwt_verify jwt_decode).
Notation WhoIs := (Who parse dump jwt_verify jwt_decode).
Lemma refuse_is status message c : Speaks -> GoodContext c -> exists c', refuse dump status message c = (Completes, c') /\ Refusal dump status "application/json; charset=utf-8" (str message) c c'.
Proof.
  intros HS (_ & _ & HM). destruct (HS message) as (t & Ht). unfold refuse. rewrite Ht. eexists. split; [reflexivity|]. exists t. split; [exact Ht|]. now apply replied_set.
Qed.
Lemma admit_yes m u c : Authorized m u -> admit dump m u c = (Continues, with_data (put (am_key m) (AnyUser u) (c_data c)) c).
Proof. intros H. apply authorized_iff in H. unfold admit. destruct (am_roles m) as [|r rs]; [reflexivity|]. cbv zeta in *. now rewrite H. Qed.
Lemma admit_no m u c : ~ Authorized m u -> admit dump m u c = refuse dump 403 "Insufficient permissions based on user roles." (with_data (put (am_key m) (AnyUser u) (c_data c)) c).
Proof.
  intros H. unfold admit. assert (E : match am_roles m with [] => true | rs => if am_all m then has_all_roles u rs else has_any_role u rs end = false) by (apply not_true_iff_false; intros E; now apply H, authorized_iff).
  destruct (am_roles m) as [|r rs]; [discriminate E|]. cbv zeta in *. now rewrite E.
Qed.
Lemma sent_header m c : GoodAuth m -> GoodContext c -> header (ao_header (am_options m)) (c_headers c) = Sent m c.
Proof. intros (_ & HB & _) (HM & _). now apply first_values. Qed.
Lemma sent_bytes m c : GoodContext c -> bytes_ok (Sent m c).
Proof. intros (HM & _). unfold Sent. pose proof (values_bytes (ao_header (am_options m)) (c_headers c) HM) as HV. destruct (values_of _ _) as [|v vs]; [apply Forall_nil|now inversion HV]. Qed.
(** the user, and how the middleware goes on with him *)
Lemma process_who m now c u : GoodAuth m -> GoodContext c -> SixtyFour parse -> WhoIs m now c u -> who_process m now c = admit dump m u c.
Proof.
  intros HG HC H64 [x HI|t x HN HK HP]; unfold auth_process.
  - apply context_iff in HI. now rewrite HI.
  - destruct (context_user parse m c) as [y|] eqn:EC; [apply context_iff in EC; now destruct (HN y)|]. rewrite sent_header by assumption.
    destruct HG as (HG1 & HG2 & HG3 & s & r & ES & HS). apply (c139_token _ _ s r) in HK as [ET Ht]; [|now apply sent_bytes|exact HG3|exact ES|exact HS].
    apply proves_iff in HP; [|exact HG1|exact H64].
    destruct (Sent m c) as [|b h] eqn:EH; [unfold extract_token_from_header in ET; cbn in ET; congruence|]. rewrite ET. destruct t as [|b' t]; [congruence|]. now rewrite HP.
Qed.
Lemma process_nobody m now c : GoodAuth m -> GoodContext c -> SixtyFour parse -> (forall u, ~ WhoIs m now c u) ->
  who_process m now c = match Sent m c with
                        | [] => if am_required m then refuse dump 401 "Authentication required: Missing token or authorization header." c else (Continues, c)
                        | h => match extract_token_from_header (am_options m) h with
                               | [] => refuse dump 401 "Invalid authentication format in header." c
                               | _ => refuse dump 401 "Invalid or expired token; user authentication failed." c
                               end
                        end.
Proof.
  intros HG HC H64 HW. unfold auth_process. destruct (context_user parse m c) as [y|] eqn:EC; [destruct (HW y); apply who_context; now apply context_iff|]. rewrite sent_header by assumption.
  destruct (Sent m c) as [|b h] eqn:EH; [reflexivity|]. destruct (extract_token_from_header (am_options m) (b :: h)) as [|b' t] eqn:ET; [reflexivity|].
  destruct (verify_token parse dump jwt_verify jwt_decode (am_options m) now (b' :: t)) as [u|] eqn:EV; [|reflexivity].
  destruct (HW u). destruct HG as (HG1 & HG2 & HG3 & s & r & ES & HS). apply proves_iff in EV; [|exact HG1|exact H64]. apply (who_token _ _ _ _ m now c (b' :: t)); [|rewrite EH; apply (c139_token _ _ s r); [rewrite <- EH; now apply sent_bytes|exact HG3|exact ES|exact HS|now split]|exact EV].
  intros x Hx. apply context_iff in Hx. congruence.
Qed.
Theorem c146_admitted m now c u : GoodAuth m -> GoodContext c -> SixtyFour parse -> WhoIs m now c u -> Authorized m u ->
  exists c', who_process m now c = (Continues, c') /\ Stored (am_key m) (AnyUser u) c c'.
Proof. intros HG HC H64 HW HA. rewrite (process_who m now c u), admit_yes by assumption. eexists. split; [reflexivity|apply stored_put]. Qed.
Theorem c146_forbidden m now c u : GoodAuth m -> GoodContext c -> SixtyFour parse -> Speaks -> WhoIs m now c u -> ~ Authorized m u ->
  exists c1 c', who_process m now c = (Completes, c') /\ Stored (am_key m) (AnyUser u) c c1 /\
                Refusal dump 403 "application/json; charset=utf-8" (str "Insufficient permissions based on user roles.") c1 c'.
Proof.
  intros HG HC H64 HS HW HA. rewrite (process_who m now c u), admit_no by assumption. set (c1 := with_data _ c). destruct (refuse_is 403 "Insufficient permissions based on user roles." c1 HS) as (c' & E & HR); [exact HC|].
  exists c1, c'. split; [exact E|]. split; [apply stored_put|exact HR].
Qed.
Theorem c146_anonymous m now c : GoodAuth m -> GoodContext c -> SixtyFour parse -> (forall u, ~ WhoIs m now c u) -> Sent m c = [] -> am_required m = false -> who_process m now c = (Continues, c).
Proof. intros HG HC H64 HW HS HR. rewrite process_nobody by assumption. now rewrite HS, HR. Qed.
Theorem c146_unauthenticated m now c : GoodAuth m -> GoodContext c -> SixtyFour parse -> Speaks -> (forall u, ~ WhoIs m now c u) -> Sent m c <> [] \/ am_required m = true ->
  exists c' (message : string), who_process m now c = (Completes, c') /\ Refusal dump 401 "application/json; charset=utf-8" (str message) c c'.
Proof.
  intros HG HC H64 HS HW HN. rewrite process_nobody by assumption.
  assert (HX : forall msg, exists c' message, refuse dump 401 msg c = (Completes, c') /\ Refusal dump 401 "application/json; charset=utf-8" (str message) c c').
  { intros msg. destruct (refuse_is 401 msg c HS HC) as (c' & E & HR). now exists c', msg. }
  destruct (Sent m c) as [|b h].
  - destruct HN as [HN|HN]; [now destruct HN|]. rewrite HN. apply HX.
  - destruct (extract_token_from_header (am_options m) (b :: h)); apply HX.
Qed.
(** There is at most one user, and these are all the cases. *)
Theorem c146_one m now c : GoodAuth m -> GoodContext c -> SixtyFour parse -> (forall u v, WhoIs m now c u -> WhoIs m now c v -> u = v) /\ ((exists u, WhoIs m now c u) \/ (forall u, ~ WhoIs m now c u)).
Proof.
  intros HG HC H64. destruct HG as (HG1 & HG2 & HG3 & s & r & ES & HS).
  set (who := match context_user parse m c with Some u => Some u | None => match extract_token_from_header (am_options m) (Sent m c) with [] => None | t => verify_token parse dump jwt_verify jwt_decode (am_options m) now t end end).
  assert (HW : forall u, WhoIs m now c u <-> who = Some u).
  { intros u. subst who. split.
    - intros [x HI|t x HN HK HP].
      + apply context_iff in HI. now rewrite HI.
      + destruct (context_user parse m c) as [y|] eqn:EC; [apply context_iff in EC; now destruct (HN y)|].
        apply (c139_token _ _ s r) in HK as [ET Ht]; [|now apply sent_bytes|exact HG3|exact ES|exact HS]. rewrite ET. apply proves_iff in HP; [|exact HG1|exact H64]. destruct t; [congruence|exact HP].
    - destruct (context_user parse m c) as [y|] eqn:EC; [intros H; injection H as <-; apply who_context; now apply context_iff|].
      destruct (extract_token_from_header (am_options m) (Sent m c)) as [|b t] eqn:ET; [discriminate|]. intros H. apply proves_iff in H; [|exact HG1|exact H64].
      apply (who_token _ _ _ _ m now c (b :: t)); [|apply (c139_token _ _ s r); [now apply sent_bytes|exact HG3|exact ES|exact HS|now split]|exact H].
      intros x Hx. apply context_iff in Hx. congruence. }
  split.
  - intros u v Hu Hv. apply HW in Hu, Hv. congruence.
  - destruct who as [u|]; [left; exists u; now apply HW|right; intros u Hu; apply HW in Hu; discriminate Hu].
Qed.
End Json.
