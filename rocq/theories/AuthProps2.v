From Verif Require Import Base UtilModel UtilSpec UtilProofs Http1Model Http1Spec Http1Proofs RecvModel RecvInv CookieModel CorsSpec CorsModel ValJson SanModel SanSpec SanProps ReqModel ReqSpec ReqProps WsSession HeaderOps AuthModel AuthSpec AuthProps.
From Coq Require Import SpecFloat.
Local Open Scope N_scope.

Lemma empty_iff s : empty s = true <-> s = [].
Proof. destruct s; cbn; split; congruence. Qed.
Lemma empty_no s : empty s = false <-> s <> [].
Proof. destruct s; cbn; split; congruence. Qed.

Lemma nobody a b : empty a && empty b = true <-> a = [] /\ b = [].
Proof. rewrite andb_true_iff, !empty_iff. tauto. Qed.

(** ** C145: options *)
Lemma last_said_snoc {A} (f : setter -> option A) d l s : last_said f d (l ++ [s]) = match f s with Some x => x | None => last_said f d l end.
Proof. unfold last_said. now rewrite fold_left_app. Qed.
Theorem c145_settings l : let o := configure l in
  ao_secret o = last_said (fun s => match s with SSecret x => Some x | _ => None end) [] l /\
  ao_public o = last_said (fun s => match s with SPublic x => Some x | _ => None end) [] l /\
  ao_private o = last_said (fun s => match s with SPrivate x => Some x | _ => None end) [] l /\
  ao_alg o = last_said (fun s => match s with SAlgorithm x => Some x | _ => None end) HMAC_SHA256 l /\
  ao_expiration o = last_said (fun s => match s with SExpiration x => Some x | _ => None end) 3600%Z l /\
  ao_skew o = last_said (fun s => match s with SSkew x => Some x | _ => None end) 0%Z l /\
  ao_issuer o = last_said (fun s => match s with SIssuer x => Some x | _ => None end) [] l /\
  ao_audience o = last_said (fun s => match s with SAudience x => Some x | _ => None end) [] l /\
  ao_header o = last_said (fun s => match s with SHeader x => Some x | _ => None end) (str "Authorization") l /\
  ao_scheme o = last_said (fun s => match s with SScheme x => Some x | _ => None end) (str "Bearer") l /\
  ao_signed o = last_said (fun s => match s with SSigned x => Some x | _ => None end) true l /\
  ao_exp o = last_said (fun s => match s with SVerifyExp x => Some x | _ => None end) true l /\
  ao_nbf o = last_said (fun s => match s with SVerifyNbf x => Some x | _ => None end) true l /\
  (ao_iss o = true <-> ao_issuer o <> []) /\ (ao_aud o = true <-> ao_audience o <> []).
Proof.
  induction l as [|s l IH] using rev_ind; [cbn; repeat (split; [reflexivity|]); split; split; congruence|].
  cbv zeta in *. rewrite !last_said_snoc. unfold configure in *. rewrite fold_left_app. cbn [fold_left].
  destruct (fold_left set l default_options) as [sk pu pr al ex sw is au hd sc sg ve vn vi va].
  cbn [ao_secret ao_public ao_private ao_alg ao_expiration ao_skew ao_issuer ao_audience ao_header ao_scheme ao_signed ao_exp ao_nbf ao_iss ao_aud] in IH.
  destruct IH as (H1 & H2 & H3 & H4 & H5 & H6 & H7 & H8 & H9 & H10 & H11 & H12 & H13 & H14 & H15).
  destruct s as [x|x|x|x|x|x|x|x|x|x|x|x|x]; cbn [set ao_secret ao_public ao_private ao_alg ao_expiration ao_skew ao_issuer ao_audience ao_header ao_scheme ao_signed ao_exp ao_nbf ao_iss ao_aud];
  repeat (split; [first [reflexivity|assumption]|]); first [exact H15 | rewrite negb_true_iff; apply empty_no | split; [rewrite negb_true_iff; apply empty_no|exact H15]].
Qed.
Definition Configured (o : options) : Prop := exists l, o = configure l.
Lemma configured_iss o : Configured o -> (ao_iss o = true <-> ao_issuer o <> []) /\ (ao_aud o = true <-> ao_audience o <> []).
Proof. intros (l & ->). pose proof (c145_settings l) as H. cbv zeta in H. tauto. Qed.

Lemma iequals_name s n : bytes_ok s -> (iequals s (str n) = true <-> Same s (str n)).
Proof. intros H. apply iequals_spec; [exact H|apply str_ok]. Qed.
(** Algorithms are recognised by name in any case, and by nothing else. *)
Theorem c145_names s a : bytes_ok s -> (algorithm_from_string s = Some a <-> exists n j, In (n, a, j) algorithms /\ Same s (str n)).
Proof.
  intros HB. unfold algorithm_from_string. split.
  - intros H.
    repeat match type of H with
    | (if iequals s (str ?n) then _ else _) = _ => let E := fresh "E" in destruct (iequals s (str n)) eqn:E;
        [apply iequals_name in E; [|exact HB]; injection H as <-; eexists n, _; split; [cbn [In algorithms]; tauto|exact E]|clear E]
    end. discriminate H.
  - intros (n & j & HI & HS). unfold Same in HS.
    assert (HI' : exists m, map lower s = map lower (str m) /\ In (m, a, j) algorithms) by now exists n.
    clear HS HI. destruct HI' as (m & HS & HI).
    assert (HX : forall q, iequals s (str q) = beq (map lower (str m)) (map lower (str q))).
    { intros q. apply Bool.eq_iff_eq_true. rewrite iequals_name by exact HB. unfold Same. rewrite HS. symmetry. apply beq_eq. }
    rewrite !HX. clear - HI. cbn [In algorithms] in HI.
    repeat match type of HI with _ \/ _ => destruct HI as [HI|HI] | False => destruct HI end; injection HI as <- <- <-; reflexivity.
Qed.
(** The middleware factory never takes a key for an HMAC secret unless an HMAC algorithm is named. *)
Theorem c145_factory secret name : bytes_ok name ->
  match jwt_auth_middleware secret name with
  | None => forall n a j, In (n, a, j) algorithms -> ~ Same name (str n)
  | Some m => exists n a j, In (n, a, j) algorithms /\ Same name (str n) /\ ao_alg (am_options m) = a /\ am_required m = true /\ am_roles m = [] /\
              (Symmetric a -> ao_secret (am_options m) = secret /\ ao_public (am_options m) = []) /\
              (~ Symmetric a -> ao_public (am_options m) = secret /\ ao_secret (am_options m) = []) /\
              ao_signed (am_options m) = true /\ ao_exp (am_options m) = true /\ ao_nbf (am_options m) = true /\ Configured (am_options m)
  end.
Proof.
  intros HB. unfold jwt_auth_middleware. destruct (algorithm_from_string name) as [a|] eqn:E.
  - apply c145_names in E as (n & j & HI & HS); [|exact HB]. exists n, a, j. split; [exact HI|]. split; [exact HS|].
    unfold Configured, Symmetric. cbn [In].
    destruct a; cbn; repeat (split; [first [reflexivity | intros ?; split; reflexivity | tauto | intros ?; exfalso; intuition congruence | intros ?; intuition congruence]|]);
      match goal with
      | |- exists l, ?o = _ => (exists [SAlgorithm (ao_alg o); SSecret secret]; reflexivity) || (exists [SAlgorithm (ao_alg o); SPublic secret]; reflexivity)
      end.
  - intros n a j HI HS. enough (algorithm_from_string name = Some a) by congruence. apply c145_names; [exact HB|]. now exists n, j.
Qed.

(** ** C144: roles *)
Lemma has_role_iff u r : has_role u r = true <-> In r (u_roles u).
Proof. unfold has_role. rewrite existsb_exists. split; [intros (x & H & E); apply beq_eq in E; now subst x|intros H; exists r; split; [exact H|apply beq_refl]]. Qed.
Theorem c144_any u rs : has_any_role u rs = true <-> exists r, In r rs /\ In r (u_roles u).
Proof.
  unfold has_any_role. destruct rs as [|r rs]; [split; [discriminate|intros (r & [] & _)]|]. rewrite existsb_exists. split; intros (x & H & E); exists x; (split; [exact H|now apply has_role_iff]).
Qed.
Theorem c144_all u rs : has_all_roles u rs = true <-> incl rs (u_roles u).
Proof.
  unfold has_all_roles. destruct rs as [|r rs]; [split; [intros _ x []|reflexivity]|]. rewrite forallb_forall. split; intros H x Hx; apply has_role_iff, H, Hx.
Qed.

(** ** C142: the user in the claims *)
Lemma text_iff k p s : text_claim (str k) p = s <-> TextOf k p s.
Proof.
  unfold text_claim, TextOf, Claim. destruct (lookup (str k) p) as [[| | | | |x| |]|]; split; intros H;
    try (subst s; right; split; [reflexivity|intros y Hy; discriminate Hy]); try (destruct H as [H|[-> _]]; [discriminate H|reflexivity]).
  - subst. now left.
  - destruct H as [H|[-> H]]; [now injection H as ->|]. now destruct (H x).
Qed.
Lemma leading_iff : forall l rs, leading_roles l = rs <-> Leading l rs.
Proof.
  assert (HD : forall l, Leading l (leading_roles l)).
  { induction l as [|j l (rest & E & H)]; [exists []; split; [reflexivity|discriminate]|]. destruct j; cbn [leading_roles]; try (eexists; split; [reflexivity|intros ? ? HH; discriminate HH]).
    exists rest. split; [cbn [map app]; now rewrite <- E|exact H]. }
  assert (HU : forall rs l, Leading l rs -> leading_roles l = rs).
  { induction rs as [|r rs IH]; intros l (rest & -> & H); cbn [map app leading_roles].
    - destruct rest as [|j rest]; [reflexivity|]. destruct j as [| | | | |s| |]; try reflexivity. now destruct (H s rest).
    - f_equal. apply IH. now exists rest. }
  intros l rs. split; [intros <-; apply HD|apply HU].
Qed.
Section Json.
Variable parse : list N -> option json.
Variable dump : json -> option (list N).
Lemma opened_iff k p j : (match lookup (str k) p with Some x => opened parse x | None => None end) = Some j <-> Opened parse k p j.
Proof.
  unfold Opened, Claim, opened. destruct (lookup (str k) p) as [x|]; [|split; [discriminate|intros [[H _]|(s & H & _)]; discriminate H]]. destruct x as [| | | | |s| |];
    try (split; [intros H; injection H as <-; left; split; [reflexivity|intros s; discriminate]|intros [[H _]|(s & H & _)]; [now injection H as <-|discriminate H]]).
  split; [intros H; right; now exists s|]. intros [[H HN]|(x & H & E)]; [injection H as <-; now destruct (HN s)|now injection H as <-].
Qed.
Lemma roles_iff p rs :
  (match lookup (str "roles") p with Some j => match opened parse j with Some (JArr l) => leading_roles l | _ => [] end | None => [] end) = rs <-> Roles parse p rs.
Proof.
  unfold Roles. pose proof (opened_iff "roles" p) as HO. destruct (lookup (str "roles") p) as [x|].
  2: { split; [intros <-; right; split; [reflexivity|intros l Hl; now apply HO in Hl]|intros [(l & Hl & _)|[-> _]]; [now apply HO in Hl|reflexivity]]. }
  destruct (opened parse x) as [[| | | | | |l|]|];
    try (split; [intros <-; right; split; [reflexivity|intros l Hl; now apply HO in Hl]|intros [(l & Hl & _)|[-> _]]; [now apply HO in Hl|reflexivity]]).
  rewrite leading_iff. split.
  - intros H. left. exists l. split; [now apply HO|exact H].
  - intros [(l' & Hl & H)|[_ H]]; [apply HO in Hl; now injection Hl as <-|]. destruct (H l). now apply HO.
Qed.
Lemma written_iff j t : (match j with JStr s => Some s | _ => dump j end) = Some t <-> Written dump j t.
Proof.
  unfold Written. destruct j as [| | | | |s| |]; try (split; [intros H; right; split; [intros s; discriminate|exact H]|intros [H|[_ H]]; [discriminate H|exact H]]).
  split; [intros H; injection H as ->; now left|intros [H|[H _]]; [now injection H as ->|now destruct (H s)]].
Qed.
Definition Entries (l : list (list N * json)) (m : list (list N * list N)) : Prop :=
  exists l' rest, l = l' ++ rest /\ Forall2 (fun e x => fst e = fst x /\ Written dump (snd e) (snd x)) l' m /\ match rest with [] => True | e :: _ => forall t, ~ Written dump (snd e) t end.
Lemma entries_iff : forall l m, leading_meta dump l = m <-> Entries l m.
Proof.
  assert (HD : forall l, Entries l (leading_meta dump l)).
  { induction l as [|[k j] l (l' & rest & -> & H & HR)]; [exists [], []; split; [reflexivity|split; [apply Forall2_nil|exact I]]|].
    cbn [leading_meta]. destruct (match j with JStr s => Some s | _ => dump j end) as [t|] eqn:E.
    - exists ((k, j) :: l'), rest. split; [reflexivity|]. split; [|exact HR]. apply Forall2_cons; [|exact H]. split; [reflexivity|now apply written_iff].
    - exists [], ((k, j) :: l' ++ rest). split; [reflexivity|]. split; [apply Forall2_nil|]. cbn [snd]. intros t Ht. apply written_iff in Ht. congruence. }
  assert (HU : forall m l, Entries l m -> leading_meta dump l = m).
  { induction m as [|[n x] m IH]; intros l (l' & rest & -> & H & HR); inversion H as [|[k j] ? l'' ? [E W] HT]; subst; cbn [app].
    - destruct rest as [|[k j] rest]; [reflexivity|]. cbn [leading_meta snd] in *. destruct (match j with JStr s => Some s | _ => dump j end) as [t|] eqn:Et; [|reflexivity]. destruct (HR t). now apply written_iff.
    - cbn [leading_meta fst snd] in *. apply written_iff in W. rewrite W, E. f_equal. apply IH. now exists l'', rest. }
  intros l m. split; [intros <-; apply HD|apply HU].
Qed.
Lemma metadata_iff p m :
  (match lookup (str "metadata") p with Some j => match opened parse j with Some (JObj l) => leading_meta dump l | _ => [] end | None => [] end) = m <-> Metadata parse dump p m.
Proof.
  transitivity ((exists l, Opened parse "metadata" p (JObj l) /\ Entries l m) \/ (m = [] /\ forall l, ~ Opened parse "metadata" p (JObj l))).
  2: { unfold Metadata, Entries. split; (intros [H|H]; [left|now right]).
       - destruct H as (l & HO & l' & rest & H1 & H2 & H3). now exists l, l', rest.
       - destruct H as (l & l' & rest & HO & H1 & H2 & H3). exists l. split; [exact HO|]. now exists l', rest. }
  pose proof (opened_iff "metadata" p) as HO. destruct (lookup (str "metadata") p) as [x|].
  2: { split; [intros <-; right; split; [reflexivity|intros l Hl; now apply HO in Hl]|intros [(l & Hl & _)|[-> _]]; [now apply HO in Hl|reflexivity]]. }
  destruct (opened parse x) as [[| | | | | | |l]|];
    try (split; [intros <-; right; split; [reflexivity|intros l Hl; now apply HO in Hl]|intros [(l & Hl & _)|[-> _]]; [now apply HO in Hl|reflexivity]]).
  rewrite entries_iff. split.
  - intros H. left. exists l. split; [now apply HO|exact H].
  - intros [(l' & Hl & H)|[_ H]]; [apply HO in Hl; now injection Hl as <-|]. destruct (H l). now apply HO.
Qed.
Theorem c142_user p u : read_user parse dump p = Some u <-> Describes parse dump p u.
Proof.
  unfold read_user, Describes, Identified.
  set (rs := match lookup (str "roles") p with Some j => match opened parse j with Some (JArr l) => leading_roles l | _ => [] end | None => [] end).
  set (me := match lookup (str "metadata") p with Some j => match opened parse j with Some (JObj l) => leading_meta dump l | _ => [] end | None => [] end).
  pose proof (roles_iff p) as HR. fold rs in HR. pose proof (metadata_iff p) as HM. fold me in HM. split.
  - destruct (empty (text_claim (str "sub") p) && empty (text_claim (str "username") p)) eqn:E; [discriminate|]. intros H. injection H as <-. cbn [u_id u_name u_roles u_meta].
    split; [|split; [now apply text_iff|split; [now apply text_iff|split; [now apply HR|now apply HM]]]].
    destruct (text_claim (str "sub") p) eqn:E1; [|left; discriminate]. destruct (text_claim (str "username") p) eqn:E2; [|right; discriminate]. discriminate E.
  - intros (HI & HS & HN & Hr & Hm). destruct u as [id nm ro mt]. cbn [u_id u_name u_roles u_meta] in *. apply text_iff in HS, HN. apply HR in Hr. apply HM in Hm. rewrite HS, HN, Hr, Hm.
    destruct (empty id && empty nm) eqn:E; [|reflexivity]. apply nobody in E as [-> ->]. now destruct HI.
Qed.
End Json.
