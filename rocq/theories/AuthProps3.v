From Verif Require Import Base UtilModel UtilSpec UtilProofs Http1Model Http1Spec Http1Proofs RecvModel RecvInv CookieModel CorsSpec CorsModel ValJson SanModel SanSpec SanProps ReqModel ReqSpec ReqProps WsSession HeaderOps AuthModel AuthSpec AuthProps AuthProps2.
From Coq Require Import SpecFloat.
Local Open Scope N_scope.

(** ** C140: signed tokens *)
Lemma hmac_iff a : is_hmac (jwt_algorithm a) = true <-> Symmetric a.
Proof. unfold Symmetric. cbn [In]. destruct a; cbn; split; first [discriminate | tauto | intros H; intuition discriminate]. Qed.
Lemma alg_iff a j : jwt_algorithm a = j <-> exists n, In (n, a, j) algorithms.
Proof.
  unfold algorithms. cbn [In]. split.
  - intros <-. destruct a; eexists; cbn; tauto.
  - intros (n & H). repeat destruct H as [H|H]; try (now injection H as <- <- <-). destruct H.
Qed.
Lemma demanded_iss o : Configured o -> (if ao_iss o then Some (ao_issuer o) else None) = demanded (ao_issuer o) /\ (if ao_aud o then Some (ao_audience o) else None) = demanded (ao_audience o).
Proof.
  intros H. destruct (configured_iss o H) as [[H1 H2] [H3 H4]]. unfold demanded. split.
  - destruct (ao_iss o), (ao_issuer o); try reflexivity; [now destruct H1|enough (false = true) by congruence; now apply H2].
  - destruct (ao_aud o), (ao_audience o); try reflexivity; [now destruct H3|enough (false = true) by congruence; now apply H4].
Qed.
Lemma asks_iff o q : Configured o -> (q = verify_options o <-> Asks o q).
Proof.
  intros HC. destruct (demanded_iss o HC) as [HI HA]. unfold verify_options, Asks. split.
  - intros ->. cbn [vo_alg vo_key vo_exp vo_nbf vo_skew vo_issuer vo_audience vo_subject]. split; [now apply alg_iff|]. repeat (split; [try reflexivity; try assumption|]); try reflexivity.
    + intros H. apply hmac_iff in H. now rewrite H.
    + intros H. destruct (is_hmac (jwt_algorithm (ao_alg o))) eqn:E; [|reflexivity]. now apply hmac_iff in E.
  - destruct q as [a k e n s i u b]. cbn [vo_alg vo_key vo_exp vo_nbf vo_skew vo_issuer vo_audience vo_subject]. intros (H1 & H2 & H3 & -> & -> & -> & -> & -> & ->).
    apply alg_iff in H1. rewrite HI, HA, H1. f_equal. subst a. destruct (is_hmac (jwt_algorithm (ao_alg o))) eqn:E.
    + now apply H2, hmac_iff.
    + apply H3. intros H. apply hmac_iff in H. congruence.
Qed.
Section Json.
Variable parse : list N -> option json.
Variable dump : json -> option (list N).
Variable jwt_create : list (list N * list N) -> jalg -> list N -> list N.
Variable jwt_verify : Z -> vopts -> list N -> validation.
Variable jwt_decode : list N -> option (list N).
Lemma reread_iff : forall p c, reread parse p = c <-> AuthSpec.Reads parse p c.
Proof.
  unfold AuthSpec.Reads, reread. induction p as [|[k s] p IH]; intros c; cbn [map].
  - split; [intros <-; apply Forall2_nil|now inversion 1].
  - split.
    + intros <-. apply Forall2_cons; [|now apply IH]. cbn [fst snd]. split; [reflexivity|]. destruct (parse s); [now left|now right].
    + intros H. inversion H as [|? [n j] ? c' [E1 E2] HT]; subst. f_equal; [|now apply IH]. cbn [fst snd] in *. subst n. f_equal. destruct E2 as [->|[-> ->]]; reflexivity.
Qed.
Theorem c140_signed o now token u : Configured o -> ao_signed o = true ->
  (verify_token parse dump jwt_verify jwt_decode o now token = Some u <->
   exists q p c, Asks o q /\ jwt_verify now q token = Valid p /\ AuthSpec.Reads parse p c /\ Describes parse dump c u).
Proof.
  intros HC HS. unfold verify_token. rewrite HS. split.
  - destruct (jwt_verify now (verify_options o) token) as [p|e] eqn:E; [|discriminate]. intros H. apply c142_user in H.
    exists (verify_options o), p, (reread parse p). split; [now apply asks_iff|]. split; [exact E|]. split; [now apply reread_iff|exact H].
  - intros (q & p & c & HQ & E & HR & HD). apply asks_iff in HQ; [|exact HC]. subst q. rewrite E. apply reread_iff in HR. rewrite HR. now apply c142_user.
Qed.

(** ** C141: unsigned tokens *)
Lemma time_iff j z : Ranged j -> (time_claim j = Some z <-> Instant j z).
Proof.
  intros HR. unfold time_claim. destruct j as [| |y|n| |s| |].
  1,2,5,7,8: split; [discriminate|intros H; inversion H].
  - split; [intros H; injection H as ->; constructor|intros H; inversion H; reflexivity].
  - cbn [Ranged] in HR. change (2 ^ 64) with 18446744073709551616 in HR. unfold wrap. destruct (N.ltb_spec n 9223372036854775808) as [HL|HL].
    + split; [intros H; injection H as <-; constructor; exact HL|]. intros H. inversion H; subst; [reflexivity|]. change (2 ^ 63) with 9223372036854775808 in *. lia.
    + replace (Z.min (-1) (Z.of_N n - 18446744073709551616)) with (Z.of_N n - 18446744073709551616)%Z by lia.
      split; [intros H; injection H as <-; apply (instant_wrapped n); change (2 ^ 63) with 9223372036854775808; change (2 ^ 64) with 18446744073709551616; lia|].
      intros H. inversion H; subst; [|reflexivity]. change (2 ^ 63) with 9223372036854775808 in *. lia.
  - rewrite integer_iff. split; [intros [H1 H2]; now constructor|intros H; inversion H; now split].
Qed.
Lemma acceptable_iff o now p : Configured o -> (forall k j, lookup k p = Some j -> Ranged j) ->
  (not_expired o now p && active o now p && issued o p && addressed o p = true <-> Acceptable o now p).
Proof.
  intros HC HR. rewrite !andb_true_iff. unfold Acceptable, Claim. destruct (configured_iss o HC) as [HI HA].
  enough ((not_expired o now p = true <-> (ao_exp o = true -> forall j, lookup (str "exp") p = Some j -> exists z, Instant j z /\ (now - ao_skew o <= z)%Z)) /\
    (active o now p = true <-> (ao_nbf o = true -> forall j, lookup (str "nbf") p = Some j -> exists z, Instant j z /\ (z <= now + ao_skew o)%Z)) /\
    (issued o p = true <-> (ao_issuer o <> [] -> lookup (str "iss") p = Some (JStr (ao_issuer o)))) /\
    (addressed o p = true <-> (ao_audience o <> [] -> lookup (str "aud") p = Some (JStr (ao_audience o)) \/ exists l, lookup (str "aud") p = Some (JArr l) /\ In (JStr (ao_audience o)) l))) by tauto.
  split; [|split; [|split]].
  - unfold not_expired. destruct (ao_exp o); [|split; [discriminate|reflexivity]]. destruct (lookup (str "exp") p) as [j|] eqn:E; [|split; [discriminate|reflexivity]].
    specialize (HR _ _ E). destruct (time_claim j) as [z|] eqn:ET.
    + apply time_iff in ET; [|exact HR]. split.
      * intros H _ x Hx. injection Hx as <-. exists z. split; [exact ET|]. lia.
      * intros H. destruct (H eq_refl j eq_refl) as (z' & Hz & HL). apply time_iff in Hz; [|exact HR]. apply time_iff in ET; [|exact HR]. assert (z' = z) by congruence. lia.
    + split; [discriminate|]. intros H. destruct (H eq_refl j eq_refl) as (z' & Hz & HL). apply time_iff in Hz; [|exact HR]. congruence.
  - unfold active. destruct (ao_nbf o); [|split; [discriminate|reflexivity]]. destruct (lookup (str "nbf") p) as [j|] eqn:E; [|split; [discriminate|reflexivity]].
    specialize (HR _ _ E). destruct (time_claim j) as [z|] eqn:ET.
    + apply time_iff in ET; [|exact HR]. split.
      * intros H _ x Hx. injection Hx as <-. exists z. split; [exact ET|]. lia.
      * intros H. destruct (H eq_refl j eq_refl) as (z' & Hz & HL). apply time_iff in Hz; [|exact HR]. apply time_iff in ET; [|exact HR]. assert (z' = z) by congruence. lia.
    + split; [discriminate|]. intros H. destruct (H eq_refl j eq_refl) as (z' & Hz & HL). apply time_iff in Hz; [|exact HR]. congruence.
  - unfold issued. destruct (ao_iss o) eqn:EI.
    + assert (HN : ao_issuer o <> []) by now apply HI. destruct (lookup (str "iss") p) as [[| | | | |s| |]|]; try (split; [discriminate|intros H; discriminate (H HN)]).
      rewrite beq_eq. split; [intros -> _; reflexivity|intros H; specialize (H HN); now injection H].
    + split; [intros _ HN; apply HI in HN; discriminate HN|reflexivity].
  - unfold addressed. destruct (ao_aud o) eqn:EA.
    + assert (HN : ao_audience o <> []) by now apply HA. destruct (lookup (str "aud") p) as [[| | | | |s|l|]|]; try (split; [discriminate|intros H; destruct (H HN) as [G|(y & G & _)]; discriminate G]).
      * rewrite beq_eq. split; [intros -> _; now left|intros H; destruct (H HN) as [G|(y & G & _)]; [now injection G|discriminate G]].
      * rewrite existsb_exists. split.
        -- intros (j & Hj & E) _. right. exists l. split; [reflexivity|]. destruct j; try discriminate E. apply beq_eq in E. now subst.
        -- intros H. destruct (H HN) as [G|(y & G & HY)]; [discriminate G|]. injection G as <-. exists (JStr (ao_audience o)). split; [exact HY|apply beq_refl].
    + split; [intros _ HN; apply HA in HN; discriminate HN|reflexivity].
Qed.
(** the parser yields 64-bit numbers *)
Definition SixtyFour : Prop := forall t p k j, parse t = Some (JObj p) -> lookup k p = Some j -> Ranged j.
Theorem c141_unsigned o now token u : Configured o -> SixtyFour -> ao_signed o = false ->
  (verify_token parse dump jwt_verify jwt_decode o now token = Some u <->
   exists t p, jwt_decode token = Some t /\ parse t = Some (JObj p) /\ Acceptable o now p /\ Describes parse dump p u).
Proof.
  intros HC H64 HS. unfold verify_token. rewrite HS. split.
  - destruct (jwt_decode token) as [t|] eqn:E; [|discriminate]. destruct (parse t) as [[| | | | | | |p]|] eqn:EP; try discriminate.
    destruct (not_expired o now p && active o now p && issued o p && addressed o p) eqn:EA; [|discriminate]. intros H. exists t, p. split; [reflexivity|]. split; [exact EP|].
    split; [apply acceptable_iff; [exact HC|intros k j; now apply (H64 t p)|exact EA]|now apply c142_user].
  - intros (t & p & -> & EP & HA & HD). rewrite EP. apply acceptable_iff in HA; [|exact HC|intros k j; now apply (H64 t p)]. rewrite HA. now apply c142_user.
Qed.
Theorem proves_iff o now token u : Configured o -> SixtyFour -> (verify_token parse dump jwt_verify jwt_decode o now token = Some u <-> Proves parse dump jwt_verify jwt_decode o now token u).
Proof.
  intros HC H64. unfold Proves. destruct (ao_signed o) eqn:E.
  - rewrite (c140_signed o now token u HC E). split; [intros H; left; split; [reflexivity|exact H]|intros [[_ H]|[H _]]; [exact H|discriminate H]].
  - rewrite (c141_unsigned o now token u HC H64 E). split; [intros H; right; split; [reflexivity|exact H]|intros [[H _]|[_ H]]; [discriminate H|exact H]].
Qed.
(** Two things an unsigned token can do: leave the expiry out, and name one too far away. *)
Theorem c141_no_exp_refuted : ~ (forall o now p, Configured o -> ao_exp o = true -> Acceptable o now p -> exists j, Claim "exp" p j).
Proof.
  intros H. destruct (H default_options 1000%Z [(str "sub", JStr (str "a"))]) as (j & Hj); [now exists []|reflexivity| |discriminate Hj].
  split; [intros _ j Hj; discriminate Hj|]. split; [intros _ j Hj; discriminate Hj|]. split; intros HN; now destruct HN.
Qed.
Theorem c141_far_exp_refuted : ~ (forall o now p n, Configured o -> Claim "exp" p (JUint n) -> (now <= Z.of_N n)%Z -> n < 2 ^ 64 -> ao_skew o = 0%Z -> ao_nbf o = false -> ao_issuer o = [] -> ao_audience o = [] -> Acceptable o now p).
Proof.
  intros H. destruct (H (configure [SVerifyNbf false]) 0%Z [(str "exp", JUint (2 ^ 63))] (2 ^ 63)) as (HE & _); [now exists [SVerifyNbf false]|reflexivity|lia|reflexivity|reflexivity|reflexivity|reflexivity|reflexivity|].
  destruct (HE eq_refl (JUint (2 ^ 63)) eq_refl) as (z & Hz & HL). inversion Hz; subst; cbn in *; lia.
Qed.

(** ** C143: tokens handed out *)
(** What a token says about the user: under each name at most one text. *)
Definition Says (o : options) (u : user) (now now' : N) (p : list (list N * list N)) : Prop :=
  lookup (str "sub") p = Some (u_id u) /\ lookup (str "username") p = Some (u_name u) /\
  (exists t, dump (JUint now) = Some t /\ lookup (str "iat") p = Some t) /\
  (if ao_exp o then exists t, dump (JUint (Z.to_N ((Z.of_N now' + ao_expiration o) mod 2 ^ 64))) = Some t /\ lookup (str "exp") p = Some t else lookup (str "exp") p = None) /\
  lookup (str "iss") p = demanded (ao_issuer o) /\ lookup (str "aud") p = demanded (ao_audience o) /\
  (exists t, dump (JArr (map JStr (u_roles u))) = Some t /\ lookup (str "roles") p = Some t) /\
  (u_meta u = [] -> lookup (str "metadata") p = None) /\
  (u_meta u <> [] -> exists t, dump (JObj (map (fun e => (fst e, JStr (snd e))) (u_meta u))) = Some t /\ lookup (str "metadata") p = Some t) /\
  forall k x, lookup k p = Some x -> In k (map str ["sub"; "iat"; "exp"; "iss"; "aud"; "username"; "roles"; "metadata"]%string).
Lemma texts_lookup : forall p l, texts dump p = Some l -> forall k, lookup k l = match lookup k p with Some j => (match j with JStr s => Some s | _ => dump j end) | None => None end /\ (forall j, lookup k p = Some j -> exists t, (match j with JStr s => Some s | _ => dump j end) = Some t).
Proof.
  induction p as [|[n j] p IH]; intros l H k; cbn [texts] in H; [injection H as <-; split; [reflexivity|discriminate]|].
  destruct (match j with JStr s => Some s | _ => dump j end) as [t|] eqn:E; [|discriminate H]. destruct (texts dump p) as [l'|]; [|discriminate H]. injection H as <-.
  unfold lookup. cbn [find fst]. destruct (beq n k) eqn:EB; cbn [snd].
  - split; [now rewrite E|]. intros x Hx. injection Hx as <-. now exists t.
  - exact (IH l' eq_refl k).
Qed.
Theorem c143_generated o u now now' token : Configured o -> generate_token dump jwt_create o u now now' = Some token ->
  exists p a key, token = jwt_create p a key /\ (exists n, In (n, ao_alg o, a) algorithms) /\
    (Symmetric (ao_alg o) -> key = ao_secret o) /\ (~ Symmetric (ao_alg o) -> key = ao_private o) /\ Says o u now now' p.
Proof.
  intros HC H. unfold generate_token in H. destruct (texts dump (create_payload o u now now')) as [p|] eqn:E; [|discriminate H]. injection H as <-.
  eexists p, _, _. split; [reflexivity|]. split; [now apply alg_iff|]. split; [intros HS; apply hmac_iff in HS; now rewrite HS|].
  split; [intros HS; destruct (is_hmac (jwt_algorithm (ao_alg o))) eqn:EH; [now apply hmac_iff in EH|reflexivity]|].
  pose proof (texts_lookup _ _ E) as HL. destruct (demanded_iss o HC) as [HI HA]. unfold Says. rewrite <- HI, <- HA. clear HI HA HC E.
  destruct o as [sk pu pr al ex sw is au hd sc sg ve vn vi va]. cbn [ao_exp ao_iss ao_aud ao_issuer ao_audience ao_expiration] in *. unfold create_payload in HL. cbn [ao_exp ao_iss ao_aud ao_issuer ao_audience ao_expiration] in HL.
  change (2 ^ 64)%Z with 18446744073709551616%Z. set (e := JUint (Z.to_N ((Z.of_N now' + ex) mod 18446744073709551616))) in *.
  pose proof (HL (str "sub")) as [L1 _]. pose proof (HL (str "username")) as [L2 _]. pose proof (HL (str "iat")) as [L3 D3]. pose proof (HL (str "exp")) as [L4 D4].
  pose proof (HL (str "iss")) as [L5 _]. pose proof (HL (str "aud")) as [L6 _]. pose proof (HL (str "roles")) as [L7 D7]. pose proof (HL (str "metadata")) as [L8 D8].
  destruct u as [id nm rs me]. cbn [u_id u_name u_roles u_meta] in *.
  assert (HKS : forall k x, lookup k p = Some x -> In k (map str ["sub"; "iat"; "exp"; "iss"; "aud"; "username"; "roles"; "metadata"]%string)).
  { intros k x Hx. destruct (HL k) as [LK _]. rewrite Hx in LK. clear - LK. unfold lookup in LK.
    match type of LK with context [find ?f ?l] => destruct (find f l) as [[n j]|] eqn:EF; [|discriminate LK]; apply find_some in EF as [EI EB] end.
    cbn [fst] in EB. apply beq_eq in EB. subst n. cbn [map In]. rewrite !in_app_iff in EI.
    destruct ve, vi, va, me; cbn [In] in EI; intuition (try congruence; match goal with H : (_, _) = (_, _) |- _ => injection H as <- <- end; tauto). }
  destruct ve, vi, va, me as [|m0 me]; cbn in L1, L2, L3, L4, L5, L6, L7, L8, D3, D4, D7, D8;
  (split; [exact L1|]; split; [exact L2|]; split; [destruct (D3 _ eq_refl) as (t & Ht); exists t; split; [exact Ht|exact (eq_trans L3 Ht)]|];
   split; [first [exact L4 | destruct (D4 _ eq_refl) as (t & Ht); exists t; split; [exact Ht|exact (eq_trans L4 Ht)]]|]; split; [exact L5|]; split; [exact L6|];
   split; [destruct (D7 _ eq_refl) as (t & Ht); exists t; split; [exact Ht|exact (eq_trans L7 Ht)]|];
   split; [first [intros _; exact L8 | discriminate]|]; split; [first [intros HN; now destruct HN | intros _; destruct (D8 _ eq_refl) as (t & Ht); exists t; split; [exact Ht|exact (eq_trans L8 Ht)]]|exact HKS]).
Qed.
(** A library that gives back what it was given. *)
Definition Intact (now : Z) (o : options) (token : list N) (p : list (list N * list N)) : Prop :=
  exists p', jwt_verify now (verify_options o) token = Valid p' /\ forall k, lookup k p' = lookup k p.
Lemma lookup_reread k p : lookup k (reread parse p) = match lookup k p with Some s => Some (match parse s with Some j => j | None => JStr s end) | None => None end.
Proof. unfold lookup, reread. induction p as [|[n s] p IH]; [reflexivity|]. cbn [map find fst snd]. destruct (beq n k); [reflexivity|exact IH]. Qed.
(** not the text of a JSON value *)
Definition Plain (s : list N) : Prop := parse s = None.
Definition Readable : Prop := forall j t, dump j = Some t -> parse t = Some j.
Lemma strings_leading rs : leading_roles (map JStr rs) = rs.
Proof. induction rs as [|r rs IH]; [reflexivity|]. cbn [map leading_roles]. now f_equal. Qed.
Lemma strings_meta m : leading_meta dump (map (fun e : list N * list N => (fst e, JStr (snd e))) m) = m.
Proof. induction m as [|[k v] m IH]; [reflexivity|]. cbn [map leading_meta fst snd]. now f_equal. Qed.
Theorem c143_roundtrip o u now now' later token : Configured o -> ao_signed o = true -> Readable ->
  generate_token dump jwt_create o u now now' = Some token ->
  (forall p, Says o u now now' p -> (exists a key, token = jwt_create p a key) -> Intact later o token p) ->
  Identified u -> Plain (u_id u) -> Plain (u_name u) ->
  verify_token parse dump jwt_verify jwt_decode o later token = Some u.
Proof.
  intros HC HS HR HG HI HU P1 P2. destruct (c143_generated o u now now' token HC HG) as (p & a & key & ET & _ & _ & _ & HSay).
  destruct (HI p HSay (ex_intro _ a (ex_intro _ key ET))) as (p' & HV & HL). unfold verify_token. rewrite HS, HV.
  destruct HSay as (S1 & S2 & _ & _ & _ & _ & (t & Ht & S7) & S8 & S9 & _). unfold read_user, text_claim. rewrite !lookup_reread, !HL, S1, S2, S7, P1, P2, (HR _ _ Ht). cbn [opened]. rewrite strings_leading.
  destruct u as [id nm rs me]. cbn [u_id u_name u_roles u_meta] in *. unfold Identified in HU. cbn [u_id u_name] in HU.
  destruct (empty id && empty nm) eqn:EE; [apply nobody in EE as [-> ->]; destruct HU as [HU|HU]; now destruct HU|]. do 2 f_equal.
  destruct me as [|m0 me]; [now rewrite (S8 eq_refl)|]. destruct S9 as (x & Hx & ->); [discriminate|]. rewrite (HR _ _ Hx). cbn [opened]. apply strings_meta.
Qed.
(** A user known by a number, true, false or null alone gets a token nobody accepts. *)
Theorem c143_numeric_refused o u now now' later token j : Configured o -> ao_signed o = true ->
  generate_token dump jwt_create o u now now' = Some token ->
  (forall p, Says o u now now' p -> (exists a key, token = jwt_create p a key) -> Intact later o token p) ->
  parse (u_id u) = Some j -> (forall s, j <> JStr s) -> u_name u = [] -> parse [] = None ->
  verify_token parse dump jwt_verify jwt_decode o later token = None.
Proof.
  intros HC HS HG HI E1 HJ E2 E0. destruct (c143_generated o u now now' token HC HG) as (p & a & key & ET & _ & _ & _ & HSay).
  destruct (HI p HSay (ex_intro _ a (ex_intro _ key ET))) as (p' & HV & HL). unfold verify_token. rewrite HS, HV.
  destruct HSay as (S1 & S2 & _). unfold read_user, text_claim. rewrite !lookup_reread, !HL, S1, S2, E1, E2, E0.
  destruct j as [| | | | |s| |]; try reflexivity. now destruct (HJ s).
Qed.
End Json.
