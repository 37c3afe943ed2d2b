From Verif Require Import Base UtilModel UtilSpec UtilProofs Http1Model Http1Spec Http1Proofs RecvModel RecvInv CookieModel CorsSpec CorsModel ValJson SanModel SanSpec SanProps ReqModel ReqSpec ReqProps WsSession HeaderOps HdrProps AuthModel AuthSpec AuthProps AuthProps2 AuthProps3 AuthProps4.
From Coq Require Import SpecFloat.
Local Open Scope N_scope.

(** ** C147: where the JWT middleware finds the token *)
Lemma lower_map s : bytes_ok s -> map ascii_to_lower s = map lower s.
Proof. intros H. apply map_ext_in. intros c Hc. apply ascii_to_lower_spec. unfold bytes_ok in H. rewrite Forall_forall in H. now apply H. Qed.
Definition GoodJwt (o : jwt_options) : Prop := bytes_ok (jo_name o) /\ bytes_ok (jo_scheme o) /\ (forall c r, jo_scheme o = c :: r -> ~ Blank c).
Lemma in_header_iff o h : bytes_ok h -> bytes_ok (jo_scheme o) -> (forall c r, jo_scheme o = c :: r -> ~ Blank c) -> forall t,
  token_in_header o h = Some t <->
  match jo_scheme o with
  | [] => Solid Blank t /\ exists a b, h = a ++ t ++ b /\ Forall Blank a /\ Forall Blank b
  | sch => Credentials Blank (fun w => exists r, w = 32 :: r) sch h t
  end.
Proof.
  intros HB HBS Hsc t. unfold token_in_header. destruct (jo_scheme o) as [|c0 sch0] eqn:Esc.
  - destruct (strip jwt_space h) as [|x v] eqn:EV.
    + split; [discriminate|]. intros (HS & HX). apply (strip_iff jwt_space Blank) in HX; [|apply blank_class|exact HS]. rewrite EV in HX. subst t. destruct HS as ((c & r & H & _) & _). discriminate H.
    + split.
      * intros H. injection H as <-. assert (HS : Solid Blank (x :: v)) by (rewrite <- EV; apply strip_solid; [apply blank_class|rewrite EV; discriminate]). split; [exact HS|]. apply (strip_iff jwt_space Blank); [apply blank_class|exact HS|exact EV].
      * intros (HS & HX). apply (strip_iff jwt_space Blank) in HX; [|apply blank_class|exact HS]. congruence.
  - rewrite <- Esc in *. set (sch := jo_scheme o) in *. specialize (Hsc c0 sch0 Esc).
    assert (HLs : (1 <= length sch)%nat) by (rewrite Esc; cbn; lia).
    assert (EQ : (match strip jwt_space h with [] => None | x :: v' => let v := x :: v' in
        if (length sch <? length v)%nat && beq (map ascii_to_lower sch) (map ascii_to_lower (firstn (length sch) v)) then if negb (nth (length sch) v 0 =? 32) then None else match drop_if jwt_space (skipn (length sch) v) with [] => None | t => Some t end else None end) = Some t <->
      Credentials Blank (fun w => exists r, w = 32 :: r) sch h t).
    2: { rewrite Esc in EQ |- *. exact EQ. }
    destruct (strip jwt_space h) as [|x v'] eqn:EV.
    + split; [discriminate|]. intros (a & s & w & b & E & Ha & Hs & (r & ->) & Hw & Hb & HS).
      assert (HX : Solid Blank (s ++ (32 :: r) ++ t)).
      { rewrite Esc in Hs. destruct (same_head Blank lower_blank s c0 sch0 Hs Hsc) as (y & z & -> & Hy). split; [eexists y, _; split; [reflexivity|exact Hy]|].
        destruct HS as (_ & (e & q & -> & He)). exists e, ((y :: z) ++ (32 :: r) ++ q). split; [now rewrite <- !app_assoc|exact He]. }
      assert (EV' : strip jwt_space h = s ++ (32 :: r) ++ t) by (apply (strip_iff jwt_space Blank); [apply blank_class|exact HX|]; exists a, b; split; [rewrite E; now rewrite <- !app_assoc|now split]).
      rewrite EV in EV'. symmetry in EV'. apply app_eq_nil in EV' as [_ H]. discriminate H.
    + cbv zeta. rewrite <- EV. set (v := strip jwt_space h) in *.
      assert (HSv : Solid Blank v) by (apply strip_solid; [apply blank_class|fold v; rewrite EV; discriminate]).
      assert (HV : exists a b, h = a ++ v ++ b /\ Forall Blank a /\ Forall Blank b) by (apply (strip_iff jwt_space Blank); [apply blank_class|exact HSv|reflexivity]).
      destruct HV as (a0 & b0 & Eh & Ha0 & Hb0). assert (HBv : bytes_ok v) by (rewrite Eh in HB; apply bytes_app in HB as [_ HB]; now apply bytes_app in HB as [HB _]).
      split.
      * destruct ((length sch <? length v)%nat && beq (map ascii_to_lower sch) (map ascii_to_lower (firstn (length sch) v))) eqn:E1; [|discriminate]. apply andb_true_iff in E1 as [E1 E2]. apply Nat.ltb_lt in E1.
        destruct (nth (length sch) v 0 =? 32) eqn:E3; cbn [negb]; [|discriminate]. apply N.eqb_eq in E3. intros H.
        assert (HD : drop_if jwt_space (skipn (length sch) v) = t) by (destruct (drop_if jwt_space (skipn (length sch) v)); [discriminate H|now injection H as <-]).
        assert (HN : t <> []) by (destruct (drop_if jwt_space (skipn (length sch) v)); [discriminate H|injection H as <-; discriminate]). clear H.
        destruct (drop_if_spec jwt_space (skipn (length sch) v)) as (w & Ew & Hw & Ht). rewrite HD in Ew, Ht.
        assert (HBf : bytes_ok (firstn (length sch) v)) by (rewrite <- (firstn_skipn (length sch) v) in HBv; now apply bytes_app in HBv as [HBv _]).
        apply beq_eq in E2. rewrite !lower_map in E2 by assumption.
        assert (E3' : exists r, skipn (length sch) v = 32 :: r).
        { destruct (skipn (length sch) v) as [|z r] eqn:ES; [apply (f_equal (@length N)) in ES; rewrite skipn_length in ES; cbn in ES; lia|]. exists r. f_equal.
          rewrite <- (firstn_skipn (length sch) v), app_nth2, firstn_length_le, Nat.sub_diag, ES in E3 by (rewrite ?firstn_length_le; lia). exact E3. }
        destruct E3' as (r & Er). assert (Hwr : exists r', w = 32 :: r').
        { destruct w as [|w0 w]; [|rewrite Er in Ew; cbn [app] in Ew; injection Ew as <- _; now exists w]. cbn [app] in Ew. rewrite <- Ew, Er in Ht. specialize (Ht 32 r eq_refl). discriminate Ht. }
        exists a0, (firstn (length sch) v), w, b0. split; [rewrite Eh, <- (firstn_skipn (length sch) v) at 1; rewrite Ew, <- !app_assoc; reflexivity|].
        split; [exact Ha0|]. split; [symmetry; exact E2|]. split; [exact Hwr|]. split; [now apply (class_all jwt_space Blank); [apply blank_class|]|]. split; [exact Hb0|].
        split.
        -- destruct t as [|z t']; [congruence|]. exists z, t'. split; [reflexivity|]. apply (class_no jwt_space Blank); [apply blank_class|]. exact (Ht z t' eq_refl).
        -- destruct HSv as (_ & (e & q & Ee & He)). destruct (exists_last HN) as (q' & e' & ->). exists e', q'. split; [reflexivity|].
           rewrite <- (firstn_skipn (length sch) v), Ew in Ee. rewrite !app_assoc in Ee. apply app_inj_tail in Ee as [_ ->]. exact He.
      * intros (a & s & w & b & E & Ha & Hs & (r & ->) & Hw & Hb & HS).
        assert (HX : Solid Blank (s ++ (32 :: r) ++ t)).
        { rewrite Esc in Hs. destruct (same_head Blank lower_blank s c0 sch0 Hs Hsc) as (y & z & -> & Hy). split; [eexists y, _; split; [reflexivity|exact Hy]|].
          destruct HS as (_ & (e & q & -> & He)). exists e, ((y :: z) ++ (32 :: r) ++ q). split; [now rewrite <- !app_assoc|exact He]. }
        assert (EV' : v = s ++ (32 :: r) ++ t) by (apply (strip_iff jwt_space Blank); [apply blank_class|exact HX|]; exists a, b; split; [rewrite E; now rewrite <- !app_assoc|now split]).
        assert (EL : length sch = length s) by (symmetry; now apply same_length).
        assert (E1 : (length sch <? length v)%nat = true) by (apply Nat.ltb_lt; rewrite EV', !app_length; cbn [length app]; lia).
        assert (E2 : firstn (length sch) v = s) by (rewrite EL, EV', firstn_app, Nat.sub_diag, firstn_all, firstn_O; now rewrite app_nil_r).
        assert (E4 : skipn (length sch) v = (32 :: r) ++ t) by (rewrite EL, EV', skipn_app, skipn_all, Nat.sub_diag; reflexivity).
        assert (E3 : nth (length sch) v 0 = 32) by (rewrite EL, EV', app_nth2, Nat.sub_diag by lia; reflexivity).
        assert (HBs : bytes_ok s) by (rewrite EV' in HBv; now apply bytes_app in HBv as [HBv _]).
        rewrite E1, E2, E3, E4, !lower_map by assumption. unfold Same in Hs. rewrite Hs, beq_refl. cbn [andb N.eqb Pos.eqb negb].
        rewrite drop_if_app; [destruct t as [|t0 t]; [destruct HS as ((q1 & q2 & HH & _) & _); discriminate HH|reflexivity]|now apply (class_all jwt_space Blank); [apply blank_class|]|].
        intros z q Hz. destruct HS as ((q1 & q2 & -> & HH) & _). injection Hz as <- _. now apply (class_no jwt_space Blank); [apply blank_class|].
Qed.
Theorem c147_token o c t : GoodJwt o -> GoodContext c -> (extract_token o c = Some t <-> Found o c t).
Proof.
  intros (HBN & HBS & Hsc) (HM & HQ & _). unfold extract_token, Found. destruct (jo_location o).
  - rewrite first_values by assumption. apply in_header_iff; [|exact HBS|exact Hsc].
    pose proof (values_bytes (jo_name o) (c_headers c) HM) as HV. destruct (values_of _ _) as [|v vs]; [apply Forall_nil|now inversion HV].
  - destruct (jar_get (c_cookies c) (jo_name o)) as [k|].
    + destruct (ck_value k) as [|x v] eqn:E; [split; [discriminate|intros (HN & k' & H & Hk); injection H as <-; congruence]|].
      split; [intros H; injection H as <-; split; [discriminate|now exists k]|intros (_ & k' & H & Hk); injection H as <-; congruence].
    + split; [discriminate|intros (_ & k & H & _); discriminate H].
  - rewrite first_values by assumption. destruct (hd [] (values_of (jo_name o) (fields_of (c_queries c)))) as [|x v].
    + split; [discriminate|intros [HN H]; congruence].
    + split; [intros H; injection H as <-; split; [discriminate|reflexivity]|intros [_ <-]; reflexivity].
Qed.

Section Json.
Variable dump : json -> option (list N).
Variable jwt_verify : Z -> vopts -> list N -> validation.
Variable to_long : list N -> option Z.
Variable to_double : list N -> option spec_float.
Variable dump_error : list N -> list N.
Variable algorithm_named : list N -> option jalg.
(** ** C149: the claims as the middleware hands them on *)
Lemma shape_iff s : number_shape s = true <-> NumberShape s.
Proof.
  unfold number_shape, NumberShape. destruct s as [|c r]; [split; [discriminate|intros ((c & r & H & _) & _); discriminate H]|]. rewrite andb_true_iff, forallb_forall, Forall_forall. split.
  - intros [H1 H2]. split; [exists c, r; split; [reflexivity|lia]|]. intros x Hx. specialize (H2 x Hx). change (In x (str "-+.eE")) with (45 = x \/ 43 = x \/ 46 = x \/ 101 = x \/ 69 = x \/ False). lia.
  - intros ((c' & r' & E & H1) & H2). injection E as <- <-. split; [lia|]. intros x Hx. specialize (H2 x Hx). change (In x (str "-+.eE")) with (45 = x \/ 43 = x \/ 46 = x \/ 101 = x \/ 69 = x \/ False) in H2. lia.
Qed.
Lemma typed_iff s j : coerce to_long to_double s = j <-> Typed to_long to_double s j.
Proof.
  unfold coerce. assert (HB : forall x, beq s (str x) = true <-> s = str x) by (intros x; apply beq_eq).
  assert (HTF : str "true" <> str "false") by discriminate.
  destruct (beq s (str "true")) eqn:E1.
  { apply beq_eq in E1. split; [intros <-; now apply typed_true|]. intros H. inversion H; subst; try congruence. }
  apply beq_neq in E1. destruct (beq s (str "false")) eqn:E2.
  { apply beq_eq in E2. split; [intros <-; now apply typed_false|]. intros H. inversion H; subst; try congruence. }
  apply beq_neq in E2. destruct (to_long s) as [z|] eqn:EL.
  { split; [intros <-; now apply typed_int|]. intros H. inversion H; subst; congruence. }
  destruct (number_shape s) eqn:ES.
  2: { assert (HN : ~ NumberShape s) by (intros H; apply shape_iff in H; congruence). split; [intros <-; apply typed_text; try assumption; intros H; now destruct HN|]. intros H. inversion H; subst; try congruence; try (now destruct HN). }
  apply shape_iff in ES. destruct (to_double s) as [d|] eqn:ED.
  2: { split; [intros <-; apply typed_text; try assumption; intros _ d Hd; congruence|]. intros H. inversion H; subst; congruence. }
  destruct (finite d) eqn:EF.
  - split; [intros <-; now apply typed_real|]. intros H. inversion H as [| | | |? ? ? HH]; subst; try congruence. specialize (HH ES d ED). congruence.
  - split; [intros <-; apply typed_text; try assumption; intros _ x Hx; congruence|]. intros H. inversion H; subst; congruence.
Qed.
Lemma typed_all : forall l p, map (fun e : list N * list N => (fst e, coerce to_long to_double (snd e))) l = p <-> Forall2 (fun (e : list N * list N) (x : list N * json) => fst e = fst x /\ Typed to_long to_double (snd e) (snd x)) l p.
Proof.
  induction l as [|[k s] l IH]; intros p; cbn [map].
  - split; [intros <-; apply Forall2_nil|now inversion 1].
  - split.
    + intros <-. apply Forall2_cons; [split; [reflexivity|now apply typed_iff]|now apply IH].
    + intros H. inversion H as [|? [n j] ? p' [E T] HT]; subst. apply IH in HT. apply typed_iff in T. cbn [fst snd] in *. congruence.
Qed.
Lemma jwt_asks_iff o q : (exists a, algorithm_named (jo_algorithm o) = Some a /\ q = jwt_verify_options o a) <-> JwtAsks algorithm_named o q.
Proof.
  unfold JwtAsks, jwt_verify_options. split.
  - intros (a & EA & ->). cbn [vo_alg vo_key vo_exp vo_nbf vo_skew vo_issuer vo_audience vo_subject]. repeat (split; [first [exact EA|reflexivity|now destruct (jo_iss o)|now destruct (jo_aud o)]|]). now destruct (jo_sub o).
  - destruct q as [a k e n s i u b]. cbn [vo_alg vo_key vo_exp vo_nbf vo_skew vo_issuer vo_audience vo_subject]. intros (HA & -> & -> & -> & -> & HI & HU & HB). exists a. split; [exact HA|].
    destruct (jo_iss o), (jo_aud o), (jo_sub o); congruence.
Qed.
Lemma moment_iff j z : (forall n, j <> JUint n) -> (int64_claim to_long j = Some z <-> Moment to_long j z).
Proof.
  intros HN. unfold int64_claim. destruct j as [| |y|n|d|s| |].
  1,2,7,8: split; [discriminate|intros H; inversion H].
  - split; [intros H; injection H as <-; constructor|intros H; inversion H; reflexivity].
  - now destruct (HN n).
  - change (-9223372036854775808)%Z with (-2 ^ 63)%Z. change 9223372036854775808%Z with (2 ^ 63)%Z. destruct (finite d) eqn:E1; cbn [andb]; [|split; [discriminate|intros H; inversion H; congruence]].
    destruct (SFleb (double_of (-2 ^ 63)) d) eqn:E2; cbn [andb]; [|split; [discriminate|intros H; inversion H; congruence]].
    destruct (SFltb d (double_of (2 ^ 63))) eqn:E3; [|split; [discriminate|intros H; inversion H; congruence]].
    split; [intros H; injection H as <-; now constructor|intros H; inversion H; reflexivity].
  - split; [intros H; now constructor|intros H; inversion H; assumption].
Qed.
Lemma coerce_uint s n : coerce to_long to_double s <> JUint n.
Proof. unfold coerce. destruct (beq _ _); [discriminate|]. destruct (beq _ _); [discriminate|]. destruct (to_long s); [discriminate|]. destruct (number_shape s); [|discriminate]. destruct (to_double s) as [d|]; [|discriminate]. destruct (finite d); discriminate. Qed.
Notation check := (jwt_verify_token jwt_verify to_long to_double algorithm_named).
Theorem c149_payload o now token p : check o now token = inr p <-> Passes jwt_verify to_long to_double algorithm_named o now token p.
Proof.
  unfold jwt_verify_token, Passes, Claim.
  assert (HX : forall l p, 
     p = map (fun e : list N * list N => (fst e, coerce to_long to_double (snd e))) l ->
     ((if jo_iat o then match lookup (str "iat") p with
            | Some j => match int64_claim to_long j with
                        | None => inl (mkEI INVALID_CLAIM (str "Invalid 'iat' claim format."))
                        | Some z => if (z >? now + jo_leeway o)%Z then inl (mkEI NOT_ACTIVE (str "Token issued in the future (invalid 'iat').")) else inr p
                        end
            | None => inr p
            end else inr p) = inr p <-> (jo_iat o = true -> forall j, lookup (str "iat") p = Some j -> exists z, Moment to_long j z /\ (z <= now + jo_leeway o)%Z))).
  { intros l p0 Ep. destruct (jo_iat o); [|split; [discriminate|reflexivity]]. destruct (lookup (str "iat") p0) as [j|] eqn:EL; [|split; [discriminate|reflexivity]].
    assert (HN : forall n, j <> JUint n).
    { intros n ->. unfold lookup in EL. destruct (find _ p0) as [[k x]|] eqn:EF; [|discriminate EL]. injection EL as ->. apply find_some in EF as [HI _]. rewrite Ep in HI. apply in_map_iff in HI as ([k' s] & HE & _). cbn [fst snd] in HE. injection HE as _ HE. now apply coerce_uint in HE. }
    destruct (int64_claim to_long j) as [z|] eqn:EI.
    - apply moment_iff in EI; [|exact HN]. destruct (Z.gtb_spec z (now + jo_leeway o)) as [HG|HG].
      + split; [discriminate|]. intros H. destruct (H eq_refl j eq_refl) as (z' & Hz & HL). apply moment_iff in Hz, EI; [|exact HN|exact HN]. assert (z' = z) by congruence. lia.
      + split; [|reflexivity]. intros _ _ x Hx. injection Hx as <-. exists z. split; [exact EI|lia].
    - split; [discriminate|]. intros H. destruct (H eq_refl j eq_refl) as (z' & Hz & HL). apply moment_iff in Hz; [|exact HN]. congruence. }
  split.
  - destruct (algorithm_named (jo_algorithm o)) as [a|] eqn:EA; [|discriminate]. destruct (jwt_verify now (jwt_verify_options o a) token) as [l|e] eqn:EV; [|discriminate]. intros H.
    set (p0 := map (fun e : list N * list N => (fst e, coerce to_long to_double (snd e))) l) in *.
    assert (Ep : p0 = p).
    { destruct (jo_iat o); [|now injection H]. destruct (lookup (str "iat") p0) as [j|]; [|now injection H]. destruct (int64_claim to_long j) as [z|]; [|discriminate H]. destruct (z >? now + jo_leeway o)%Z; [discriminate H|now injection H]. }
    exists (jwt_verify_options o a), l. split; [apply jwt_asks_iff; exists a; now split|]. split; [exact EV|]. split; [now apply typed_all|]. apply (HX l p); [now symmetry|]. rewrite Ep in H. exact H.
  - intros (q & l & HQ & EV & HT & HI). apply jwt_asks_iff in HQ as (a & EA & ->). rewrite EA, EV. apply typed_all in HT. rewrite HT. apply (HX l p); [now symmetry|exact HI].
Qed.
(** ** C148: who gets past the JWT middleware *)
Notation run := (jwt_process dump jwt_verify to_long to_double dump_error algorithm_named).
Notation Clear := (Cleared jwt_verify to_long to_double algorithm_named).
Lemma missing_iff l p : missing_claim l p = None <-> forall k, In k l -> exists j, lookup k p = Some j.
Proof.
  unfold missing_claim. split.
  - intros H k Hk. pose proof (find_none _ _ H k Hk) as HF. cbv beta in HF. destruct (lookup k p) as [j|]; [now exists j|discriminate HF].
  - intros H. destruct (find _ l) as [k|] eqn:E; [|reflexivity]. apply find_some in E as [HI HE]. destruct (H k HI) as (j & Hj). rewrite Hj in HE. discriminate HE.
Qed.
Lemma cleared_iff m now c p : GoodJwt (jm_options m) -> GoodContext c ->
  (Clear m now c p <-> exists t, extract_token (jm_options m) c = Some t /\ check (jm_options m) now t = inr p /\ missing_claim (jm_required m) p = None /\ match jm_validator m with Some f => f (JObj p) | None => VAccepts end = VAccepts).
Proof.
  intros HG HC. unfold Cleared. split.
  - intros ((t & HF & HP) & HR & HV). exists t. split; [now apply c147_token|]. split; [now apply c149_payload|]. split; [now apply missing_iff|]. destruct (jm_validator m) as [f|]; [now apply HV|reflexivity].
  - intros (t & HF & HP & HR & HV). split; [exists t; split; [now apply c147_token|now apply c149_payload]|]. split; [now apply missing_iff|]. intros f Hf. now rewrite Hf in HV.
Qed.
(** A token that passes: the claims are in the context and the request goes on; if the success handler throws it ends with status 500. *)
Theorem c148_passes m now c p : GoodJwt (jm_options m) -> GoodContext c -> Clear m now c p ->
  exists c1 c', Stored (str "jwt_payload") (AnyJson (JObj p)) c c1 /\
    match jm_success m with
    | None => run m now c = (Continues, c') /\ c' = c1
    | Some f => let (r, threw) := f (JObj p) (c_response c) in
                if threw : bool then run m now c = (Fails, c') /\ (HeaderMap (r_headers r) -> Replied 500 "text/plain; charset=utf-8" (str "Error in JWT success handler.") (with_response r c1) c')
                else run m now c = (Continues, c') /\ c' = with_response r c1
    end.
Proof.
  intros HG HC HL. apply cleared_iff in HL as (t & E1 & E2 & E3 & E4); [|exact HG|exact HC]. set (c1 := with_data (put (str "jwt_payload") (AnyJson (JObj p)) (c_data c)) c).
  assert (ER : run m now c = match jm_success m with None => (Continues, c1) | Some f => match f (JObj p) (c_response c1) with (r, false) => (Continues, with_response r c1) | (r, true) => (Fails, with_response (mkR 500 (set_value (str "Content-Type") (str "text/plain; charset=utf-8") (r_headers r)) (str "Error in JWT success handler.")) c1) end end).
  { unfold jwt_process. rewrite E1, E2, E3, E4. reflexivity. }
  rewrite ER. change (c_response c1) with (c_response c). destruct (jm_success m) as [f|].
  - destruct (f (JObj p) (c_response c)) as [r [|]].
    + eexists c1, _. split; [apply stored_put|]. split; [reflexivity|]. intros HM. exact (replied_set 500 "text/plain; charset=utf-8" (str "Error in JWT success handler.") (with_response r c1) HM).
    + eexists c1, _. split; [apply stored_put|]. now split.
  - exists c1, c1. split; [apply stored_put|]. now split.
Qed.
(** Anything else stops the request and leaves the context's data alone: the error handler decides, and without one the answer is 401. *)
Definition Stops (m : jwt_mw) (c : ctx) (code : jwt_error) (r : exit_ * ctx) : Prop :=
  exists e, ei_code e = code /\
            match jm_error m with
            | None => exists c', r = (Completes, c') /\ Refusal dump 401 "application/json" (ei_message e) c c'
            | Some h => match h e (c_response c) with
                        | HReturns x completed => r = (if completed : bool then HandlerDone else Completes, with_response x c)
                        | HThrows x => HeaderMap (r_headers x) -> exists c', r = (Completes, c') /\ Refusal dump 401 "application/json" (ei_message e) (with_response x c) c'
                        end
            end.
Definition AlwaysSpeaks : Prop := forall s, exists t, dump (JObj [(str "error", JStr s)]) = Some t.
Lemma handled m e c : AlwaysSpeaks -> GoodContext c -> Stops m c (ei_code e) (handle_error dump m e c).
Proof.
  intros HA (_ & _ & HM). exists e. split; [reflexivity|]. unfold handle_error. destruct (HA (ei_message e)) as (t & Ht).
  assert (HU : forall x, HeaderMap (r_headers (c_response x)) -> exists c', unauthorized dump e x = (Completes, c') /\ Refusal dump 401 "application/json" (ei_message e) x c').
  { intros x HX. unfold unauthorized. rewrite Ht. eexists. split; [reflexivity|]. exists t. split; [exact Ht|now apply replied_set]. }
  destruct (jm_error m) as [h|]; [|now apply HU]. destruct (h e (c_response c)) as [x [|]|x]; try reflexivity. intros HX. apply HU. exact HX.
Qed.
Lemma handled_speaks m e c : AlwaysSpeaks -> fst (handle_error dump m e c) <> Escapes.
Proof.
  intros HA. unfold handle_error, unauthorized. destruct (HA (ei_message e)) as (t & Ht). rewrite Ht. destruct (jm_error m) as [h|]; [|discriminate]. destruct (h e (c_response c)) as [x [|]|x]; discriminate.
Qed.
Lemma rejected m e c : AlwaysSpeaks -> GoodContext c -> Stops m c (ei_code e) (reject dump dump_error m e c).
Proof.
  intros HA HC. unfold reject. pose proof (handled_speaks m e c HA) as HE. pose proof (handled m e c HA HC) as HH. destruct (handle_error dump m e c) as [[| | | |] c']; try exact HH. now destruct HE.
Qed.
Lemma check_error m now c t e : Found (jm_options m) c t -> check (jm_options m) now t = inl e -> Reason jwt_verify to_long to_double algorithm_named m now c (ei_code e).
Proof.
  intros HF. unfold jwt_verify_token. destruct (algorithm_named (jo_algorithm (jm_options m))) as [a|] eqn:EA; [|intros H; injection H as <-; now apply (no_algorithm _ _ _ _ m now c t)].
  assert (HQ : JwtAsks algorithm_named (jm_options m) (jwt_verify_options (jm_options m) a)) by (apply jwt_asks_iff; now exists a).
  destruct (jwt_verify now (jwt_verify_options (jm_options m) a) t) as [l|v] eqn:EV.
  2: { intros H. injection H as <-. apply (not_valid _ _ _ _ m now c t (jwt_verify_options (jm_options m) a) v); [exact HF|exact HQ|exact EV|]. unfold verdicts. cbn [In]. destruct v; cbn [error_of ei_code]; tauto. }
  set (p := map (fun e : list N * list N => (fst e, coerce to_long to_double (snd e))) l). assert (HT : map (fun e : list N * list N => (fst e, coerce to_long to_double (snd e))) l = p) by reflexivity. apply typed_all in HT.
  destruct (jo_iat (jm_options m)) eqn:EI; [|discriminate]. destruct (lookup (str "iat") p) as [j|] eqn:EL; [|discriminate].
  assert (HN : forall n, j <> JUint n).
  { intros n ->. unfold lookup in EL. destruct (find _ p) as [[k x]|] eqn:EF; [|discriminate EL]. injection EL as ->. apply find_some in EF as [HI _]. unfold p in HI. apply in_map_iff in HI as ([k' s] & HE & _). cbn [fst snd] in HE. injection HE as _ HE. now apply coerce_uint in HE. }
  destruct (int64_claim to_long j) as [z|] eqn:EM.
  - apply moment_iff in EM; [|exact HN]. destruct (Z.gtb_spec z (now + jo_leeway (jm_options m))) as [HG|HG]; [|discriminate]. intros H. injection H as <-. cbn [ei_code].
    apply (future_iat _ _ _ _ m now c t (jwt_verify_options (jm_options m) a) l p j z); assumption.
  - intros H. injection H as <-. cbn [ei_code]. apply (odd_iat _ _ _ _ m now c t (jwt_verify_options (jm_options m) a) l p j); try assumption. intros z Hz. apply moment_iff in Hz; [|exact HN]. congruence.
Qed.
Theorem c148_stops m now c : GoodJwt (jm_options m) -> GoodContext c -> AlwaysSpeaks -> (forall p, ~ Clear m now c p) ->
  exists code, Reason jwt_verify to_long to_double algorithm_named m now c code /\ Stops m c code (run m now c).
Proof.
  intros HG HC HA HN. unfold jwt_process. destruct (extract_token (jm_options m) c) as [t|] eqn:E1.
  2: { eexists. split; [|now apply handled]. apply no_token. intros t Ht. apply c147_token in Ht; [congruence|exact HG|exact HC]. }
  assert (HF : Found (jm_options m) c t) by now apply c147_token.
  destruct (check (jm_options m) now t) as [e|p] eqn:E2; [eexists; split; [now apply (check_error m now c t e)|now apply handled]|]. pose proof (proj1 (c149_payload _ _ _ _) E2) as HP.
  destruct (missing_claim (jm_required m) p) as [k|] eqn:E3.
  { eexists. split; [|now apply handled]. unfold missing_claim in E3. apply find_some in E3 as [HI HE]. apply (lacks_claim _ _ _ _ m now c t p k); try assumption. destruct (lookup k p); [discriminate HE|reflexivity]. }
  pose proof (proj1 (missing_iff _ _) E3) as HR.
  assert (HV : match jm_validator m with Some f => f (JObj p) | None => VAccepts end <> VAccepts) by (intros E4; apply (HN p); apply cleared_iff; [exact HG|exact HC|]; now exists t).
  destruct (jm_validator m) as [f|] eqn:EF; [|congruence].
  destruct (f (JObj p)) as [|[e|]|[w|]] eqn:E4; [congruence| | | |]; (eexists; split; [|first [now apply rejected|now apply handled]]); cbn [ei_code].
  - now apply (validator_says _ _ _ _ m now c t p f e).
  - apply (validator_fails _ _ _ _ m now c t p f); try assumption. now left.
  - apply (validator_fails _ _ _ _ m now c t p f); try assumption. right. now exists (Some w).
  - apply (validator_fails _ _ _ _ m now c t p f); try assumption. right. now exists None.
Qed.
Theorem c148_cases m now c : GoodJwt (jm_options m) -> GoodContext c -> (exists p, Clear m now c p) \/ (forall p, ~ Clear m now c p).
Proof.
  intros HG HC. destruct (extract_token (jm_options m) c) as [t|] eqn:E1.
  2: { right. intros p H. apply cleared_iff in H as (t & H & _); [congruence|exact HG|exact HC]. }
  destruct (check (jm_options m) now t) as [e|p] eqn:E2.
  { right. intros p H. apply cleared_iff in H as (t' & H & H2 & _); [|exact HG|exact HC]. assert (t' = t) by congruence. subst t'. congruence. }
  destruct (missing_claim (jm_required m) p) as [k|] eqn:E3.
  { right. intros p' H. apply cleared_iff in H as (t' & H & H2 & H3 & _); [|exact HG|exact HC]. assert (t' = t) by congruence. subst t'. assert (p' = p) by congruence. subst p'. congruence. }
  destruct (match jm_validator m with Some f => f (JObj p) | None => VAccepts end) as [|x|x] eqn:E4;
    [left; exists p; apply cleared_iff; [exact HG|exact HC|]; now exists t| |];
    (right; intros p' H; apply cleared_iff in H as (t' & H & H2 & H3 & H4); [|exact HG|exact HC]; assert (t' = t) by congruence; subst t'; assert (p' = p) by congruence; subst p'; congruence).
Qed.
End Json.
