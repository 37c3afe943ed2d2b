(** Every frame handler of the server is one receiving step followed by elementary steps. *)
From Coq Require Import Permutation.
From Verif Require Import Base UtilModel HpackTables HpackModel HpackSpec DynTableProofs HpackCodecProofs HpackConnProofs
  H2Model H2Proofs H2FramerProofs H2FieldModel H2ServerModel H2ServerSpec H2ServerSteps H2ServerRefine.
Local Open Scope N_scope.

(** ** What an elementary step can do to one stream *)
Definition qrel (th : bool) (k : N) (x y : stream) : Prop :=
  st_endr y = st_endr x /\ (st_disp x = true -> st_disp y = true) /\
  (st_main y = true -> st_main x = true \/ N.odd k = true) /\ (st_cont y = true -> st_cont x = true) /\
  (th = false -> st_rsts y = st_rsts x /\ st_rstr y = st_rstr x).
Lemma qrel_refl th k x : qrel th k x x.
Proof. unfold qrel. auto 8. Qed.
Lemma fr_upd th s0 sid g x k y : get s0 sid = Some x -> qrel th sid x (g x) -> get (upd sid g s0) k = Some y -> exists x', get s0 k = Some x' /\ qrel th k x' y.
Proof.
  intros G Q. destruct (N.eq_dec k sid) as [->|NE].
  - rewrite (get_upd_same _ _ _ _ G). intros H; injection H as <-. eauto.
  - rewrite get_upd_other by exact NE. intros H. exists y. split; [exact H|apply qrel_refl].
Qed.
Lemma get_erase_some s sid k y : get (erase sid s) k = Some y -> get s k = Some y.
Proof. destruct (N.eq_dec k sid) as [->|NE]; [rewrite get_erase_same; discriminate|]. rewrite get_erase_other; auto. Qed.
Lemma fr_started th sid r e s x k y : get s sid = Some x -> get (started sid r e s) k = Some y -> exists x', get s k = Some x' /\ qrel th k x' y.
Proof.
  intros G. unfold started.
  assert (G1 : get (note (LCmd (CRespond sid r)) s) sid = Some x) by exact G.
  rewrite (upd_upd _ _ _ _ _ G1). intros H. eapply (fr_upd th (note (LCmd (CRespond sid r)) s)); [exact G1| |exact H].
  unfold qrel; st; auto 8.
Qed.
Lemma started_get sid r e s x : get s sid = Some x ->
  get (started sid r e s) sid = Some (set_st_sent (map fst (rs_headers r) ++ st_sent x) (set_st_off 0%nat (set_st_resp r x))).
Proof.
  intros G. unfold started.
  assert (G1 : get (note (LCmd (CRespond sid r)) s) sid = Some x) by exact G.
  rewrite (upd_upd _ _ _ _ _ G1). change (get (set_sv_enc e ?t) sid) with (get t sid). rewrite (get_upd_same _ _ _ _ G1). reflexivity.
Qed.
Lemma get_emits fs s k : get (emits fs s) k = get s k.
Proof. rewrite emits_fields. reflexivity. Qed.
Lemma qrel_trans th k x y z : qrel th k x y -> qrel th k y z -> qrel th k x z.
Proof.
  intros (A1 & A2 & A3 & A4 & A5) (B1 & B2 & B3 & B4 & B5). unfold qrel. split; [congruence|]. split; [auto|]. split; [intros M; destruct (B3 M); auto|].
  split; [auto|]. intros T. destruct (A5 T), (B5 T). split; congruence.
Qed.

Lemma q_frame E th sh s s' : qstep E th sh s s' -> forall k y, get s' k = Some y ->
  (exists x, get s k = Some x /\ qrel th k x y) \/ (N.odd k = false /\ get s k = None /\ st_main y = false /\ st_cont y = false).
Proof.
  intros H k y G.
  destruct H; try solve [left; exists y; split; [exact G|apply qrel_refl]];
    try solve [left; eapply fr_upd; [|..|exact G]; [eassumption|unfold qrel; st; repeat split; intros; try discriminate; auto]];
    try solve [left; match type of G with get (upd ?sd ?g ?t) _ = _ => refine (fr_upd _ t sd g _ _ _ _ _ G); [eassumption|unfold qrel; st; repeat split; intros; try discriminate; auto] end];
    try solve [left; exists y; split; [eapply get_erase_some; exact G|apply qrel_refl]].
  - left. assert (G1 : get (emits (send_headers sid 0 (sv_pmax s) block) (started sid r e s)) sid =
      Some (set_st_sent (map fst (rs_headers r) ++ st_sent x) (set_st_off 0%nat (set_st_resp r x)))) by (rewrite get_emits; apply started_get, H).
    destruct (fr_upd th _ sid (set_st_trail (has_trailer_header r)) _ k y G1) as (x' & GX & Q); [unfold qrel; st; auto 6|exact G|].
    rewrite get_emits in GX. destruct (fr_started th _ _ _ _ _ _ _ H GX) as (x0 & G0 & Q0). exists x0. split; [exact G0|]. eapply qrel_trans; eauto.
  - left. assert (G1 : get (emits (send_headers sid FLAG_END_STREAM (sv_pmax s) block) (started sid r e s)) sid =
      Some (set_st_sent (map fst (rs_headers r) ++ st_sent x) (set_st_off 0%nat (set_st_resp r x)))) by (rewrite get_emits; apply started_get, H).
    destruct (fr_upd th _ sid response_ends _ k y G1) as (x' & GX & Q); [unfold qrel, response_ends; st; auto 8|exact G|].
    rewrite get_emits in GX. destruct (fr_started th _ _ _ _ _ _ _ H GX) as (x0 & G0 & Q0). exists x0. split; [exact G0|]. eapply qrel_trans; eauto.
  - left. exact (fr_started th sid r e s x k y H G).
  - left. unfold goaway in G. destruct (negb (sv_active (started sid r e s))); exact (fr_started th sid r e s x k y H G).
  - left. match type of G with get (upd ?sd ?g ?t) _ = _ => refine (fr_upd _ t sd g _ _ _ _ _ G); [exact H|] end. unfold data_stream. destruct fin; unfold qrel; st; auto 8.
  - unfold get in G. svh G. cbn [find_st] in G. destruct (prom =? k) eqn:EK.
    + apply N.eqb_eq in EK. subst k. injection G as <-. right. auto.
    + left. exists y. split; [exact G|apply qrel_refl].
  - left. match type of G with get (upd ?sd ?g ?t) _ = _ => refine (fr_upd _ t sd g _ _ _ _ _ G); [eassumption|] end.
    unfold qrel; st. repeat split; intros; auto; congruence.
  - left. exists y. split; [|apply qrel_refl]. unfold goaway in G. destruct (negb (sv_active (set_sv_ctl ctl s))); exact G.
Qed.
Lemma qs_frame E th sh s s' : qsteps E th sh s s' -> forall k y, get s' k = Some y -> N.odd k = true ->
  exists x, get s k = Some x /\ qrel th k x y.
Proof.
  induction 1; intros k y G O; [exists y; split; [exact G|apply qrel_refl]|].
  destruct (IHqsteps k y G O) as (x1 & G1 & Q1). destruct (q_frame _ _ _ _ _ H k x1 G1) as [(x0 & G0 & Q0)|(C & _)]; [|congruence].
  exists x0. split; [exact G0|]. eapply qrel_trans; eauto.
Qed.

(** Header blocks are only ever assembled on streams opened by the client. *)
Definition mc (s : server) : Prop := forall k x, get s k = Some x -> st_main x = true \/ st_cont x = true -> N.odd k = true.
Lemma mc_q E th sh s s' : mc s -> qstep E th sh s s' -> mc s'.
Proof.
  intros M H k y G C. destruct (q_frame _ _ _ _ _ H k y G) as [(x & GX & Q1 & Q2 & Q3 & Q4 & _)|(O & _ & M1 & M2)].
  - destruct C as [C|C]; [destruct (Q3 C) as [D|D]; [eapply M; eauto|exact D]|eapply M; eauto].
  - destruct C; congruence.
Qed.
Lemma mc_qs E th sh s s' : mc s -> qsteps E th sh s s' -> mc s'.
Proof. intros M H. induction H; auto. apply IHqsteps. eapply mc_q; eauto. Qed.
Lemma mc_upd s sid g x : mc s -> get s sid = Some x -> (st_main (g x) = true \/ st_cont (g x) = true -> st_main x = true \/ st_cont x = true \/ N.odd sid = true) ->
  mc (upd sid g s).
Proof.
  intros M G H k y GY C. destruct (N.eq_dec k sid) as [->|NE].
  - rewrite (get_upd_same _ _ _ _ G) in GY. injection GY as <-. destruct (H C) as [D|[D|D]]; eauto.
  - rewrite get_upd_other in GY by exact NE. eauto.
Qed.
Lemma mc_ext s s' : mc s -> sv_streams s' = sv_streams s -> mc s'.
Proof. intros M H k x G. apply M. unfold get in *. rewrite <- H. exact G. Qed.
Lemma goaway_streams_same code s : sv_streams (goaway code s) = sv_streams s.
Proof. unfold goaway. destruct (negb (sv_active s)); reflexivity. Qed.
Lemma mc_in f s s' : mc s -> instep f s s' -> mc s'.
Proof.
  intros M H. destruct H.
  - apply (mc_ext s); [exact M|reflexivity].
  - apply (mc_ext s); [exact M|]. rewrite goaway_streams_same. reflexivity.
  - eapply mc_ext; [|apply goaway_streams_same]. intros k y G C. unfold get in G. svh G. cbn [find_st] in G.
    destruct (stream_of f =? k) eqn:EK; [injection G as <-; destruct C; discriminate|eapply M; eauto].
  - apply (mc_ext s); [exact M|reflexivity].
  - eapply (mc_upd (hdr_base f (stream_of f) b s)); [apply (mc_ext s); [exact M|reflexivity]|exact H0|]. auto.
  - intros k y G C. unfold get in G. svh G. cbn [find_st] in G. destruct (stream_of f =? k) eqn:EK.
    + apply N.eqb_eq in EK. subst k. auto.
    + eapply M; eauto.
  - match goal with |- mc (upd _ _ ?t) => eapply (mc_upd t); [apply (mc_ext s); [exact M|reflexivity]|exact H0|] end. auto.
  - apply (mc_ext s); [exact M|reflexivity].
  - intros k y G C. apply get_erase_some in G. eapply M; eauto.
  - match goal with |- mc (upd _ _ ?t) => eapply (mc_upd t); [apply (mc_ext s); [exact M|reflexivity]|exact H2|] end. unfold acc_stream. st. tauto.
  - match goal with |- mc (upd _ _ ?t) => eapply (mc_upd t); [apply (mc_ext s); [exact M|reflexivity]|exact H2|] end. unfold grant, acc_stream. st. tauto.
  - apply (mc_ext s); [exact M|reflexivity].
  - match goal with |- mc (upd _ _ ?t) => eapply (mc_upd t); [apply (mc_ext s); [exact M|reflexivity]|exact H0|] end. st. tauto.
  - apply (mc_ext s); [exact M|reflexivity].
Qed.

(** ** The fields of a block are valid and keep the declared length consistent *)
Lemma request_fields_ok : forall fs p q, Forall hdr_ok (ps_hdrs p) -> request_fields p fs = inr q -> Forall hdr_ok (ps_hdrs q).
Proof.
  induction fs as [|f fs IH]; intros p q HP; cbn [request_fields].
  - intros H; injection H as <-. exact HP.
  - destruct (f_name f) as [|c nm] eqn:EN; [discriminate|]. destruct (c =? 58).
    + destruct (ps_fin p); [discriminate|]. destruct (negb (is_valid_header_value (f_value f))); [discriminate|].
      destruct (beq (c :: nm) (str ":method")); [destruct (ps_method p); [discriminate|]; intros H; eapply IH; [|exact H]; exact HP|].
      destruct (beq (c :: nm) (str ":scheme")); [destruct (ps_scheme p); [discriminate|]; intros H; eapply IH; [|exact H]; exact HP|].
      destruct (beq (c :: nm) (str ":path")); [destruct (ps_path p); [discriminate|]; intros H; eapply IH; [|exact H]; exact HP|].
      destruct (beq (c :: nm) (str ":authority")); [destruct (ps_auth p); [discriminate|]; intros H; eapply IH; [|exact H]; exact HP|].
      discriminate.
    + destruct (is_valid_header_field (c :: nm) (f_value f)) eqn:EV; [|discriminate]. cbn [negb].
      destruct (is_forbidden_header (c :: nm)) eqn:EF; [discriminate|]. cbn [orb].
      destruct (beq (c :: nm) (str "te") && _); [discriminate|].
      assert (HN : Forall hdr_ok (ps_hdrs p ++ [(c :: nm, f_value f)])) by (apply Forall_app; split; [exact HP|]; constructor; [split; assumption|constructor]).
      destruct (beq (c :: nm) (str "content-length")).
      * destruct (parse_content_length (f_value f)) as [n|]; [|discriminate]. destruct (match ps_clen p with Some c0 => negb (c0 =? n) | None => false end); [discriminate|].
        destruct (MAX_BODY_SIZE <? n); [discriminate|]. intros H. eapply IH; [|exact H]. exact HN.
      * intros H. eapply IH; [|exact H]. exact HN.
Qed.
Lemma trailer_block_ok : forall fs hs hs', trailer_block hs fs = inr hs' -> Forall hdr_ok hs -> Forall hdr_ok hs'.
Proof.
  induction fs as [|f fs IH]; intros hs hs'; cbn [trailer_block].
  - intros H; injection H as <-. auto.
  - destruct (match f_name f with [] => true | c :: _ => c =? 58 end); [discriminate|].
    destruct (is_valid_header_field (f_name f) (f_value f)) eqn:EV; [|discriminate]. cbn [negb].
    destruct (is_forbidden_trailer_header (f_name f)) eqn:EF; [discriminate|]. intros H HS. eapply IH; [exact H|]. apply Forall_app. split; [exact HS|].
    constructor; [|constructor]. split; [exact EV|]. unfold is_forbidden_trailer_header, is_forbidden_response_header in EF. cbn [fst].
    destruct (is_forbidden_header (f_name f)); [discriminate|reflexivity].
Qed.
Lemma request_fields_clen : forall fs p q, (forall v, In (str "content-length", v) (ps_hdrs p) -> exists n, parse_content_length v = Some n /\ ps_clen p = Some n) ->
  request_fields p fs = inr q -> forall v, In (str "content-length", v) (ps_hdrs q) -> exists n, parse_content_length v = Some n /\ ps_clen q = Some n.
Proof.
  induction fs as [|f fs IH]; intros p q HP; cbn [request_fields].
  - intros H; injection H as <-. exact HP.
  - destruct (f_name f) as [|c nm] eqn:EN; [discriminate|]. destruct (c =? 58).
    + destruct (ps_fin p); [discriminate|]. destruct (negb (is_valid_header_value (f_value f))); [discriminate|].
      destruct (beq (c :: nm) (str ":method")); [destruct (ps_method p); [discriminate|]; intros H; eapply IH; [|exact H]; exact HP|].
      destruct (beq (c :: nm) (str ":scheme")); [destruct (ps_scheme p); [discriminate|]; intros H; eapply IH; [|exact H]; exact HP|].
      destruct (beq (c :: nm) (str ":path")); [destruct (ps_path p); [discriminate|]; intros H; eapply IH; [|exact H]; exact HP|].
      destruct (beq (c :: nm) (str ":authority")); [destruct (ps_auth p); [discriminate|]; intros H; eapply IH; [|exact H]; exact HP|].
      discriminate.
    + destruct (negb (is_valid_header_field (c :: nm) (f_value f))); [discriminate|].
      destruct (is_forbidden_header (c :: nm) || _); [discriminate|].
      destruct (beq (c :: nm) (str "content-length")) eqn:EB.
      * apply beq_eq in EB. destruct (parse_content_length (f_value f)) as [n|] eqn:EP; [|discriminate].
        destruct (match ps_clen p with Some c0 => negb (c0 =? n) | None => false end) eqn:EC; [discriminate|].
        destruct (MAX_BODY_SIZE <? n); [discriminate|]. intros H. eapply IH; [|exact H]. cbn [ps_hdrs ps_clen].
        intros v Hv. apply in_app_iff in Hv as [Hv|Hv].
        -- destruct (HP v Hv) as (m & Hm & Em). rewrite Em in EC. apply negb_false_iff, N.eqb_eq in EC. subst m. eauto.
        -- destruct Hv as [Hv|[]]. pose proof (f_equal snd Hv) as Hn. cbn [snd] in Hn. subst v. eauto.
      * intros H. eapply IH; [|exact H]. cbn [ps_hdrs ps_clen]. intros v Hv. apply in_app_iff in Hv as [Hv|Hv]; [auto|].
        destruct Hv as [Hv|[]]. pose proof (f_equal fst Hv) as Hn. cbn [fst] in Hn. rewrite Hn in EB.
        assert (beq (str "content-length") (str "content-length") = true) by (apply beq_eq; reflexivity). congruence.
Qed.
Lemma trailer_block_clen : forall fs hs hs', trailer_block hs fs = inr hs' ->
  forall v, In (str "content-length", v) hs' -> In (str "content-length", v) hs.
Proof.
  induction fs as [|f fs IH]; intros hs hs'; cbn [trailer_block].
  - intros H; injection H as <-. auto.
  - destruct (match f_name f with [] => true | c :: _ => c =? 58 end); [discriminate|].
    destruct (negb (is_valid_header_field (f_name f) (f_value f))); [discriminate|].
    destruct (is_forbidden_trailer_header (f_name f)) eqn:EF; [discriminate|].
    intros H v Hv. specialize (IH _ _ H v Hv). apply in_app_iff in IH as [IH|[IH|[]]]; [exact IH|].
    pose proof (f_equal fst IH) as Hn. cbn [fst] in Hn. rewrite Hn in EF. unfold is_forbidden_trailer_header in EF.
    assert (beq (str "content-length") (str "content-length") = true) by (apply beq_eq; reflexivity).
    rewrite H0, orb_true_r in EF. discriminate.
Qed.

Section HANDLERS.
Variable E : env.
Variables th sh : bool.
Notation steps := (qsteps E th sh).

Lemma rst_false_some s sid c x : get s sid = Some x -> sv_active s = true ->
  rst_stream sid c false s = (if (negb (st_disp x) || negb (st_ends x)) && negb (c =? NO_ERROR) then note (LErr sid c) else fun t => t)
    (upd sid (fun x => set_st_err c (set_st_rsts true (set_st_state CLOSED x))) (emit (rst_frame sid c) s)).
Proof.
  intros G A. unfold rst_stream. rewrite A. cbn [negb andb]. change (get (emit _ s) sid) with (get s sid). rewrite G.
  destruct (_ && _); reflexivity.
Qed.
Lemma rst_true_close s sid c x : get s sid = Some x -> sv_active s = true -> try_close sid (rst_stream sid c false s) = rst_stream sid c true s.
Proof.
  intros G A. rewrite (rst_false_some s sid c x G A). unfold rst_stream. rewrite A. cbn [negb andb]. change (get (emit _ s) sid) with (get s sid). rewrite G.
  destruct (_ && _); reflexivity.
Qed.
Lemma get_rst_false s sid c x : get s sid = Some x -> sv_active s = true ->
  get (rst_stream sid c false s) sid = Some (set_st_err c (set_st_rsts true (set_st_state CLOSED x))).
Proof.
  intros G A. rewrite (rst_false_some s sid c x G A).
  pose proof (get_upd_same (emit (rst_frame sid c) s) sid x (fun x => set_st_err c (set_st_rsts true (set_st_state CLOSED x))) G) as H.
  destruct (_ && _); exact H.
Qed.

Lemma get_settle s k : get (settle s) k = get s k.
Proof.
  unfold settle. destruct (_ && _).
  - destruct (all_relevant_closed _ _); reflexivity.
  - destruct (_ && _ && _); reflexivity.
Qed.
Lemma get_rst s sid c x : get s sid = Some x -> sv_active s = true -> get (rst_stream sid c true s) sid = None.
Proof.
  intros G A. rewrite (rst_eq s sid c x G (or_introl A)), get_settle. destruct (_ && _); apply get_erase_same.
Qed.
(** A handler that ends by throwing leaves its stream marked as reset. *)
Definition thrown (sid : N) (s t : server) : Prop :=
  th = true /\ exists s1 y, steps s s1 /\ sv_active s1 = true /\ get s1 sid = Some y /\ st_endr y = true /\ st_rsts y = false /\ st_rstr y = false /\
    st_disp y = true /\ t = rst_stream sid INTERNAL_ERROR false s1.
Definition act_ok (a : appact) : Prop := Forall cmd_ids_ok (fst a) /\ (snd a = true -> th = true).

Lemma dispatch_q s sid a x : wf s -> get s sid = Some x -> N.odd sid = true -> st_endr x = true -> opt_mismatch (st_clen x) (rq_body (st_req x)) = false ->
  act_ok a -> (steps s (dispatch E sid a s) /\ (st_state x <> CLOSED -> forall y, get (dispatch E sid a s) sid = Some y -> st_state y <> CLOSED \/ th = true /\ st_rsts y = false /\ st_rstr y = false))
     \/ thrown sid s (dispatch E sid a s).
Proof.
  intros W G OD ER OM [CK TH]. unfold dispatch. rewrite G.
  assert (SAME : steps s s /\ (st_state x <> CLOSED -> forall y, get s sid = Some y -> st_state y <> CLOSED \/ th = true /\ st_rsts y = false /\ st_rstr y = false)).
  { split; [constructor|]. intros NC y GY. rewrite G in GY. injection GY as <-. auto. }
  destruct (st_disp x || st_rsts x || st_rstr x) eqn:C; [left; exact SAME|].
  apply orb_false_iff in C as [C C3]. apply orb_false_iff in C as [C1 C2].
  destruct (alive s) eqn:A; [|left; exact SAME]. clear SAME.
  pose proof (w_key _ W _ _ G) as [KS _]. destruct (alive_ok _ A) as [OK AC].
  destruct (negb (e_method_known E (rq_method (st_req x))) || negb (e_uri_has_path E (rq_uri (st_req x)))) eqn:B.
  { left. split; [apply rst_q, KS|]. intros _ y. rewrite (get_rst s sid _ x G AC). discriminate. }
  apply orb_false_iff in B as [B1 B2]. apply negb_false_iff in B1, B2.
  pose proof (q_dispatch E th sh s sid x G OD C1 C2 C3 A ER OM B1 B2) as Q.
  set (s1 := note (LReq sid (st_req x)) (upd sid (set_st_disp true) s)) in *.
  assert (W1 : wf s1) by (eapply qstep_wf; [exact W|exact Q]).
  assert (G1 : get s1 sid = Some (set_st_disp true x)) by (apply (get_upd_same _ _ _ _ G)).
  pose proof (run_cmds_q E false sh (fst a) s1 CK W1) as SR. set (s2 := run_cmds (fst a) s1) in *.
  assert (SS : steps s s2).
  { eapply qs_cons; [exact Q|]. eapply qsteps_weaken; [| |exact SR]; auto; discriminate. }
  assert (FY : forall y, get s2 sid = Some y -> st_endr y = true /\ st_rsts y = false /\ st_rstr y = false /\ st_disp y = true).
  { intros y GY. destruct (qs_frame _ _ _ _ _ SR sid y GY OD) as (x' & GX & Q1 & Q2 & _ & _ & Q5). rewrite G1 in GX. injection GX as <-.
    destruct (Q5 eq_refl) as [Q6 Q7]. sth Q1. sth Q6. sth Q7. rewrite Q1, Q6, Q7. auto. }
  destruct (snd a) eqn:TA.
  - destruct (sv_active s2) eqn:A2.
    2:{ left. rewrite rst_inactive; [|exact A2|discriminate]. split; [exact SS|]. intros _ y GY. right. destruct (FY y GY) as (_ & F1 & F2 & _). auto. }
    destruct (get s2 sid) as [y|] eqn:G2.
    2:{ left. assert (EQ : rst_stream sid INTERNAL_ERROR false s2 = emit (rst_frame sid INTERNAL_ERROR) s2).
        { unfold rst_stream. rewrite A2. cbn [negb andb]. change (get (emit _ s2) sid) with (get s2 sid). rewrite G2. reflexivity. }
        rewrite EQ. split.
        - eapply qs_app; [exact SS|]. pose proof (q_rst E th sh s2 sid INTERNAL_ERROR KS (or_introl A2)) as QR. rewrite erase_absent in QR by exact G2. apply qs_one, QR.
        - intros _ y GY. change (get (emit (rst_frame sid INTERNAL_ERROR) s2) sid) with (get s2 sid) in GY. congruence. }
    right. destruct (FY y eq_refl) as (F0 & F1 & F2 & F3). split; [auto|]. exists s2, y. repeat (split; [assumption|]). reflexivity.
  - left. destruct (get s2 sid) as [y|] eqn:G2; [|split; [exact SS|congruence]].
    destruct (is_state (st_state y) CLOSED) eqn:SC.
    + split; [eapply qs_app; [exact SS|apply try_close_q]|]. intros _ z. rewrite (try_close_eq s2 sid y G2) by (rewrite SC; reflexivity).
      rewrite get_settle, get_erase_same. discriminate.
    + split; [exact SS|]. intros _ z GZ. rewrite G2 in GZ. injection GZ as <-. left. apply is_state_false, SC.
Qed.

Lemma lift_block s s0 sid (p : server * bool) : steps s s0 -> steps s0 (fst p) \/ (snd p = true /\ thrown sid s0 (fst p)) ->
  steps s (fst p) \/ (snd p = true /\ thrown sid s (fst p)).
Proof.
  intros S [H|(H1 & T & s1 & y & S1 & R)]; [left; eapply qs_app; eauto|]. right. split; [exact H1|]. split; [exact T|]. exists s1, y. split; [eapply qs_app; eauto|exact R].
Qed.
Lemma process_block_q s sid tr a x : wf s -> get s sid = Some x -> sv_cursid s = sid -> st_cont x = false -> N.odd sid = true ->
  act_ok a -> steps s (fst (process_block E sid tr a s)) \/ (snd (process_block E sid tr a s) = true /\ thrown sid s (fst (process_block E sid tr a s))).
Proof.
  intros W G CU CO OD TH. unfold process_block. rewrite G. pose proof (w_key _ W _ _ G) as [KS _].
  destruct (decode (sv_dec s) (sv_frag s)) as [d res] eqn:D.
  destruct (decode_total _ _ _ _ (w_dec _ W) (w_frag _ W) D) as [_ NU].
  pose proof (q_dec E th sh s d (sv_frag s) res (w_frag _ W) D) as Q1.
  apply (lift_block s _ _ _ (qs_one _ _ _ _ _ Q1)). assert (W1 : wf (set_sv_dec d s)) by (eapply qstep_wf; [exact W|exact Q1]).
  destruct res as [er| |fs]; [cbn [fst]; left; apply rst_q, KS|congruence|].
  assert (G1 : get (set_sv_dec d s) sid = Some x) by exact G.
  assert (Q2 : qstep E th sh (set_sv_dec d s) (set_sv_frag [] (set_sv_dec d s))).
  { apply q_fragclear. right. change (sv_cursid (set_sv_dec d s)) with (sv_cursid s). rewrite CU, G1. intros y H; injection H as <-. exact CO. }
  set (s2 := set_sv_frag [] (set_sv_dec d s)) in *. assert (W2 : wf s2) by (eapply qstep_wf; [exact W1|exact Q2]).
  apply (lift_block _ _ _ _ (qs_one _ _ _ _ _ Q2)). assert (G2 : get s2 sid = Some x) by exact G.
  pose proof (q_uncont E th sh s2 sid x G2) as Q3. set (s3 := upd sid (set_st_cont false) s2) in *.
  assert (W3 : wf s3) by (eapply qstep_wf; [exact W2|exact Q3]). apply (lift_block _ _ _ _ (qs_one _ _ _ _ _ Q3)).
  assert (G3 : get s3 sid = Some (set_st_cont false x)) by (apply get_upd_same, G2).
  clearbody s3. clear Q1 Q2 Q3 W1 W2 G1 G2. pose proof (w_st _ W _ _ G) as WX.
  destruct tr; cbn [negb].
  - destruct (trailer_block (rq_headers (st_req x)) fs) as [code|hdrs] eqn:TB; [cbn [fst]; left; apply rst_q, KS|].
    set (r := mk_req (rq_method (st_req x)) (rq_uri (st_req x)) hdrs (rq_body (st_req x))).
    assert (CL : clen_ok r (st_clen x)).
    { split; [intros v Hv; apply (proj1 (ws_clen _ WX) v); eapply trailer_block_clen; [exact TB|exact Hv]|].
      eapply trailer_block_ok; [exact TB|exact (proj2 (ws_clen _ WX))]. }
    pose proof (q_req E th sh s3 sid (set_st_cont false x) r (st_clen x) G3 eq_refl CL) as Q4.
    assert (EQ : upd sid (fun x0 => set_st_req (mk_req (rq_method (st_req x0)) (rq_uri (st_req x0)) hdrs (rq_body (st_req x0))) x0) s3
                 = upd sid (fun x0 => set_st_clen (st_clen x) (set_st_req r x0)) s3).
    { eapply upd_ext; [exact G3|reflexivity]. }
    rewrite EQ. clear EQ. set (s4 := upd sid _ s3) in *. assert (W4 : wf s4) by (eapply qstep_wf; [exact W3|exact Q4]).
    apply (lift_block _ _ _ _ (qs_one _ _ _ _ _ Q4)).
    destruct (st_endr x) eqn:ER; cbn [negb]; [|cbn [fst]; left; apply rst_q, KS].
    destruct (opt_mismatch (st_clen x) (rq_body (st_req x))) eqn:OM; [cbn [fst]; left; apply rst_q, KS|].
    destruct (st_disp x); cbn [negb fst snd]; [left; constructor|].
    destruct (dispatch_q s4 sid a _ W4 (get_upd_same _ _ _ _ G3) OD ER OM TH) as [[S _]|S]; auto.
  - pose proof (q_main E th sh s3 sid _ G3 OD) as Q4. set (s4 := upd sid (set_st_main true) s3) in *.
    assert (W4 : wf s4) by (eapply qstep_wf; [exact W3|exact Q4]). apply (lift_block _ _ _ _ (qs_one _ _ _ _ _ Q4)).
    assert (G4 : get s4 sid = Some (set_st_main true (set_st_cont false x))) by (apply get_upd_same, G3).
    destruct (request_fields _ fs) as [code|p] eqn:RF; [cbn [fst]; left; apply rst_q, KS|].
    destruct (ps_method p) as [m|]; [|cbn [fst]; left; apply rst_q, KS].
    destruct (ps_scheme p) as [sc|]; [|cbn [fst]; left; apply rst_q, KS].
    destruct (ps_path p) as [pa|]; [|cbn [fst]; left; apply rst_q, KS].
    destruct (ps_auth p) as [au|]; [|cbn [fst]; left; apply rst_q, KS].
    destruct (is_nil pa || is_nil au); [cbn [fst]; left; apply rst_q, KS|].
    destruct (negb (e_method_known E m)); [cbn [fst]; left; apply rst_q, KS|].
    set (r := mk_req m (sc ++ str "://" ++ au ++ pa) (ps_hdrs p) (rq_body (st_req x))).
    assert (CL : clen_ok r (ps_clen p)).
    { split; [intros v Hv; eapply request_fields_clen; [|exact RF|exact Hv]; exact (proj1 (ws_clen _ WX))|].
      eapply request_fields_ok; [|exact RF]. exact (proj2 (ws_clen _ WX)). }
    pose proof (q_req E th sh s4 sid _ r (ps_clen p) G4 eq_refl CL) as Q5.
    assert (EQ : upd sid (fun x0 => set_st_clen (ps_clen p) (set_st_req (mk_req m (sc ++ str "://" ++ au ++ pa) (ps_hdrs p) (rq_body (st_req x0))) x0)) s4
                 = upd sid (fun x0 => set_st_clen (ps_clen p) (set_st_req r x0)) s4).
    { eapply upd_ext; [exact G4|reflexivity]. }
    rewrite EQ. clear EQ. set (s5 := upd sid _ s4) in *. assert (W5 : wf s5) by (eapply qstep_wf; [exact W4|exact Q5]).
    apply (lift_block _ _ _ _ (qs_one _ _ _ _ _ Q5)).
    destruct (st_endr x) eqn:ER; [|cbn [fst]; left; constructor].
    destruct (opt_mismatch (ps_clen p) (rq_body (st_req x))) eqn:OM; [cbn [fst]; left; apply rst_q, KS|]. cbn [fst snd].
    destruct (dispatch_q s5 sid a _ W5 (get_upd_same _ _ _ _ G4) OD ER OM TH) as [[S _]|S]; auto.
Qed.

Definition hands (f : frame) (s t : server) : Prop := exists s1, instep f s s1 /\ steps s1 t.

Lemma in_goaway f s code : bytes_ok (sv_frag s) -> sv_active s = true -> instep f s (goaway code (note (LIn f) s)).
Proof.
  intros B A. pose proof (in_dead f s code (sv_rstc s) (sv_ctl s) (sv_contn s) (sv_cursid s) (sv_frag s) A B (or_introl eq_refl)) as H.
  replace (set_sv_rstc (sv_rstc s) _) with (note (LIn f) s) in H; [exact H|]. destruct s; reflexivity.
Qed.
Lemma hands_goaway f s code : wf s -> sv_active s = true -> hands f s (goaway code (note (LIn f) s)).
Proof. intros W A. eexists. split; [apply in_goaway; [apply W|exact A]|constructor]. Qed.

Lemma get_cond_wu s k : get (cond_wu s) k = get s k.
Proof.
  unfold cond_wu. destruct (_ <? _)%Z; [|reflexivity]. destruct (0 <? _); [|reflexivity].
  unfold send_wu. destruct (_ || _); reflexivity.
Qed.
Lemma settle_debit z s : debit z (settle s) = settle (debit z s).
Proof.
  unfold settle. change (sv_grace (debit z s)) with (sv_grace s). change (sv_gal (debit z s)) with (sv_gal s).
  change (all_relevant_closed (sv_gal s) (debit z s)) with (all_relevant_closed (sv_gal s) s).
  change (sv_streams (debit z s)) with (sv_streams s).
  destruct (sv_grace s && negb (sv_gal s =? 0)).
  - destruct (all_relevant_closed (sv_gal s) s); reflexivity.
  - destruct (_ && _ && _); reflexivity.
Qed.
Lemma rst_debit z s sid c x : get s sid = Some x -> sv_active s = true -> debit z (rst_stream sid c true s) = rst_stream sid c true (debit z s).
Proof.
  intros G A. rewrite (rst_eq s sid c x G (or_introl A)), (rst_eq (debit z s) sid c x G (or_introl A)). rewrite settle_debit. f_equal.
  destruct (_ && _); reflexivity.
Qed.
Lemma hands_debit_rst f s d pad c ctl x : fr_pl f = PData d pad -> alive s = true -> (Z.of_N (len d + pad) <= sv_crecv s)%Z ->
  get s (stream_of f) = Some x -> (ctl = sv_ctl s \/ ctl = 0) ->
  hands f s (rst_stream (stream_of f) c true (set_sv_ctl ctl (debit (Z.of_N (len d + pad)) (note (LIn f) s)))).
Proof.
  intros PL A CR G CT. eexists. split; [eapply (in_debit_rst f s d pad c ctl x); eauto|].
  rewrite (rst_eq _ _ c x); [apply rst_tail_q|exact G|]. left. apply alive_ok in A. exact (proj2 A).
Qed.

Lemma on_data_q f s d pad a : wf s -> mc s -> frame_octets_ok f -> stream_id_ok f -> fr_pl f = PData d pad -> act_ok a ->
  hands f s (on_data E (fr_hdr f) d pad a (note (LIn f) s)).
Proof.
  intros W M FO SI PL TH. unfold on_data. fold (stream_of f). set (sid := stream_of f). set (n := note (LIn f) s).
  change (alive n) with (alive s). destruct (alive s) eqn:A; cbn [negb].
  2:{ exists n. split; [|constructor]. apply in_ignore. unfold ignorable. rewrite PL. exact A. }
  destruct (alive_ok _ A) as [OK AC].
  destruct (sid =? 0); [apply hands_goaway; auto|].
  set (size := len d + pad). set (z := Z.of_N size).
  change (sv_crecv n) with (sv_crecv s).
  destruct ((sv_crecv s <? z)%Z && (0 <? size)) eqn:FC; [apply hands_goaway; auto|].
  assert (CR : (z <= sv_crecv s)%Z).
  { pose proof (w_crecv _ W OK). apply andb_false_iff in FC as [FC|FC]; [apply Z.ltb_ge in FC; exact FC|]. apply N.ltb_ge in FC. unfold z. lia. }
  clear FC. change (get n sid) with (get s sid). change (sv_last n) with (sv_last s).
  destruct (get s sid) as [x|] eqn:G.
  2:{ destruct (sv_last s <? sid) eqn:L; [apply hands_goaway; auto|]. apply N.ltb_ge in L.
      assert (I : instep f s (debit z n)). { apply (in_debit f s d pad); auto. fold sid. congruence. }
      exists (debit z n). split; [exact I|]. eapply qs_app; [apply rst_q, SI|]. apply cond_wu_q.
      eapply qsteps_wf; [|apply (rst_q E th sh), SI]. eapply instep_wf; eauto. }
  assert (NI : is_state (st_state x) IDLE = false) by (apply is_state_false; eapply (w_idle _ W A), G).
  rewrite NI. cbn [orb].
  destruct (is_state (st_state x) CLOSED || st_rsts x || st_rstr x) eqn:C.
  { assert (I : instep f s (debit z n)).
    { apply (in_debit f s d pad); auto; fold sid; [|congruence]. intros y GY. rewrite G in GY. injection GY as <-.
      apply orb_true_iff in C as [C|C]; [apply orb_true_iff in C as [C|C]|]; auto. left. apply is_state_true, C. }
    exists (debit z n). split; [exact I|]. apply cond_wu_q. eapply instep_wf; eauto. }
  apply orb_false_iff in C as [C C3]. apply orb_false_iff in C as [C1 C2]. apply is_state_false in C1.
  assert (GN : get n sid = Some x) by exact G.
  assert (RST : forall c ctl, ctl = sv_ctl s \/ ctl = 0 -> hands f s (rst_stream sid c true (set_sv_ctl ctl (debit z n)))).
  { intros c ctl CT. eapply hands_debit_rst; eauto. }
  assert (RSTW : forall c, hands f s (cond_wu (debit z (rst_stream sid c true n)))).
  { intros c. rewrite (rst_debit _ _ _ _ x GN AC). destruct (RST c (sv_ctl s) (or_introl eq_refl)) as (s1 & I & S).
    change (sv_ctl s) with (sv_ctl (debit z n)) in S. rewrite eta_ctl in S.
    exists s1. split; [exact I|]. eapply qs_app; [exact S|]. apply cond_wu_q. eapply qsteps_wf; [|exact S]. eapply instep_wf; eauto. }
  destruct (st_endr x) eqn:ER; [apply RSTW|].
  destruct ((st_local x <? z)%Z && (0 <? size)) eqn:FL; [apply RSTW|]. clear RSTW.
  assert (LO : (z <= st_local x)%Z \/ size = 0).
  { apply andb_false_iff in FL as [FL|FL]; [apply Z.ltb_ge in FL; auto|]. apply N.ltb_ge in FL. right. lia. }
  set (base := set_sv_ctl 0 (debit z n)). assert (GB : get base sid = Some x) by exact G.
  assert (GD : get (debit z n) sid = Some x) by exact G.
  assert (E1 : set_sv_ctl 0 (upd sid (fun x0 => set_st_local (st_local x0 - z)%Z x0) (debit z n)) = upd sid (fun x0 => set_st_local (st_local x0 - z)%Z x0) base).
  { rewrite (upd_some _ _ _ _ GD), (upd_some _ _ _ _ GB). reflexivity. }
  rewrite E1, (upd_upd _ _ _ _ _ GB). clear E1.
  set (body := rq_body (st_req x) ++ d).
  set (g1 := fun x0 : stream => set_st_req _ _).
  assert (RB : forall c, hands f s (rst_stream sid c true (upd sid g1 base))).
  { intros c. rewrite (rst_upd base sid c x g1 GB AC eq_refl eq_refl). apply RST. auto. }
  destruct (MAX_BODY_SIZE <? len body); [apply RB|].
  destruct (match st_clen x with Some c => c <? len body | None => false end); [apply RB|]. clear RB RST.
  change (has_flag (h_flags (fr_hdr f)) FLAG_END_STREAM) with (end_stream_of f). set (fin := end_stream_of f).
  assert (E2 : (if fin then upd sid (set_st_endr true) (upd sid g1 base) else upd sid g1 base)
               = upd sid (fun x0 => if fin then set_st_endr true (g1 x0) else g1 x0) base).
  { destruct fin; [rewrite (upd_upd _ _ _ _ _ GB)|]; reflexivity. }
  rewrite E2. clear E2. set (g2 := fun x0 => if fin then set_st_endr true (g1 x0) else g1 x0).
  assert (EA : acc_stream d size fin x = set_st_proc (st_proc x + size) (g2 x)).
  { unfold g2, g1, acc_stream, body, z. clear - ER. clearbody fin. destruct x. sth ER. subst. st. destruct fin; reflexivity. }
  match goal with |- context [cond_wu ?t] => set (s5 := t) end.
  assert (S5 : instep f s s5 /\ exists y, get s5 sid = Some y /\ st_endr y = fin /\ st_main y = st_main x /\ st_clen y = st_clen x /\ rq_body (st_req y) = body /\ st_state y = st_state x).
  { unfold s5. clear s5. unfold should_send_window_update. change (calculate_window_threshold 65535) with 32767. change (0 <? 32767) with true. rewrite andb_true_r.
    destruct (32767 <=? st_proc x + size) eqn:TR.
    - apply N.leb_le in TR. unfold send_wu.
      assert (OU : sv_ok (upd sid g2 base) = true) by (rewrite (upd_some _ _ _ _ GB); exact OK). rewrite OU. cbn [negb orb].
      assert (NZ : (st_proc x + size =? 0) = false) by (apply N.eqb_neq; lia). rewrite NZ.
      pose proof (in_accept_wu f s d pad x PL A CR G LO TR C1 C2 C3 ER) as Q. fold sid size fin z n base in Q. unfold wu_frame in Q.
      rewrite (emit_upd sid _ _ base x GB). set (fr := mk_frame _ _) in *.
      assert (GE : get (emit fr base) sid = Some x) by exact GB.
      rewrite (upd_upd _ _ _ _ _ GE). split.
      + match goal with |- instep _ _ ?t => match type of Q with instep _ _ ?t' => replace t with t'; [exact Q|] end end.
        apply (upd_ext _ sid x); [exact GE|]. rewrite EA. unfold grant. reflexivity.
      + eexists. split; [apply (get_upd_same _ _ _ _ GE)|]. unfold g2, g1. destruct fin; st; auto 6.
    - apply N.leb_gt in TR. rewrite (upd_upd _ _ _ _ _ GB).
      assert (I : instep f s (upd sid (acc_stream d size fin) base)) by (apply (in_accept f s d pad x); auto). split.
      + assert (EQ : upd sid (fun x0 => set_st_proc (st_proc x + size) (g2 x0)) base = upd sid (acc_stream d size fin) base).
        { apply (upd_ext base sid x); [exact GB|]. rewrite EA. reflexivity. }
        rewrite EQ. exact I.
      + eexists. split; [apply (get_upd_same _ _ _ _ GB)|]. unfold g2, g1. destruct fin; st; auto 6. }
  clearbody s5. destruct S5 as (I & y & G5 & Y1 & Y2 & Y3 & Y4 & Y5).
  assert (W5 : wf s5) by (eapply instep_wf; eauto).
  pose proof (cond_wu_q E th sh s5 W5) as S6. assert (W6 : wf (cond_wu s5)) by (eapply qsteps_wf; eauto).
  assert (G6 : get (cond_wu s5) sid = Some y) by (rewrite get_cond_wu; exact G5).
  set (s6 := cond_wu s5) in *. clearbody s6.
  exists s5. split; [exact I|]. eapply qs_app; [exact S6|].
  destruct fin; [|constructor].
  destruct (st_main x) eqn:MX; cbn [andb].
  - destruct (opt_mismatch (st_clen x) body) eqn:OM; [apply rst_q, SI|].
    assert (OD : N.odd sid = true) by (eapply M; eauto).
    assert (OM' : opt_mismatch (st_clen y) (rq_body (st_req y)) = false) by (rewrite Y3, Y4; exact OM).
    destruct (dispatch_q s6 sid a y W6 G6 OD Y1 OM' TH) as [[S7 NC]|(T & s7 & w & S7 & A7 & G7 & F0 & F1 & F2 & F3 & EQ)].
    + assert (W7 : wf (dispatch E sid a s6)) by (eapply qsteps_wf; eauto).
      eapply qs_app; [exact S7|]. destruct (get (dispatch E sid a s6) sid) as [w|] eqn:G7; [|constructor].
      destruct (st_ends w) eqn:EW; [eapply close_q, G7|].
      apply qs_one. eapply q_hcr; eauto. { destruct (qs_frame _ _ _ _ _ S7 sid w G7 OD) as (w0 & G0 & Q0 & _). congruence. }
      destruct (NC (fun H => C1 (eq_trans (eq_sym Y5) H)) w eq_refl) as [H|(_ & F1 & F2)]; [exact H|].
      intros SC. destruct (ws_closed _ (w_st _ W7 _ _ G7) SC) as [D|[D|[D _]]]; congruence.
    + eapply qs_app; [exact S7|]. rewrite EQ, (get_rst_false _ _ _ _ G7 A7).
      st. assert (W7 : wf s7) by (eapply qsteps_wf; eauto). destruct (st_ends w) eqn:EW.
      * rewrite (close_eq _ sid _ (get_rst_false _ _ _ _ G7 A7)).
        assert (EE : settle (erase sid (rst_stream sid INTERNAL_ERROR false s7)) = rst_stream sid INTERNAL_ERROR true s7).
        { rewrite <- (rst_true_close _ _ _ _ G7 A7). symmetry. eapply try_close_eq; [apply (get_rst_false _ _ _ _ G7 A7)|reflexivity]. }
        rewrite EE. apply rst_q, SI.
      * assert (NC7 : st_state w <> CLOSED). { intros SC. destruct (ws_closed _ (w_st _ W7 _ _ G7) SC) as [D|[D|[D _]]]; congruence. }
        rewrite (rst_false_some _ _ _ _ G7 A7).
        pose proof (q_zombie E th sh s7 sid INTERNAL_ERROR w T G7 A7 OD F0 EW NC7) as Q.
        set (k1 := fun x0 => set_st_err INTERNAL_ERROR (set_st_rsts true (set_st_state CLOSED x0))).
        assert (GE : get (emit (rst_frame sid INTERNAL_ERROR) s7) sid = Some w) by exact G7.
        eapply qs_cons; [exact Q|].
        assert (EU : upd sid (set_st_state HALF_CLOSED_REMOTE) (upd sid k1 (emit (rst_frame sid INTERNAL_ERROR) s7)) =
          upd sid (fun x0 => set_st_state HALF_CLOSED_REMOTE (set_st_err INTERNAL_ERROR (set_st_rsts true x0))) (emit (rst_frame sid INTERNAL_ERROR) s7)).
        { rewrite (upd_upd _ _ _ _ _ GE). reflexivity. }
        destruct ((negb (st_disp w) || negb (st_ends w)) && negb (INTERNAL_ERROR =? NO_ERROR)).
        -- assert (EN : upd sid (set_st_state HALF_CLOSED_REMOTE) (note (LErr sid INTERNAL_ERROR) (upd sid k1 (emit (rst_frame sid INTERNAL_ERROR) s7)))
                     = note (LErr sid INTERNAL_ERROR) (upd sid (set_st_state HALF_CLOSED_REMOTE) (upd sid k1 (emit (rst_frame sid INTERNAL_ERROR) s7)))).
           { assert (GU : get (upd sid k1 (emit (rst_frame sid INTERNAL_ERROR) s7)) sid = Some (k1 w)) by (apply (get_upd_same _ _ _ _ GE)).
             rewrite (upd_some _ _ _ _ GU), (upd_some (note (LErr sid INTERNAL_ERROR) _) sid (k1 w) (set_st_state HALF_CLOSED_REMOTE) GU). reflexivity. }
           rewrite EN, EU. apply qs_one, q_err.
        -- rewrite EU. constructor.
  - rewrite G6. destruct (st_ends y) eqn:EW; [eapply close_q, G6|]. apply qs_one. eapply q_hcr; eauto. congruence.
Qed.

Definition inert (sid : N) (s : server) : Prop := forall y, get s sid = Some y -> st_disp y || st_rsts y || st_rstr y = true \/ alive s = false.
Lemma dispatch_inert s sid a : inert sid s -> (exists y, get s sid = Some y) -> dispatch E sid a s = s.
Proof.
  intros I [y G]. unfold dispatch. rewrite G. destruct (I y G) as [C|C]; rewrite C; [reflexivity|]. destruct (_ || _); reflexivity.
Qed.
Lemma dispatch_post s sid a x : act_ok a -> wf s -> get s sid = Some x -> N.odd sid = true -> inert sid (dispatch E sid a s).
Proof.
  intros [CK _] W G OD y. unfold dispatch. rewrite G. destruct (st_disp x || st_rsts x || st_rstr x) eqn:C.
  { intros GY. rewrite G in GY. injection GY as <-. auto. }
  destruct (alive s) eqn:A; [|intros; right; exact A].
  destruct (negb (e_method_known E (rq_method (st_req x))) || negb (e_uri_has_path E (rq_uri (st_req x)))).
  { rewrite (get_rst s sid _ x G); [discriminate|]. apply alive_ok in A. apply A. }
  set (s1 := note (LReq sid (st_req x)) (upd sid (set_st_disp true) s)).
  assert (G1 : get s1 sid = Some (set_st_disp true x)) by (apply (get_upd_same _ _ _ _ G)).
  assert (W1 : wf s1).
  { apply wf_emit. eapply wf_upd; [exact W|exact G| |]; st.
    - destruct (w_st _ W _ _ G). constructor; st; auto.
    - intros. eapply (w_idle _ W); eauto. }
  pose proof (run_cmds_q E false sh (fst a) s1 CK W1) as SR. set (s2 := run_cmds (fst a) s1) in *.
  assert (FY : forall z, get s2 sid = Some z -> st_disp z = true).
  { intros z GZ. destruct (qs_frame _ _ _ _ _ SR sid z GZ OD) as (x' & GX & _ & D & _). rewrite G1 in GX. injection GX as <-. apply D. reflexivity. }
  destruct (snd a).
  - destruct (sv_active s2) eqn:A2.
    2:{ rewrite rst_inactive; [|exact A2|discriminate]. intros GY. left. rewrite (FY y GY). reflexivity. }
    destruct (get s2 sid) as [z|] eqn:G2.
    + rewrite (get_rst_false _ _ _ _ G2 A2). intros H; injection H as <-. st. left. rewrite orb_true_r. reflexivity.
    + unfold rst_stream. rewrite A2. cbn [negb andb]. change (get (emit ?f s2) sid) with (get s2 sid). rewrite G2. change (get (emit ?f s2) sid) with (get s2 sid). congruence.
  - destruct (get s2 sid) as [z|] eqn:G2; [|congruence]. destruct (is_state (st_state z) CLOSED) eqn:SC.
    + rewrite (try_close_eq s2 sid z G2) by (rewrite SC; reflexivity). rewrite get_settle, get_erase_same. discriminate.
    + intros GY. left. rewrite (FY y); [reflexivity|congruence].
Qed.

Lemma process_block_post s sid tr a x s' : act_ok a -> wf s -> get s sid = Some x -> sv_cursid s = sid -> st_cont x = false -> N.odd sid = true ->
  st_endr x = true -> process_block E sid tr a s = (s', true) -> inert sid s'.
Proof.
  intros AOK W G CU CO OD ER. unfold process_block. rewrite G.
  destruct (decode (sv_dec s) (sv_frag s)) as [d res] eqn:D.
  destruct (decode_total _ _ _ _ (w_dec _ W) (w_frag _ W) D) as [DO NU].
  destruct res as [er| |fs]; try discriminate.
  set (s2 := set_sv_frag [] (set_sv_dec d s)). assert (G2 : get s2 sid = Some x) by exact G.
  assert (W2 : wf s2). { eapply wf_ext; [apply (wf_dec s d W DO)|..]; try reflexivity; try apply W; auto. constructor. }
  set (s3 := upd sid (set_st_cont false) s2).
  assert (W3 : wf s3) by (eapply qstep_wf; [exact W2|apply (q_uncont E th sh s2 sid x G2)]).
  assert (G3 : get s3 sid = Some (set_st_cont false x)) by (apply get_upd_same, G2).
  clearbody s3. pose proof (w_st _ W _ _ G) as WX.
  destruct tr; cbn [negb].
  - destruct (trailer_block (rq_headers (st_req x)) fs) as [code|hdrs] eqn:TB; [discriminate|]. rewrite ER. cbn [negb].
    destruct (opt_mismatch _ _) eqn:OM; [discriminate|].
    set (r := mk_req (rq_method (st_req x)) (rq_uri (st_req x)) hdrs (rq_body (st_req x))).
    assert (CL : clen_ok r (st_clen x)).
    { split; [intros v Hv; apply (proj1 (ws_clen _ WX) v); eapply trailer_block_clen; [exact TB|exact Hv]|].
      eapply trailer_block_ok; [exact TB|exact (proj2 (ws_clen _ WX))]. }
    pose proof (q_req E th sh s3 sid (set_st_cont false x) r (st_clen x) G3 eq_refl CL) as Q4.
    assert (EQ : upd sid (fun x0 => set_st_req (mk_req (rq_method (st_req x0)) (rq_uri (st_req x0)) hdrs (rq_body (st_req x0))) x0) s3
                 = upd sid (fun x0 => set_st_clen (st_clen x) (set_st_req r x0)) s3).
    { eapply upd_ext; [exact G3|reflexivity]. }
    rewrite EQ. clear EQ. set (s4 := upd sid _ s3) in *. assert (W4 : wf s4) by (eapply qstep_wf; [exact W3|exact Q4]).
    assert (G4 : get s4 sid = Some (set_st_clen (st_clen x) (set_st_req r (set_st_cont false x)))) by (exact (get_upd_same s3 sid _ (fun x0 => set_st_clen (st_clen x) (set_st_req r x0)) G3)).
    destruct (st_disp x) eqn:DX; cbn [negb]; intros H; injection H as <-.
    + intros y GY. rewrite G4 in GY. injection GY as <-. left. st. rewrite DX. reflexivity.
    + eapply dispatch_post; eauto.
  - pose proof (q_main E th sh s3 sid _ G3 OD) as Q4. set (s4 := upd sid (set_st_main true) s3) in *.
    assert (W4 : wf s4) by (eapply qstep_wf; [exact W3|exact Q4]).
    assert (G4 : get s4 sid = Some (set_st_main true (set_st_cont false x))) by (apply get_upd_same, G3).
    destruct (request_fields _ fs) as [code|p] eqn:RF; [discriminate|].
    destruct (ps_method p) as [m|]; [|discriminate].
    destruct (ps_scheme p) as [sc|]; [|discriminate].
    destruct (ps_path p) as [pa|]; [|discriminate].
    destruct (ps_auth p) as [au|]; [|discriminate].
    destruct (is_nil pa || is_nil au); [discriminate|].
    destruct (negb (e_method_known E m)); [discriminate|]. rewrite ER.
    destruct (opt_mismatch _ _) eqn:OM; [discriminate|].
    set (r := mk_req m (sc ++ str "://" ++ au ++ pa) (ps_hdrs p) (rq_body (st_req x))).
    assert (CL : clen_ok r (ps_clen p)).
    { split; [intros v Hv; eapply request_fields_clen; [|exact RF|exact Hv]; exact (proj1 (ws_clen _ WX))|].
      eapply request_fields_ok; [|exact RF]. exact (proj2 (ws_clen _ WX)). }
    pose proof (q_req E th sh s4 sid _ r (ps_clen p) G4 eq_refl CL) as Q5.
    assert (EQ : upd sid (fun x0 => set_st_clen (ps_clen p) (set_st_req (mk_req m (sc ++ str "://" ++ au ++ pa) (ps_hdrs p) (rq_body (st_req x0))) x0)) s4
                 = upd sid (fun x0 => set_st_clen (ps_clen p) (set_st_req r x0)) s4).
    { eapply upd_ext; [exact G4|reflexivity]. }
    rewrite EQ. clear EQ. set (s5 := upd sid _ s4) in *. assert (W5 : wf s5) by (eapply qstep_wf; [exact W4|exact Q5]).
    intros H; injection H as <-. eapply dispatch_post; [exact AOK|exact W5|unfold s5; apply (get_upd_same _ _ _ _ G4)|exact OD].
Qed.

(** The part of the HEADERS handler after the size checks. *)
Lemma hdr_stream_eq (es eh : bool) (x : stream) :
  set_st_cont (negb eh) (let x1 := if is_state (st_state x) IDLE then set_st_state OPEN x else x in
                 if es then set_st_state (if eh then match st_state x1 with OPEN => HALF_CLOSED_REMOTE | HALF_CLOSED_LOCAL => CLOSED | st0 => st0 end else st_state x1)
                              (set_st_endr true x1) else x1) = hdr_stream es eh x.
Proof.
  destruct x. unfold hdr_stream, recv_state. st. match goal with |- context [is_state ?a _] => destruct a end; destruct es, eh; st; cbn [is_state andb]; rewrite ?orb_false_r, ?orb_true_r; reflexivity.
Qed.

Definition hdr_tail (es eh : bool) (sid : N) (tr : bool) (a : appact) (s1 : server) : server :=
  if eh then
    let '(s, okb) := process_block E sid tr a s1 in
    clear_assembly (if okb then match get s sid with Some x => if is_state (st_state x) CLOSED then try_close sid s else s | None => s end else s)
  else s1.
Lemma hdr_tail_q es eh sid tr a s1 x : wf s1 -> get s1 sid = Some (hdr_stream es eh x) -> sv_cursid s1 = sid -> N.odd sid = true ->
  act_ok a -> steps s1 (hdr_tail es eh sid tr a s1).
Proof.
  intros W G CU OD TH. unfold hdr_tail. destruct eh; [|constructor].
  pose proof (process_block_q s1 sid tr a _ W G CU eq_refl OD TH) as S. destruct (process_block E sid tr a s1) as [s2 okb]. cbn [fst] in S.
  cbn [snd] in S. destruct S as [S|[EO (T & s3 & y & S3 & A3 & G3 & F0 & F1 & F2 & F3 & EQ)]].
  - eapply qs_app; [exact S|]. eapply qs_snoc; [|apply q_clear].
    destruct okb; [|constructor]. destruct (get s2 sid); [|constructor]. destruct (is_state _ _); [apply try_close_q|constructor].
  - eapply qs_app; [exact S3|]. eapply qs_snoc; [|apply q_clear]. subst okb s2. rewrite (get_rst_false _ _ _ _ G3 A3). st.
    change (is_state CLOSED CLOSED) with true. cbn iota. rewrite (rst_true_close _ _ _ _ G3 A3). apply rst_q, (w_key _ W _ _ G).
Qed.

Lemma hdr_code_eq (es eh : bool) sid tr a base x : get base sid = Some x ->
  (let s := if is_state (st_state x) IDLE then upd sid (set_st_state OPEN) base else base in
   let s := if es then upd sid (fun x => set_st_state (if eh then match st_state x with OPEN => HALF_CLOSED_REMOTE | HALF_CLOSED_LOCAL => CLOSED | st => st end else st_state x) (set_st_endr true x)) s else s in
   if eh then
     let s := upd sid (set_st_cont false) s in
     let '(s, okb) := process_block E sid tr a s in
     let s := if okb then match get s sid with Some x => if is_state (st_state x) CLOSED then try_close sid s else s | None => s end else s in
     clear_assembly s
   else upd sid (set_st_cont true) s) = hdr_tail es eh sid tr a (upd sid (hdr_stream es eh) base).
Proof.
  intros G. cbv zeta. set (t := if es then _ else _).
  assert (ET : t = upd sid (fun x0 => let x1 := if is_state (st_state x) IDLE then set_st_state OPEN x0 else x0 in
                 if es then set_st_state (if eh then match st_state x1 with OPEN => HALF_CLOSED_REMOTE | HALF_CLOSED_LOCAL => CLOSED | st0 => st0 end else st_state x1)
                              (set_st_endr true x1) else x1) base).
  { unfold t. destruct (is_state (st_state x) IDLE), es; rewrite ?(upd_upd _ _ _ _ _ G); try reflexivity.
    rewrite (upd_some _ _ _ _ G). assert (P : forall l, find_st l sid = Some x -> put_st l sid x = l).
    { induction l as [|[k y] l IH]; [reflexivity|]. cbn [find_st put_st]. destruct (k =? sid); [intros H; injection H as ->; reflexivity|]. intros H. rewrite IH; auto. }
    rewrite P by exact G. destruct base; reflexivity. }
  assert (EC : upd sid (set_st_cont (negb eh)) t = upd sid (hdr_stream es eh) base).
  { rewrite ET, (upd_upd _ _ _ _ _ G). apply (upd_ext _ _ x); [exact G|]. apply hdr_stream_eq. }
  unfold hdr_tail. rewrite <- EC. destruct eh; reflexivity.
Qed.

Lemma on_headers_old f s b p a x : wf s -> mc s -> frame_octets_ok f -> stream_id_ok f -> fr_pl f = PHeaders b p -> alive s = true ->
  N.odd (stream_of f) = true -> stream_of f <> 0 -> get s (stream_of f) = Some x -> act_ok a ->
  hands f s (on_headers_stream E (fr_hdr f) (stream_of f) b a (note (LIn f) s)).
Proof.
  intros W M FO SI PL A OD NZ G TH. unfold on_headers_stream. set (sid := stream_of f) in *. set (n := note (LIn f) s).
  destruct (alive_ok _ A) as [OK AC]. change (get n sid) with (get s sid). rewrite G.
  destruct (st_cont x) eqn:CO.
  { destruct (hands_goaway f s PROTOCOL_ERROR W AC) as (s1 & I & S). exists s1. split; [exact I|]. eapply qs_snoc; [exact S|apply q_clear]. }
  destruct (is_state (st_state x) CLOSED || st_rstr x || st_rsts x) eqn:C.
  { exists n. split; [|constructor]. apply in_ignore. unfold ignorable. rewrite PL. right. exists x. split; [exact G|].
    apply orb_true_iff in C as [C|C]; [apply orb_true_iff in C as [C|C]|]; auto. left. apply is_state_true, C. }
  apply orb_false_iff in C as [C C3]. apply orb_false_iff in C as [C1 C2]. apply is_state_false in C1.
  destruct (is_state (st_state x) HALF_CLOSED_REMOTE) eqn:C4.
  { exists n. split; [|apply rst_q, SI]. apply in_ignore. unfold ignorable. rewrite PL. right. exists x. split; [exact G|].
    right; right; right. apply is_state_true, C4. }
  apply is_state_false in C4. cbv zeta.
  assert (PG : 0 = sv_ctl s \/ (0 = 0 /\ is_progress f = true)) by (right; split; [reflexivity|unfold is_progress; rewrite PL; reflexivity]).
  change (sv_cursid (set_sv_contn 0 (set_sv_ctl 0 n))) with (sv_cursid s).
  destruct (negb (sv_cursid s =? 0) && negb (sv_cursid s =? sid)).
  { eexists. split; [exact (in_dead f s PROTOCOL_ERROR (sv_rstc s) 0 0 (sv_cursid s) (sv_frag s) AC (w_frag _ W) PG)|]. constructor. }
  change (sv_frag (set_sv_cursid sid (set_sv_contn 0 (set_sv_ctl 0 n)))) with (sv_frag s).
  change (sv_frag (set_sv_frag (sv_frag s ++ b) (set_sv_cursid sid (set_sv_contn 0 (set_sv_ctl 0 n))))) with (sv_frag s ++ b).
  assert (BO : bytes_ok (sv_frag s ++ b)).
  { apply bytes_ok_app. split; [apply W|]. unfold frame_octets_ok in FO. rewrite PL in FO. exact FO. }
  destruct (MAX_HEADER_BLOCK_SIZE <? len (sv_frag s ++ b)) eqn:BIG.
  { eexists. split; [exact (in_dead f s ENHANCE_YOUR_CALM (sv_rstc s) 0 0 sid (sv_frag s ++ b) AC BO PG)|]. constructor. }
  apply N.ltb_ge in BIG.
  change (set_sv_frag (sv_frag s ++ b) (set_sv_cursid sid (set_sv_contn 0 (set_sv_ctl 0 n)))) with (hdr_base f sid b s).
  change (has_flag (h_flags (fr_hdr f)) FLAG_END_STREAM) with (end_stream_of f). change (has_flag (h_flags (fr_hdr f)) FLAG_END_HEADERS) with (end_headers_of f).
  assert (GB : get (hdr_base f sid b s) sid = Some x) by exact G.
  pose proof (hdr_code_eq (end_stream_of f) (end_headers_of f) sid (st_main x) a _ x GB) as EQ. cbv zeta in EQ. rewrite EQ. clear EQ.
  assert (I : instep f s (upd sid (hdr_stream (end_stream_of f) (end_headers_of f)) (hdr_base f sid b s))).
  { eapply in_hdr_old; eauto. eapply (w_idle _ W A), G. }
  eexists. split; [exact I|]. eapply hdr_tail_q; [eapply instep_wf; eauto|apply get_upd_same, GB| |exact OD|exact TH].
  rewrite (upd_some _ _ _ _ GB). reflexivity.
Qed.

Lemma on_headers_q f s b p a : wf s -> mc s -> frame_octets_ok f -> stream_id_ok f -> fr_pl f = PHeaders b p -> act_ok a ->
  hands f s (on_headers E (fr_hdr f) b a (note (LIn f) s)).
Proof.
  intros W M FO SI PL TH. unfold on_headers. fold (stream_of f). set (sid := stream_of f) in *. set (n := note (LIn f) s).
  change (alive n) with (alive s). destruct (alive s) eqn:A; cbn [negb].
  2:{ exists n. split; [|constructor]. apply in_ignore. unfold ignorable. rewrite PL. auto. }
  destruct (alive_ok _ A) as [OK AC].
  destruct (sid =? 0) eqn:Z0; [apply hands_goaway; auto|]. apply N.eqb_neq in Z0. unfold odd_id.
  destruct (N.odd sid) eqn:OD; cbn [negb]; [|apply hands_goaway; auto].
  change (get n sid) with (get s sid). destruct (get s sid) as [x|] eqn:G; [eapply on_headers_old; eauto|].
  change (sv_last n) with (sv_last s). change (sv_grace n) with (sv_grace s).
  assert (REF : forall c, hands f s (rst_stream sid c true n)).
  { intros c. eexists. split; [eapply (in_refuse f s c b p); eauto|]. unfold rst_stream. change (sv_active n) with (sv_active s). rewrite AC. cbn [negb andb].
    change (get (emit _ n) sid) with (get s sid). rewrite G. constructor. }
  destruct (sid <=? sv_last s) eqn:L; [apply REF|]. apply N.leb_gt in L.
  destruct (sv_grace s) eqn:GR; [apply REF|].
  change (active_client_streams n) with (active_client_streams s).
  destruct (OUR_MAX_CONCURRENT <=? active_client_streams s) eqn:MX; [apply REF|]. apply N.leb_gt in MX. clear REF.
  set (x := new_stream (Z.of_N (sv_ipeer n)) 65535 (sv_now n)).
  match goal with |- context [set_sv_last (N.max ?u sid)] => replace (N.max u sid) with sid by (symmetry; apply N.max_r, N.lt_le_incl; exact L) end.
  set (m := set_sv_last sid (set_sv_streams ((sid, x) :: sv_streams n) n)).
  unfold on_headers_stream.
  assert (GM : get m sid = Some x). { unfold get, m. sv. cbn [find_st]. rewrite N.eqb_refl. reflexivity. }
  rewrite GM. change (st_cont x) with false. change (is_state (st_state x) CLOSED || st_rstr x || st_rsts x) with false. cbn iota.
  change (is_state (st_state x) HALF_CLOSED_REMOTE) with false. cbn iota. cbv zeta.
  change (sv_cursid (set_sv_contn 0 (set_sv_ctl 0 m))) with (sv_cursid s).
  destruct (negb (sv_cursid s =? 0) && negb (sv_cursid s =? sid)).
  { eexists. split; [exact (in_new_dead f s PROTOCOL_ERROR 0 (sv_cursid s) (sv_frag s) b p PL G OD L AC (w_frag _ W) Z0)|]. constructor. }
  change (sv_frag (set_sv_cursid sid (set_sv_contn 0 (set_sv_ctl 0 m)))) with (sv_frag s).
  change (sv_frag (set_sv_frag (sv_frag s ++ b) (set_sv_cursid sid (set_sv_contn 0 (set_sv_ctl 0 m))))) with (sv_frag s ++ b).
  assert (BO : bytes_ok (sv_frag s ++ b)).
  { apply bytes_ok_app. split; [apply W|]. unfold frame_octets_ok in FO. rewrite PL in FO. exact FO. }
  destruct (MAX_HEADER_BLOCK_SIZE <? len (sv_frag s ++ b)) eqn:BIG.
  { eexists. split; [exact (in_new_dead f s ENHANCE_YOUR_CALM 0 sid (sv_frag s ++ b) b p PL G OD L AC BO Z0)|]. constructor. }
  apply N.ltb_ge in BIG.
  set (base := set_sv_frag (sv_frag s ++ b) (set_sv_cursid sid (set_sv_contn 0 (set_sv_ctl 0 m)))).
  change (has_flag (h_flags (fr_hdr f)) FLAG_END_STREAM) with (end_stream_of f). change (has_flag (h_flags (fr_hdr f)) FLAG_END_HEADERS) with (end_headers_of f).
  assert (GB : get base sid = Some x) by exact GM.
  pose proof (hdr_code_eq (end_stream_of f) (end_headers_of f) sid (st_main x) a base x GB) as EQ. cbv zeta in EQ. rewrite EQ. clear EQ.
  assert (I : instep f s (upd sid (hdr_stream (end_stream_of f) (end_headers_of f)) base)).
  { pose proof (in_hdr_new f s b p PL G OD A L GR MX BIG Z0) as I. fold sid in I.
    rewrite (upd_some _ _ _ _ GB). unfold base at 1, m at 1. sv. cbn [put_st]. rewrite N.eqb_refl. exact I. }
  eexists. split; [exact I|]. eapply hdr_tail_q; [eapply instep_wf; eauto|apply get_upd_same, GB| |exact OD|exact TH].
  rewrite (upd_some _ _ _ _ GB). reflexivity.
Qed.

Lemma upd_id s sid x g : get s sid = Some x -> g x = x -> upd sid g s = s.
Proof.
  intros G H. rewrite (upd_some _ _ _ _ G), H. assert (P : forall l, find_st l sid = Some x -> put_st l sid x = l).
  { induction l as [|[k y] l IH]; [reflexivity|]. cbn [find_st put_st]. destruct (k =? sid); [intros E0; injection E0 as ->; reflexivity|]. intros E0. rewrite IH; auto. }
  rewrite P by exact G. destruct s; reflexivity.
Qed.

Lemma on_continuation_q f s b a : wf s -> mc s -> frame_octets_ok f -> stream_id_ok f -> fr_pl f = PCont b -> act_ok a ->
  hands f s (on_continuation E (fr_hdr f) b a (note (LIn f) s)).
Proof.
  intros W M FO SI PL TH. unfold on_continuation. fold (stream_of f). set (sid := stream_of f) in *. set (n := note (LIn f) s).
  change (alive n) with (alive s). destruct (alive s) eqn:A; cbn [negb].
  2:{ exists n. split; [|constructor]. apply in_ignore. unfold ignorable. rewrite PL. auto. }
  destruct (alive_ok _ A) as [OK AC]. change (sv_cursid n) with (sv_cursid s).
  assert (DEAD : forall c contn frag, bytes_ok frag -> hands f s (clear_assembly (goaway c (set_sv_frag frag (set_sv_contn contn n))))).
  { intros c contn frag BF. eexists. split; [exact (in_dead f s c (sv_rstc s) (sv_ctl s) contn (sv_cursid s) frag AC BF (or_introl eq_refl))|]. apply qs_one, q_clear. }
  assert (DEAD0 : forall c, hands f s (clear_assembly (goaway c n))).
  { intros c. exact (DEAD c (sv_contn s) (sv_frag s) (w_frag _ W)). }
  destruct ((sid =? 0) || (sv_cursid s =? 0) || negb (sid =? sv_cursid s)) eqn:C; [apply DEAD0|].
  apply orb_false_iff in C as [C C3]. apply orb_false_iff in C as [C1 C2]. apply N.eqb_neq in C1. apply negb_false_iff, N.eqb_eq in C3.
  change (get n sid) with (get s sid). destruct (get s sid) as [x|] eqn:G; [|apply DEAD0].
  destruct (st_cont x) eqn:CO; cbn [negb]; [|apply DEAD0].
  assert (OD : N.odd sid = true) by (eapply M; eauto). cbv zeta.
  change (sv_contn n) with (sv_contn s). change (sv_contn (set_sv_contn (sv_contn s + 1) n)) with (sv_contn s + 1).
  destruct (MAX_CONTINUATION_FRAMES <? sv_contn s + 1) eqn:CN; [exact (DEAD _ (sv_contn s + 1) (sv_frag s) (w_frag _ W))|]. apply N.ltb_ge in CN.
  change (sv_frag (set_sv_contn (sv_contn s + 1) n)) with (sv_frag s).
  match goal with |- context [len (sv_frag ?t)] => change (sv_frag t) with (sv_frag s ++ b) end.
  assert (BO : bytes_ok (sv_frag s ++ b)).
  { apply bytes_ok_app. split; [apply W|]. unfold frame_octets_ok in FO. rewrite PL in FO. exact FO. }
  destruct (MAX_HEADER_BLOCK_SIZE <? len (sv_frag s ++ b)) eqn:BIG; [exact (DEAD _ (sv_contn s + 1) _ BO)|]. apply N.ltb_ge in BIG.
  set (base := set_sv_frag (sv_frag s ++ b) (set_sv_contn (sv_contn s + 1) n)).
  change (has_flag (h_flags (fr_hdr f)) FLAG_END_HEADERS) with (end_headers_of f).
  assert (GB : get base sid = Some x) by exact G.
  assert (I : instep f s (upd sid (set_st_cont (negb (end_headers_of f))) base)).
  { eapply in_cont; eauto. }
  destruct (end_headers_of f) eqn:EH; cbn [negb] in I; [|eexists; split; [exact I|constructor]].
  set (s1 := upd sid (set_st_cont false) base) in *. assert (W1 : wf s1) by (eapply instep_wf; eauto).
  assert (G1 : get s1 sid = Some (set_st_cont false x)) by (apply get_upd_same, GB).
  assert (CU : sv_cursid s1 = sid) by (unfold s1; rewrite (upd_some _ _ _ _ GB); symmetry; exact C3).
  exists s1. split; [exact I|].
  pose proof (process_block_q s1 sid (st_main x) a _ W1 G1 CU eq_refl OD TH) as S.
  destruct (process_block E sid (st_main x) a s1) as [s2 okb] eqn:PB. cbn [fst snd] in S.
  destruct S as [S|[EO (T & s3 & y & S3 & A3 & G3 & F0 & F1 & F2 & F3 & EQ)]].
  2:{ eapply qs_app; [exact S3|]. eapply qs_snoc; [|apply q_clear]. subst okb s2.
      pose proof (get_rst_false s3 sid INTERNAL_ERROR y G3 A3) as GT. rewrite GT. cbv zeta. st. rewrite F0.
      rewrite (upd_id _ _ _ _ GT) by reflexivity. rewrite GT. st. change (is_state CLOSED CLOSED) with true. cbn iota.
      rewrite dispatch_inert; [|intros w GW; rewrite GT in GW; injection GW as <-; left; st; rewrite orb_true_r; reflexivity|eauto].
      rewrite (rst_true_close _ _ _ _ G3 A3). apply rst_q, SI. }
  eapply qs_app; [exact S|]. eapply qs_snoc; [|apply q_clear]. destruct okb; [|constructor].
  destruct (get s2 sid) as [y|] eqn:G2; [|constructor].
  assert (W2 : wf s2) by (eapply qsteps_wf; eauto).
  destruct (qs_frame _ _ _ _ _ S sid y G2 OD) as (x1 & GX1 & QE & _). rewrite G1 in GX1. injection GX1 as <-. sth QE.
  destruct (st_endr y) eqn:EY.
  - assert (IN : inert sid s2) by (eapply process_block_post; [exact TH|exact W1|exact G1|exact CU|reflexivity|exact OD|symmetry; exact QE|exact PB]).
    set (g := set_st_state _). assert (GU : get (upd sid g s2) sid = Some (g y)) by (apply get_upd_same, G2). rewrite GU.
    assert (SU : steps s2 (upd sid g s2)).
    { unfold g. destruct (st_state y) eqn:SY; try (rewrite (upd_id _ _ _ _ G2); [constructor|rewrite <- SY; destruct y; reflexivity]).
      - apply qs_one. eapply q_open_hcr; eauto.
      - apply qs_one. eapply q_hcl_closed; eauto. }
    eapply qs_app; [exact SU|]. destruct (is_state (st_state (g y)) CLOSED); [|constructor].
    rewrite dispatch_inert; [apply try_close_q| |eauto].
    intros w GW. rewrite GU in GW. injection GW as <-. destruct (IN y G2) as [D|D]; [left; exact D|right].
    rewrite (upd_some _ _ _ _ G2). exact D.
  - rewrite G2. destruct (is_state (st_state y) CLOSED) eqn:SC; [|constructor]. apply is_state_true in SC.
    rewrite dispatch_inert; [apply try_close_q| |eauto].
    intros w GW. rewrite G2 in GW. injection GW as <-. left.
    destruct (ws_closed _ (w_st _ W2 _ _ G2) SC) as [D|[D|[_ D]]]; [| |congruence]; rewrite D, ?orb_true_r; reflexivity.
Qed.

(** ** The other handlers *)
Lemma shift_windows_q delta : sh = true -> forall order s, wf s -> steps s (shift_windows delta order s).
Proof.
  intros SH. induction order as [|sid r IH]; intros s W; cbn [shift_windows]; [constructor|].
  destruct (get s sid) as [x|] eqn:G; [|apply IH, W].
  destruct (is_state (st_state x) OPEN || is_state (st_state x) HALF_CLOSED_LOCAL || is_state (st_state x) RESERVED_LOCAL) eqn:C; [|apply IH, W].
  assert (ST : st_state x = OPEN \/ st_state x = HALF_CLOSED_LOCAL \/ st_state x = RESERVED_LOCAL).
  { apply orb_true_iff in C as [C|C]; [apply orb_true_iff in C as [C|C]|]; apply is_state_true in C; auto. }
  set (g := fun x0 => set_st_peer (st_peer x0 + delta)%Z x0).
  destruct (2147483647 <? st_peer x + delta)%Z eqn:OV.
  - destruct (sv_active s) eqn:AC.
    + rewrite (rst_upd s sid FLOW_CONTROL_ERROR x g G AC eq_refl eq_refl). eapply qs_app; [apply rst_q, (w_key _ W _ _ G)|apply goaway_q].
    + eapply qs_cons; [apply (q_shift E th sh s sid x delta SH G (or_intror AC) ST)|]. eapply qs_app; [apply rst_q, (w_key _ W _ _ G)|apply goaway_q].
  - apply Z.ltb_ge in OV. pose proof (q_shift E th sh s sid x delta SH G (or_introl OV) ST) as Q. fold g in Q.
    assert (W1 : wf (upd sid g s)) by (eapply qstep_wf; eauto).
    assert (G1 : get (upd sid g s) sid = Some (g x)) by (apply get_upd_same, G).
    eapply qs_cons; [exact Q|]. destruct (_ && _ && _); [|apply IH, W1].
    pose proof (try_send_pending_q E th sh _ sid _ W1 G1) as S. eapply qs_app; [exact S|]. apply IH. eapply qsteps_wf; eauto.
Qed.

Lemma apply_settings_q ord : sh = true -> forall es s, wf s ->
  steps s (match apply_settings es ord s with inl t => t | inr t => t end).
Proof.
  intros SH. induction es as [|[id v] r IH]; intros s W; cbn [apply_settings]; [constructor|].
  destruct (validate_setting id v) as [code|] eqn:V; [apply goaway_q|]. cbv zeta.
  match goal with |- context [apply_settings r ord ?t] => set (s1 := t) end.
  assert (S : steps s s1); [|eapply qs_app; [exact S|]; apply IH; eapply qsteps_wf; eauto].
  unfold s1. clear s1 IH. unfold validate_setting in V. 
  destruct (id =? 1) eqn:E1.
  { apply N.eqb_eq in E1. subst id. change (sv_enc (note (LSet 1 v) s)) with (sv_enc s).
    destruct (enc_peer_total (sv_enc s) v (w_enc _ W)) as (e & EE & _). rewrite EE. apply qs_one. apply q_set_table, EE. }
  destruct (id =? 2) eqn:E2.
  { apply N.eqb_eq in E2. subst id. apply qs_one. apply q_set_push. cbn in V. destruct (1 <? v) eqn:C; [discriminate|]. apply N.ltb_ge in C. exact C. }
  destruct (id =? 3) eqn:E3.
  { apply N.eqb_eq in E3. subst id. apply qs_one, q_set_streams. }
  destruct (id =? 4) eqn:E4.
  { apply N.eqb_eq in E4. subst id. cbn in V.
    assert (VB : v <= 2147483647) by (match type of V with (if ?c then _ else _) = _ => destruct c eqn:C; [discriminate|]; apply N.ltb_ge in C; exact C end).
    unfold update_initial_peer_window. pose proof (q_set_window E th sh s v SH VB) as Q. eapply qs_cons; [exact Q|].
    apply shift_windows_q; [exact SH|]. eapply qstep_wf; [exact W|exact Q]. }
  destruct (id =? 5) eqn:E5.
  { apply N.eqb_eq in E5. subst id. cbn in V.
    match type of V with (if ?c then _ else _) = _ => destruct c eqn:C; [discriminate|] end. apply orb_false_iff in C as [C1 C2]. apply N.ltb_ge in C1, C2.
    unfold MIN_MAX_FRAME_SIZE in C1. unfold MAX_FRAME_SIZE_LIMIT in C2.
    assert (EC : clamp_peer_max_frame_size v = v) by (unfold clamp_peer_max_frame_size, DEFAULT_MAX_FRAME_SIZE, MAX_FRAME_SIZE_LIMIT; lia).
    rewrite EC. apply qs_one, q_set_frame; assumption. }
  destruct (id =? 6) eqn:E6.
  { apply N.eqb_eq in E6. subst id. apply qs_one, q_set_list. }
  apply qs_one, q_set_other. apply N.eqb_neq in E1, E2, E3, E4, E5, E6. lia.
Qed.

Lemma on_settings_q f s es ord : wf s -> fr_pl f = PSettings es -> sh = true -> hands f s (on_settings (fr_hdr f) es ord (note (LIn f) s)).
Proof.
  intros W PL SH. exists (note (LIn f) s). split; [apply in_ignore; unfold ignorable; rewrite PL; exact I|].
  assert (W0 : wf (note (LIn f) s)) by (apply wf_emit, W). set (n := note (LIn f) s) in *. clearbody n. unfold on_settings.
  destruct (alive n); cbn [negb]; [|constructor]. destruct (negb _); [apply goaway_q|].
  destruct (has_flag _ _); [destruct es; [constructor|apply goaway_q]|].
  pose proof (apply_settings_q ord SH es n W0) as S. destruct (apply_settings es ord n) as [t|t]; [exact S|].
  eapply qs_app; [exact S|]. cbv zeta. change (sv_ctl (set_sv_ctl (sv_ctl t + 1) t)) with (sv_ctl t + 1).
  destruct (MAX_QUEUED_CONTROL_REPLIES <? sv_ctl t + 1) eqn:C.
  - destruct (sv_active t) eqn:AC; [apply qs_one, q_goaway; [exact AC|lia]|]. unfold goaway. change (sv_active (set_sv_ctl _ t)) with (sv_active t). rewrite AC. cbn [negb].
    apply qs_one. apply q_ctl. lia.
  - apply N.ltb_ge in C. apply qs_one. apply q_reply; [exact C|reflexivity].
Qed.

Lemma on_rst_q f s code : wf s -> fr_pl f = PRst code -> hands f s (on_rst (fr_hdr f) code (note (LIn f) s)).
Proof.
  intros W PL. unfold on_rst. fold (stream_of f). set (sid := stream_of f) in *. set (n := note (LIn f) s).
  change (alive n) with (alive s). destruct (alive s) eqn:A; cbn [negb].
  2:{ exists n. split; [|constructor]. apply in_ignore. unfold ignorable. rewrite PL. auto. }
  destruct (alive_ok _ A) as [OK AC].
  destruct (sid =? 0); [apply hands_goaway; auto|].
  change (sv_last n) with (sv_last s). change (sv_rstc n) with (sv_rstc s).
  assert (TAIL : forall c x, get s sid = Some x ->
    (c = sv_rstc s /\ N.odd sid = false \/ c = sv_rstc s + 1) -> (c = sv_rstc s \/ c <= MAX_RAPID_RESETS \/ c * 2 <= (sv_last s + 1) / 2) ->
    hands f s (try_close sid ((if (negb (st_disp x) || negb (st_ends x)) && negb (code =? NO_ERROR) then note (LErr sid code) else fun t => t)
       (upd sid (fun x => set_st_state CLOSED (set_st_err code (set_st_rstr true x))) (set_sv_rstc c n))))).
  { intros c x G C1 C2. exists (set_sv_rstc c n). split; [apply (in_rst f s code c); auto|].
    assert (GN : get (set_sv_rstc c n) sid = Some x) by exact G.
    destruct (_ && _).
    - eapply qs_cons; [apply (q_err E th sh _ sid code)|].
      rewrite (try_close_eq _ sid (set_st_state CLOSED (set_st_err code (set_st_rstr true x)))); [|exact (get_upd_same _ _ _ _ GN)|reflexivity].
      change (erase sid (note ?i (upd sid ?g ?t))) with (note i (erase sid (upd sid g t))).
      rewrite erase_upd by congruence. eapply qs_cons; [apply (q_erase E th sh _ sid)|]. apply settle_q.
    - rewrite (try_close_eq _ sid (set_st_state CLOSED (set_st_err code (set_st_rstr true x)))); [|exact (get_upd_same _ _ _ _ GN)|reflexivity].
      rewrite erase_upd by congruence. eapply qs_cons; [apply (q_erase E th sh _ sid)|]. apply settle_q. }
  destruct (sid <=? sv_last s) eqn:L.
  - apply N.leb_le in L. change (sv_rstc (set_sv_rstc (sv_rstc s + 1) n)) with (sv_rstc s + 1). change (sv_last (set_sv_rstc (sv_rstc s + 1) n)) with (sv_last s).
    destruct ((MAX_RAPID_RESETS <? sv_rstc s + 1) && ((sv_last s + 1) / 2 <? (sv_rstc s + 1) * 2)) eqn:C.
    + eexists. split; [exact (in_dead f s ENHANCE_YOUR_CALM (sv_rstc s + 1) (sv_ctl s) (sv_contn s) (sv_cursid s) (sv_frag s) AC (w_frag _ W) (or_introl eq_refl))|]. constructor.
    + assert (C' : sv_rstc s + 1 = sv_rstc s \/ sv_rstc s + 1 <= MAX_RAPID_RESETS \/ (sv_rstc s + 1) * 2 <= (sv_last s + 1) / 2).
      { apply andb_false_iff in C as [C|C]; apply N.ltb_ge in C; auto. }
      change (get (set_sv_rstc (sv_rstc s + 1) n) sid) with (get s sid). destruct (get s sid) as [x|] eqn:G.
      * specialize (TAIL (sv_rstc s + 1) x eq_refl (or_intror eq_refl) C'). destruct (_ && _) in *; exact TAIL.
      * change (sv_last (set_sv_rstc (sv_rstc s + 1) n)) with (sv_last s).
        assert (LL : (sv_last s <? sid) = false) by (apply N.ltb_ge; exact L). rewrite LL.
        eexists. split; [apply (in_rst f s code (sv_rstc s + 1)); auto|constructor].
  - apply N.leb_gt in L. change (get n sid) with (get s sid). destruct (get s sid) as [x|] eqn:G.
    + assert (EV : N.odd sid = false).
      { destruct (N.odd sid) eqn:OD; [|reflexivity]. pose proof (w_odd _ W _ _ G OD). lia. }
      specialize (TAIL (sv_rstc s) x eq_refl (or_introl (conj eq_refl EV)) (or_introl eq_refl)).
      change (set_sv_rstc (sv_rstc s) n) with n in TAIL. destruct (_ && _) in *; exact TAIL.
    + change (sv_last n) with (sv_last s). assert (LL : (sv_last s <? sid) = true) by (apply N.ltb_lt; exact L). rewrite LL.
      apply hands_goaway; auto.
Qed.

Lemma goaway_streams_q last code : forall order s, steps s (goaway_streams last code order s) /\ sv_grace (goaway_streams last code order s) = sv_grace s.
Proof.
  induction order as [|sid r IH]; intros s; cbn [goaway_streams]; [split; [constructor|reflexivity]|].
  destruct (get s sid) as [x|]; [|apply IH].
  assert (ER : forall c, steps s (goaway_streams last code r (erase sid (note (LErr sid c) s))) /\
                         sv_grace (goaway_streams last code r (erase sid (note (LErr sid c) s))) = sv_grace s).
  { intros c. destruct (IH (erase sid (note (LErr sid c) s))) as [I1 I2]. split; [|exact I2].
    eapply qs_cons; [apply (q_err E th sh s sid c)|]. eapply qs_cons; [apply (q_erase E th sh _ sid)|exact I1]. }
  destruct (negb (odd_id sid)).
  - cbv zeta. match goal with |- context [if ?b then _ else _] => destruct b end; [apply ER|apply IH].
  - match goal with |- context [if ?b then _ else _] => destruct b end; [apply ER|apply IH].
Qed.

Lemma on_goaway_q f s last code dbg ord : fr_pl f = PGoaway last code dbg -> hands f s (on_goaway last code ord (note (LIn f) s)).
Proof.
  intros PL. exists (note (LIn f) s). split; [apply in_ignore; unfold ignorable; rewrite PL; exact I|].
  set (n := note (LIn f) s). clearbody n. unfold on_goaway. destruct (negb (sv_ok n) && sv_grace n); [constructor|].
  set (t := note (LBye code last) (set_sv_gal last (set_sv_grace true n))).
  assert (Q : qstep E th sh n t) by (apply q_bye). eapply qs_cons; [exact Q|].
  destruct (goaway_streams_q last code (ord (map fst (sv_streams t))) t) as [S GR]. change (sv_grace t) with true in GR.
  set (u := goaway_streams last code (ord (map fst (sv_streams t))) t) in *. eapply qs_app; [exact S|].
  assert (D : steps u (set_sv_ok false (set_sv_active false u))).
  { apply qs_one, q_down_both, GR. }
  destruct (negb (code =? NO_ERROR)); [exact D|]. destruct (all_relevant_closed _ _); [exact D|constructor].
Qed.

Lemma flush_pending_q : forall order s, wf s -> steps s (flush_pending order s).
Proof.
  induction order as [|sid r IH]; intros s W; cbn [flush_pending]; [constructor|].
  destruct (get s sid) as [x|] eqn:G; [|apply IH, W]. destruct (st_pend x); [|apply IH, W].
  pose proof (try_send_pending_q E th sh _ sid _ W G) as S. eapply qs_app; [exact S|].
  destruct (negb _); [constructor|]. apply IH. eapply qsteps_wf; eauto.
Qed.

Lemma on_window_update_q f s inc ord : wf s -> frame_octets_ok f -> stream_id_ok f -> fr_pl f = PWindow inc ->
  hands f s (on_window_update (fr_hdr f) inc ord (note (LIn f) s)).
Proof.
  intros W FO SI PL. unfold on_window_update. fold (stream_of f). set (sid := stream_of f) in *. set (n := note (LIn f) s).
  assert (IG : forall t, steps n t -> hands f s t).
  { intros t S. exists n. split; [apply in_ignore; unfold ignorable; rewrite PL; exact I|exact S]. }
  destruct (inc =? 0); [destruct (sid =? 0); apply IG; [apply goaway_q|apply rst_q, SI]|].
  destruct (sid =? 0) eqn:Z0.
  { apply N.eqb_eq in Z0. change (sv_csend n) with (sv_csend s).
    destruct (2147483647 - Z.of_N inc <? sv_csend s)%Z eqn:OV; [apply IG, goaway_q|]. apply Z.ltb_ge in OV.
    assert (I1 : instep f s (set_sv_csend (sv_csend s + Z.of_N inc)%Z n)) by (apply in_cup; auto; lia).
    eexists. split; [exact I1|]. apply flush_pending_q. eapply instep_wf; eauto. }
  change (get n sid) with (get s sid). destruct (get s sid) as [x|] eqn:G; [|destruct (_ <? _); apply IG; [apply goaway_q|constructor]].
  destruct (is_state (st_state x) IDLE); [apply IG, rst_q, SI|].
  destruct (is_state (st_state x) CLOSED); [destruct (_ <? _)%Z; apply IG; [apply rst_q, SI|constructor]|].
  destruct (_ <? _)%Z; [apply IG, rst_q, SI|].
  assert (I1 : instep f s (upd sid (fun x => set_st_peer (st_peer x + Z.of_N inc)%Z x) n)) by (eapply in_pup; eauto).
  eexists. split; [exact I1|]. destruct (st_pend x); [|constructor].
  eapply try_send_pending_q; [eapply instep_wf; eauto|]. apply (get_upd_same n sid x _ G).
Qed.

Lemma on_ping_q f s o : fr_pl f = PPing o -> hands f s (on_ping (fr_hdr f) o (note (LIn f) s)).
Proof.
  intros PL. exists (note (LIn f) s). split; [apply in_ignore; unfold ignorable; rewrite PL; exact I|].
  set (n := note (LIn f) s). clearbody n. unfold on_ping. destruct (negb _); [constructor|]. destruct (negb _); [apply goaway_q|].
  destruct (has_flag _ _); [constructor|]. cbv zeta. change (sv_ctl (set_sv_ctl (sv_ctl n + 1) n)) with (sv_ctl n + 1).
  destruct (MAX_QUEUED_CONTROL_REPLIES <? sv_ctl n + 1) eqn:C.
  - destruct (sv_active n) eqn:AC; [apply qs_one, q_goaway; [exact AC|lia]|]. unfold goaway. change (sv_active (set_sv_ctl _ n)) with (sv_active n). rewrite AC. cbn [negb].
    apply qs_one. apply q_ctl. lia.
  - apply N.ltb_ge in C. apply qs_one. apply q_reply; [exact C|reflexivity].
Qed.

Definition is_settings (f : frame) : bool := match fr_pl f with PSettings _ => true | _ => false end.

Lemma on_frame_q f a ord s : wf s -> mc s -> event_ok (SFrame f a ord) -> (snd a = true -> th = true) -> (is_settings f = true -> sh = true) ->
  hands f s (on_frame E f a ord (note (LIn f) s)).
Proof.
  intros W M (FO & SI & _ & CK) TH SH. unfold on_frame. unfold is_settings in SH. assert (AO : act_ok a) by (split; assumption).
  destruct (fr_pl f) as [d pad|b p|pr|code|es|prom b|o|last code dbg|inc|b] eqn:PL.
  - apply on_data_q; auto.
  - eapply on_headers_q; eauto.
  - exists (note (LIn f) s). split; [apply in_ignore; unfold ignorable; rewrite PL; exact I|].
    unfold on_priority. destruct (negb _); [constructor|]. destruct (_ =? _); [apply goaway_q|constructor].
  - apply on_rst_q; auto.
  - apply on_settings_q; auto.
  - exists (note (LIn f) s). split; [apply in_ignore; unfold ignorable; rewrite PL; exact I|apply goaway_q].
  - apply on_ping_q; auto.
  - eapply on_goaway_q; eauto.
  - apply on_window_update_q; auto.
  - apply on_continuation_q; auto.
Qed.

(** One event. *)
Definition throws (e : sevent) : bool := match e with SFrame _ a _ => snd a | _ => false end.
Definition sets (e : sevent) : bool := match e with SFrame f _ _ => is_settings f | _ => false end.
Lemma step_q s e : wf s -> mc s -> event_ok e -> (throws e = true -> th = true) -> (sets e = true -> sh = true) ->
  match e with
  | SFrame f _ _ => if sv_ok s then hands f s (step E s e) else step E s e = s
  | _ => steps s (step E s e)
  end.
Proof.
  intros W M EO TH SH. destruct e as [|f a ord|code sid| |c|t]; cbn [step].
  - unfold on_preface. destruct (alive s) eqn:A; cbn [negb]; [|constructor]. destruct (sv_setsent s); [constructor|]. apply qs_one, q_settings_out, A.
  - destruct (sv_ok s) eqn:OK; [|reflexivity]. apply on_frame_q; auto.
  - unfold on_framer_error. eapply qs_cons; [apply q_down_ok|]. destruct (negb _); [apply rst_q, EO|apply goaway_q].
  - apply qs_one, q_down_ok.
  - apply run_cmd_q; [exact EO|exact W].
  - apply qs_one, q_tick.
Qed.
End HANDLERS.

(** Induction over a run: an invariant closed under the receiving steps and the elementary steps holds throughout. *)
Lemma step_wf_mc E s e : wf s -> mc s -> event_ok e -> wf (step E s e) /\ mc (step E s e).
Proof.
  intros W M EO. pose proof (step_q E true true s e W M EO (fun _ => eq_refl) (fun _ => eq_refl)) as H.
  destruct e as [|f a ord|code sid| |c|t]; try solve [split; [eapply qsteps_wf; eauto|eapply mc_qs; eauto]].
  destruct (sv_ok s); [|rewrite H; auto]. destruct H as (s1 & I & S). destruct EO as (FO & SI & _).
  split; [eapply qsteps_wf; [|exact S]; eapply instep_wf; eauto|eapply mc_qs; [|exact S]; eapply mc_in; eauto].
Qed.

Lemma wf_init : wf server_init.
Proof.
  constructor; try (cbn; auto; discriminate).
  - exists []. apply dwf_init.
  - split; [exists []; apply dwf_init|reflexivity].
  - constructor.
  - constructor.
  - reflexivity.
  - intros _. cbn. lia.
Qed.
Lemma mc_init : mc server_init.
Proof. intros k x H. discriminate. Qed.

Lemma run_snoc E es e : run E (es ++ [e]) = step E (run E es) e.
Proof. unfold run. rewrite fold_left_app. reflexivity. Qed.
Lemma run_wf E es : Forall event_ok es -> wf (run E es) /\ mc (run E es).
Proof.
  induction es as [|e es IH] using rev_ind; intros F; [split; [apply wf_init|apply mc_init]|].
  apply Forall_app in F as [F1 F2]. inversion F2; subst. rewrite run_snoc. destruct (IH F1). apply step_wf_mc; auto.
Qed.

(** [th], [sh]: whether handlers may throw, whether SETTINGS may be received, in the runs considered. *)
Lemma run_invariant E (th sh : bool) (Inv : server -> Prop) :
  Inv server_init ->
  (forall f s s', sv_ok s = true -> wf s -> mc s -> frame_octets_ok f -> stream_id_ok f -> Inv s -> instep f s s' -> Inv s') ->
  (forall s s', wf s -> mc s -> Inv s -> qstep E th sh s s' -> Inv s') ->
  forall es, Forall event_ok es -> Forall (fun e => (throws e = true -> th = true) /\ (sets e = true -> sh = true)) es -> Inv (run E es).
Proof.
  intros I0 II IQ. assert (QS : forall s s', qsteps E th sh s s' -> wf s -> mc s -> Inv s -> Inv s').
  { induction 1; auto. intros W M V. apply IHqsteps; [eapply qstep_wf; eauto|eapply mc_q; eauto|eapply IQ; eauto]. }
  induction es as [|e es IH] using rev_ind; intros F G; [exact I0|].
  apply Forall_app in F as [F1 F2]. apply Forall_app in G as [G1 G2]. inversion F2; subst. inversion G2; subst.
  rewrite run_snoc. destruct (run_wf E es F1) as [W M]. specialize (IH F1 G1). set (s := run E es) in *.
  destruct H3 as [TH SH]. pose proof (step_q E th sh s e W M H1 TH SH) as H.
  destruct e as [|f a ord|code sid| |c|t]; try solve [eapply QS; eauto].
  destruct (sv_ok s) eqn:OK; [|rewrite H; exact IH]. destruct H as (s1 & I & S). destruct H1 as (FO & SI & _).
  eapply QS; [exact S|eapply instep_wf; eauto|eapply mc_in; eauto|]. eapply II; eauto.
Qed.
