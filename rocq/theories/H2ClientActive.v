(** The number of streams the HTTP/2 client has open at once. *)
From Verif Require Import Base UtilModel HpackTables HpackModel HpackSpec DynTableProofs HpackCodecProofs HpackConnProofs
  H2Model H2Proofs H2FieldModel H2ClientModel H2ClientSpec H2ClientSteps H2ClientAgree H2ClientInv H2ClientLedger H2ClientSend H2ClientLimits.
From Verif Require H2ServerSteps H2Props.
Local Open Scope N_scope.

(** What the context of a stream says has happened, has happened. *)
Record says (l : list citem) (g : bool) (k : N) (x : cstream) : Prop := mk_says {
  sy_st : st_ok x; sy_ends : cs_ends x = true -> end_sent k l; sy_endr : cs_endr x = true -> ended k l;
  sy_rsts : cs_rsts x = true -> reset_sent k l; sy_rstr : cs_rstr x = true -> reset_received k l \/ g = true }.
Record near (l : list citem) (g : bool) (k : N) (y x : cstream) : Prop := mk_near {
  nr_st : st_ok x -> st_ok y; nr_ends : cs_ends y = true -> cs_ends x = true \/ end_sent k l;
  nr_endr : cs_endr y = true -> cs_endr x = true \/ ended k l; nr_rsts : cs_rsts y = true -> cs_rsts x = true \/ reset_sent k l;
  nr_rstr : cs_rstr y = true -> cs_rstr x = true \/ reset_received k l \/ g = true }.
Definition over (x : cstream) : bool := in_state (cs_state x) CLOSED || cs_rsts x || cs_rstr x.
Definition held (s : client) : Prop :=
  (forall k x, cget s k = Some x -> says (cl_log s) (cl_rga s) k x) /\
  (cl_rga s = false -> forall k, stream_open k (cl_log s) -> cget s k <> None).
Definition act_inv (s : client) : Prop := cl_next s <= 2 ^ 31 -> always within_limit (cl_log s) /\ (calive s = true -> held s).

Lemma more_out (P : frame -> Prop) l0 l : (exists f, In (LOut f) l /\ P f) -> exists f, In (LOut f) (l0 ++ l) /\ P f.
Proof. intros (f & Hf & Q). exists f. split; [apply in_or_app; right; exact Hf|exact Q]. Qed.
Lemma more_in (P : frame -> Prop) l0 l : (exists f, In (LIn f) l /\ P f) -> exists f, In (LIn f) (l0 ++ l) /\ P f.
Proof. intros (f & Hf & Q). exists f. split; [apply in_or_app; right; exact Hf|exact Q]. Qed.
Lemma near_refl l g k x : near l g k x x.
Proof. constructor; auto. Qed.
Lemma says_near l0 l g g' k x y : says l g k x -> (g = true -> g' = true) -> near (l0 ++ l) g' k y x -> says (l0 ++ l) g' k y.
Proof.
  intros [S1 S2 S3 S4 S5] HG [N1 N2 N3 N4 N5]. constructor; auto.
  - intros E. destruct (N2 E) as [E2|?]; [|assumption]. apply more_out, S2, E2.
  - intros E. destruct (N3 E) as [E2|?]; [|assumption]. apply more_in, S3, E2.
  - intros E. destruct (N4 E) as [E2|?]; [|assumption]. apply more_out, S4, E2.
  - intros E. destruct (N5 E) as [E2|?]; [|assumption]. destruct (S5 E2); [left; apply more_in; assumption|right; auto].
Qed.
(** A stream whose context is over is not open. *)
Lemma over_closed l k x : says l false k x -> over x = true -> ~ stream_open k l.
Proof.
  intros [S1 S2 S3 S4 S5] O (_ & N1 & N2 & N3). unfold over in O. destruct (cs_rsts x) eqn:R; [apply N1, S4; reflexivity|]. destruct (cs_rstr x) eqn:T; [destruct (S5 eq_refl); [auto|discriminate]|].
  rewrite !orb_false_r in O. unfold st_ok in S1. destruct (cs_state x); try discriminate O. destruct S1 as [[E1 E2]|E]; [apply N3; split; auto|congruence].
Qed.
Definition noreq (i : citem) : Prop := match i with LReq _ _ _ => False | _ => True end.
Lemma open_before k l0 l : (forall a r, ~ In (LReq k a r) l0) -> stream_open k (l0 ++ l) -> stream_open k l.
Proof.
  intros HN ((a & r & HR) & N1 & N2 & N3). split; [|split; [|split]].
  - apply in_app_iff in HR as [HR|HR]; [destruct (HN _ _ HR)|eauto].
  - intros H. apply N1, more_out, H.
  - intros H. apply N2, more_in, H.
  - intros [H1 H2]. apply N3. split; [apply more_in, H1|apply more_out, H2].
Qed.

(** How the contexts may change from [s] to [s']. *)
Definition follow (s s' : client) : Prop :=
  (forall k y, cget s' k = Some y -> exists x, cget s k = Some x /\ near (cl_log s') (cl_rga s') k y x) /\
  (cl_rga s = false -> forall k x, cget s k = Some x -> over x = false -> cget s' k <> None).
Lemma follow_same s s' : cl_streams s' = cl_streams s -> follow s s'.
Proof. intros E. unfold follow, cget. rewrite E. split; [intros k y GY; exists y; split; [exact GY|apply near_refl]|intros _ k x GX _; congruence]. Qed.
Lemma follow_put s s' sid x y : cl_streams s' = put_cs (cl_streams s) sid y -> cget s sid = Some x -> near (cl_log s') (cl_rga s') sid y x -> follow s s'.
Proof.
  intros E GX NR. unfold follow, cget in *. rewrite E. split.
  - intros k z GZ. rewrite find_put, GX in GZ. destruct (N.eqb_spec k sid) as [->|NE]; [injection GZ as <-; exists x; auto|exists z; split; [exact GZ|apply near_refl]].
  - intros _ k z GZ _. rewrite find_put, GX. destruct (k =? sid); congruence.
Qed.
Lemma follow_del s sid : (cl_rga s = false -> forall x, cget s sid = Some x -> over x = true) -> follow s (cerase sid s).
Proof.
  intros H. unfold follow, cget, cerase in *. fields. split.
  - intros k z GZ. rewrite find_del in GZ. destruct (k =? sid); [discriminate|]. exists z. split; [exact GZ|apply near_refl].
  - intros R k z GZ OZ. rewrite find_del. destruct (N.eqb_spec k sid) as [->|NE]; [rewrite (H R _ GZ) in OZ; discriminate|congruence].
Qed.
Lemma benign_near l l' g sid x y : benign sid l x y -> (st_ok x -> st_ok y) -> (cs_rstr y = true -> cs_rstr x = true \/ reset_received sid l \/ g = true) ->
  (exists l0, l' = l0 ++ l) -> near l' g sid y x.
Proof.
  intros (B1 & B2 & B3 & B4 & B5 & B6 & B7 & B8 & B9 & B10 & B11 & B12 & B13 & B14 & B15 & B16 & B17) HS HR (l0 & ->). constructor; auto.
  - rewrite B8. auto.
  - intros E. destruct (B17 E) as [?|E2]; [auto|right; apply more_in, E2].
  - rewrite B10. auto.
  - intros E. destruct (HR E) as [?|[E2|?]]; auto. right. left. apply more_in, E2.
Qed.

Lemma within_noreq l0 l : (forall i, In i l0 -> noreq i) -> always within_limit l -> always within_limit (l0 ++ l).
Proof.
  intros H A. induction l0 as [|i l0 IH]; [exact A|]. cbn [app]. apply always_cons; [apply IH; intros j Hj; apply H; right; exact Hj|].
  pose proof (H i (or_introl eq_refl)) as W. destruct i; try exact I. destruct W.
Qed.
Lemma find_in k x l : find_cs l k = Some x -> In (k, x) l.
Proof. induction l as [|[j z] l IH]; [discriminate|]. cbn [find_cs]. destruct (N.eqb_spec j k) as [->|NE]; [intros E; injection E as ->; left; reflexivity|right; auto]. Qed.
(** The streams open are among those counted as active. *)
Lemma open_counted s ks : (forall k x, cget s k = Some x -> N.odd k = true) -> held s -> cl_rga s = false -> NoDup ks ->
  (forall k, In k ks -> stream_open k (cl_log s)) -> N.of_nat (length ks) <= cactive_count s.
Proof.
  intros KEY [H1 H2] R ND HO. unfold cactive_count. set (act := filter _ _). rewrite <- (map_length fst act).
  assert (IN : incl ks (map fst act)).
  { intros k Hk. specialize (HO k Hk). destruct (cget s k) as [x|] eqn:GX; [|destruct (H2 R k HO GX)]. specialize (H1 k x GX). rewrite R in H1.
    apply in_map_iff. exists (k, x). split; [reflexivity|]. apply filter_In. split; [apply find_in, GX|]. cbn [fst snd]. rewrite (KEY _ _ GX).
    assert (O : over x = false) by (destruct (over x) eqn:O; [destruct (over_closed _ _ _ H1 O HO)|reflexivity]).
    unfold over in O. apply orb_false_iff in O as [O O3]. apply orb_false_iff in O as [O1 O2]. rewrite O1, O2, O3. cbn [negb].
    assert (ID : in_state (cs_state x) IDLE = false) by (pose proof (sy_st _ _ _ _ H1) as S1; unfold st_ok in S1; destruct (cs_state x); try reflexivity; destruct S1).
    rewrite ID. reflexivity. }
  pose proof (NoDup_incl_length ND IN) as L. lia.
Qed.
Lemma frames_in k f l : In f (frames_sent k l) -> In (LOut f) l /\ message_frame k f = true.
Proof.
  induction l as [|i l IH]; [intros []|]. cbn [frames_sent]. assert (W : In f (frames_sent k l) -> In (LOut f) (i :: l) /\ message_frame k f = true) by (intros H; destruct (IH H); split; [right|]; assumption).
  destruct i; auto. destruct (message_frame k f0) eqn:M; [|exact W]. intros H. apply in_app_iff in H as [H|[<-|[]]]; [auto|]. split; [left; reflexivity|exact M].
Qed.

Lemma mv_act s s' : good s -> limit_inv s -> act_inv s -> mv s s' -> act_inv s'.
Proof.
  intros G LI AI H NX'. pose proof (mv_next _ _ H) as NM. assert (NX : cl_next s <= 2 ^ 31) by (eapply N.le_trans; [exact NM|exact NX']). destruct (AI NX) as [AL HU].
  assert (KEY : forall k x, cget s k = Some x -> N.odd k = true /\ k < cl_next s /\ k < 2 ^ 31).
  { intros k x GX. destruct (w_key _ (proj1 G) _ _ GX) as [O L]. destruct (w_next _ (proj1 G)) as (_ & L1 & _). split; [exact O|]. split; lia. }
  assert (GEN : forall l0, cl_log s' = l0 ++ cl_log s -> (forall i, In i l0 -> noreq i) ->
     (calive s' = true -> calive s = true /\ (cl_rga s = true -> cl_rga s' = true) /\ follow s s') ->
     always within_limit (cl_log s') /\ (calive s' = true -> held s')).
  { intros l0 EL HN HA. split; [rewrite EL; apply within_noreq; assumption|]. intros A'. destruct (HA A') as (A & RG & F1 & F2). destruct (HU A) as [U1 U2].
    assert (RG2 : cl_rga s' = false -> cl_rga s = false) by (intros R; destruct (cl_rga s); [rewrite RG in R by reflexivity; discriminate|reflexivity]).
    split.
    - intros k y GY. destruct (F1 k y GY) as (x & GX & NR). rewrite EL in *. exact (says_near _ _ _ _ _ _ _ (U1 k x GX) RG NR).
    - intros R k O. specialize (RG2 R). rewrite EL in O. apply open_before in O; [|intros a r Hr; exact (HN _ Hr)].
      destruct (cget s k) as [x|] eqn:GX; [|destruct (U2 RG2 k O GX)]. apply (F2 RG2 k x GX).
      specialize (U1 k x GX). rewrite RG2 in U1. destruct (over x) eqn:OX; [destruct (over_closed _ _ _ U1 OX O)|reflexivity]. }
  Ltac nq := let i := fresh "i" in let Hi := fresh "Hi" in intros i Hi; cbn [In Datatypes.app] in Hi; repeat (destruct Hi as [Hi|Hi]; [subst i|]); try destruct Hi; exact I.
  Ltac nself := constructor; cs; auto.
  Ltac follows := first [apply follow_same; reflexivity|eapply follow_put; [reflexivity|eassumption|]].
  clear AI NX. destruct H.
  all: try solve [first [apply (GEN []); [reflexivity|nq|intros A; split; [exact A|split; [auto|]]; follows; nself]
                        |eapply (GEN [_]); [reflexivity|nq|intros A; split; [exact A|split; [auto|]]; follows; nself]]].
  - apply (GEN (LBye code last :: LOut (cgoaway_frame last code) :: pre)); [exact H1| |unfold calive; rewrite H2, H3; discriminate].
    destruct H0 as [->|[(f & -> & _)|(v & ->)]]; nq.
  - apply (GEN []); [exact H0|nq|intros A; unfold calive in A, H; rewrite H1, H2 in A; congruence].
  - (* RST_STREAM sent *) destruct (KEY _ _ H0) as (KO & KL & KB).
    apply (GEN ((if cs_disp x then [] else [LErr sid code]) ++ LOut (crst_frame sid code) :: pre)); [reflexivity| |intros A; split; [exact A|split; [auto|]]].
    + destruct H2 as [->|(f & -> & _)]; destruct (cs_disp x); nq.
    + eapply follow_put; [reflexivity|eassumption|]. constructor; cs; auto. intros _. right. exists (crst_frame sid code). fields. split; [apply in_or_app; left; apply in_or_app; right; left; reflexivity|].
      split; [apply stream_mk, KB|eexists; reflexivity].
  - (* RST_STREAM received *) apply (GEN [LErr sid code]); [reflexivity|nq|intros A; split; [exact A|split; [auto|]]].
    eapply follow_put; [reflexivity|eassumption|]. destruct H4 as [S1 S2]. eapply benign_near; [exact H2|exact S1|exact S2|exists [LErr sid code]; reflexivity].
  - apply (GEN (out ++ [LIn f])); [reflexivity| |intros A; split; [exact A|split; [auto|apply follow_same; reflexivity]]]. destruct H3 as [->| ->]; nq.
  - destruct (csend_wu_cases 0 (cl_cproc s) s) as [EW|(EW & ? & ?)]; rewrite EW in *; [apply (GEN [])|eapply (GEN [_])];
      (reflexivity || nq || (intros A; split; [exact A|split; [auto|apply follow_same; reflexivity]])).
  - apply (GEN []); [reflexivity|nq|intros A; split; [exact A|split; [auto|]]].
    eapply follow_put; [reflexivity|eassumption|]. destruct H1 as [S1 S2]. eapply benign_near; [exact H0|exact S1|exact S2|exists []; reflexivity].
  - apply (GEN []); [reflexivity|nq|intros A; split; [exact A|split; [auto|]]]. apply follow_del. exact H.
  - (* open *) destruct (w_next _ (proj1 G)) as (NO & _ & _). destruct (HU H) as [U1 U2]. assert (LB : cl_next s < 2 ^ 31) by (clh NX'; unfold addlog in NX'; clh NX'; lia).
    assert (KN : forall k x, cget s k = Some x -> N.odd k = true) by (intros k x GX; exact (proj1 (KEY _ _ GX))).
    destruct (open_sent (cl_next s) (cl_next s) (open_flags r) (cl_pmax s) block LB) as (f & FS & _ & FE & _). rewrite N.eqb_refl in FS.
    set (hs := rev (map LOut (send_headers (cl_next s) (open_flags r) (cl_pmax s) block))) in *.
    assert (HP : forall i, In i hs -> noreq i) by (intros i Hi; destruct (open_item _ _ _ _ _ Hi) as (g & -> & _); exact I).
    assert (FI : In (LOut f) hs /\ message_frame (cl_next s) f = true) by (apply frames_in; rewrite FS; left; reflexivity).
    fields. rewrite <- app_assoc. cbn [Datatypes.app]. split.
    + apply within_noreq; [exact HP|]. apply always_cons; [exact AL|]. intros ks ND HO. rewrite <- (proj1 (LI H)).
      eapply N.le_lt_trans; [apply (open_counted s ks KN (conj U1 U2) H0 ND HO)|exact H1].
    + intros A. unfold held. fields. rewrite <- ?app_assoc. cbn [Datatypes.app]. rewrite H0 in *.
      assert (EH : hs ++ LReq (cl_next s) app r :: cl_log s = (hs ++ [LReq (cl_next s) app r]) ++ cl_log s) by (rewrite <- app_assoc; reflexivity). split.
      * intros k z GZ. unfold cget in *. clh GZ. rewrite find_cons in GZ. destruct (N.eqb_spec k (cl_next s)) as [->|NE].
        -- injection GZ as <-. unfold opened. cbv zeta. set (fin := negb (negb (no_bytes (q_body r))) && negb (q_wtrail r)).
           assert (EF : open_flags r = if fin then FLAG_END_STREAM else 0) by reflexivity.
           assert (ES : fin = true -> end_sent (cl_next s) (hs ++ LReq (cl_next s) app r :: cl_log s)).
           { intros E. exists f. destruct FI as [F1 F2]. split; [apply in_or_app; left; exact F1|]. split; [exact F2|]. rewrite FE, EF, E. reflexivity. }
           clearbody fin. destruct (negb (no_bytes (q_body r)) || q_wtrail r); constructor; unfold st_ok; cs; try discriminate; try exact ES; destruct fin; auto.
        -- rewrite EH. apply (says_near _ _ false _ _ z z); [exact (U1 _ _ GZ)|auto|apply near_refl].
      * intros _ k O. unfold cget in *. fields. rewrite find_cons. destruct (N.eqb_spec k (cl_next s)) as [->|NE]; [discriminate|]. apply (U2 eq_refl). revert O. rewrite EH. apply open_before.
        intros a q Hq. apply in_app_iff in Hq as [Hq|[Hq|[]]]; [exact (HP _ Hq)|congruence].
  - (* chunk *) destruct (KEY _ _ H0) as (KO & KL & KB). eapply (GEN [_]); [reflexivity|nq|intros A; split; [exact A|split; [auto|]]].
    eapply follow_put; [reflexivity|eassumption|]. unfold sent_chunk. destruct fin; [|nself]. constructor; cs; auto.
    + unfold st_ok. cs. destruct (cs_state x); auto. intros [[? ?]|?]; auto.
    + intros _. right. eexists. fields. split; [left; reflexivity|]. split; [unfold message_frame, cdata_frame; rewrite stream_mk by exact KB; rewrite N.eqb_refl; reflexivity|reflexivity].
  - (* trailers *) destruct (KEY _ _ H0) as (KO & KL & KB). eapply (GEN [_]); [reflexivity|nq|intros A; split; [exact A|split; [auto|]]].
    eapply follow_put; [reflexivity|eassumption|]. constructor; cs; auto.
    + unfold st_ok. cs. destruct (cs_state x); auto. intros [[? ?]|?]; auto.
    + intros _. right. eexists. fields. split; [left; reflexivity|]. split; [unfold message_frame, ctrailer_frame; rewrite stream_mk by exact KB; rewrite N.eqb_refl; reflexivity|reflexivity].
  - assert (ER : cl_rga s' = cl_rga s) by (rewrite H2; destruct (id =? 1); [destruct (enc_set_peer_max _ _); reflexivity|]; destruct (id =? 3); [reflexivity|]; destruct (id =? 5); reflexivity).
    setc. apply (GEN [LSet id v]); [fields; rewrite EL; reflexivity|nq|intros A; split; [exact H|split; [fields; rewrite ER; auto|apply follow_same; exact EST]]].
  - apply (GEN [LSet 4 v]); [reflexivity|nq|intros A; split; [exact H|split; [auto|]]]. unfold follow, cget. fields. split.
    + intros k z GZ. rewrite find_shift in GZ. destruct (find_cs (cl_streams s) k) as [x|] eqn:E; [|discriminate]. cbn [option_map] in GZ. injection GZ as <-. exists x. split; [reflexivity|].
      unfold cshift. cbn [fst snd]. destruct (N.odd k); cbn [snd]; [nself|apply near_refl].
    + intros _ k x GX _. rewrite find_shift, GX. discriminate.
  - destruct (parse_same _ _ _ _ H2) as (B1 & B2 & B3 & B4 & B5 & B6 & B7 & B8 & B9 & B10 & B11 & B12 & B13 & B14 & B15 & _). apply (GEN [LBlock sid fs]); [reflexivity|nq|intros A; split; [exact A|split; [auto|]]].
    eapply follow_put; [reflexivity|eassumption|]. constructor; unfold st_ok; cs; rewrite ?B8, ?B10, ?B12, ?B13, ?B15; auto.
  - apply (GEN []); [reflexivity|nq|discriminate].
Qed.
