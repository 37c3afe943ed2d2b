(** Every handler of the HTTP/2 client is a sequence of elementary steps and leaves a clean state. *)
From Verif Require Import Base UtilModel HpackTables HpackModel HpackSpec DynTableProofs HpackCodecProofs HpackConnProofs
  H2Model H2Proofs H2FieldModel H2ClientModel H2ClientSpec H2ClientSteps H2ClientAgree.
From Verif Require H2ServerSteps.
Local Open Scope N_scope.

(** A stream context as it must be between two events. *)
Definition tidy (ok : bool) (h k : N) (x : cstream) : Prop :=
  cs_rsts x = false /\ cs_rstr x = false /\ clen (cs_body x) <= C_MAX_BODY /\ (ok = true -> cs_proc x < 32767 /\ (h = k -> cs_cont x = true)).
Definition clean_but (P : N -> Prop) (s : client) : Prop :=
  (forall k x, ~ P k -> cget s k = Some x -> tidy (cl_ok s) (cl_hsid s) k x) /\ (cl_ok s = true -> cl_active s = true).
Definition nobody (_ : N) : Prop := False.
Definition clean (s : client) : Prop := clean_but nobody s.

(** What is left alone, apart from the streams in [P]. *)
Record aft (P : N -> Prop) (s s' : client) : Prop := mk_aft {
  af_old : forall k x, ~ P k -> cget s k = Some x -> cget s' k = Some x;
  af_new : forall k y, ~ P k -> cget s' k = Some y -> cget s k = None -> tidy true (cl_hsid s) k y;
  af_ok : cl_ok s' = true -> cl_ok s = true;
  af_act : cl_ok s' = true -> cl_active s = true -> cl_active s' = true;
  af_dead : cl_active s' = true -> cl_active s = true;
  af_log : exists l0, cl_log s' = l0 ++ cl_log s /\ forall k i, In i l0 -> neutral k i;
  af_rga : cl_rga s' = cl_rga s; af_hsid : cl_hsid s' = cl_hsid s;
  af_keep : cl_rga s = true -> forall k, ~ P k -> cget s' k = cget s k }.
Lemma aft_refl P s : aft P s s.
Proof. constructor; auto; [intros; congruence|]. exists []. split; [reflexivity|intros ? ? []]. Qed.
Lemma aft_trans P s s1 s2 : aft P s s1 -> aft P s1 s2 -> aft P s s2.
Proof.
  intros [] []. constructor; auto.
  - intros k y NP G2 G. destruct (cget s1 k) as [z|] eqn:E; [|rewrite <- af_hsid0; eauto]. pose proof (af_old1 k z NP E) as G3. assert (y = z) by congruence. subst. eauto.
  - destruct af_log0 as (a & A1 & A2), af_log1 as (b & B1 & B2). exists (b ++ a). split; [rewrite B1, A1, app_assoc; reflexivity|].
    intros k i Hi. apply in_app_iff in Hi as [Hi|Hi]; auto.
  - congruence.
  - congruence.
  - intros R k NP. rewrite af_keep1 by (congruence || assumption). auto.
Qed.
Lemma aft_weaken (P Q : N -> Prop) s s' : (forall k, P k -> Q k) -> aft P s s' -> aft Q s s'.
Proof. intros H []. constructor; auto; eauto. Qed.
Definition only (sid k : N) : Prop := k = sid.
Lemma aft_local sid s s' l0 : (forall k, k <> sid -> cget s' k = cget s k) -> cl_ok s' = cl_ok s -> cl_active s' = cl_active s -> cl_rga s' = cl_rga s -> cl_hsid s' = cl_hsid s ->
  cl_log s' = l0 ++ cl_log s -> (forall k i, In i l0 -> neutral k i) -> aft (only sid) s s'.
Proof.
  intros G E1 E2 E3 EH E4 HN. constructor.
  - intros k x NP H. rewrite G; auto.
  - intros k y NP H1 H2. rewrite G in H1 by auto. congruence.
  - congruence.
  - congruence.
  - congruence.
  - exists l0. auto.
  - exact E3.
  - exact EH.
  - intros _ k NP. apply G. auto.
Qed.
Lemma aft_here P s s' l0 : (forall k, cget s' k = cget s k) -> cl_ok s' = cl_ok s -> cl_active s' = cl_active s -> cl_rga s' = cl_rga s -> cl_hsid s' = cl_hsid s ->
  cl_log s' = l0 ++ cl_log s -> (forall k i, In i l0 -> neutral k i) -> aft P s s'.
Proof.
  intros G E1 E2 E3 EH E4 HN. constructor.
  - intros k x NP H. rewrite G; exact H.
  - intros k y NP H1 H2. rewrite G in H1. congruence.
  - congruence.
  - congruence.
  - congruence.
  - exists l0. auto.
  - exact E3.
  - exact EH.
  - intros _ k NP. apply G.
Qed.
Lemma aft_resp P s s' k x : aft P s s' -> resp_ok k x (cl_log s) -> resp_ok k x (cl_log s').
Proof. intros [] R. destruct af_log0 as (l0 & -> & HN). apply resp_ok_notes; auto. Qed.
Lemma aft_clean P s s' : clean_but P s -> aft P s s' -> clean_but P s'.
Proof.
  intros [C1 C2] []. split.
  - intros k y NP G. destruct (cget s k) as [x|] eqn:E.
    + pose proof (af_old0 _ _ NP E) as G1. assert (x = y) by congruence. subst. destruct (C1 _ _ NP E) as (A & B & C & D). repeat (split; [assumption|]). intros O. rewrite af_hsid0. auto.
    + destruct (af_new0 _ _ NP G E) as (A & B & C & D). repeat (split; [assumption|]). intros O. rewrite af_hsid0. auto.
  - intros O. apply af_act0; auto.
Qed.
Lemma clean_weaken (P Q : N -> Prop) s : (forall k, P k -> Q k) -> clean_but P s -> clean_but Q s.
Proof. intros H [C1 C2]. split; [|exact C2]. intros k x NQ G. apply (C1 k x); auto. Qed.
Lemma clean_only sid s : clean_but (only sid) s -> (forall x, cget s sid = Some x -> tidy (cl_ok s) (cl_hsid s) sid x) -> clean s.
Proof. intros [C1 C2] H. split; auto. intros k x _ G. destruct (N.eq_dec k sid) as [->|NE]; [auto|]. apply (C1 k x); auto. Qed.
Lemma clean_any P s : clean s -> clean_but P s.
Proof. apply clean_weaken. intros k []. Qed.
Lemma cget_cerase s sid k : cget (cerase sid s) k = if k =? sid then None else cget s k.
Proof. unfold cget, cerase. cl. apply find_del. Qed.
Lemma cget_setst_other s sid y k : k <> sid -> cget (setst sid y s) k = cget s k.
Proof. intros NE. unfold cget, setst. cl. rewrite find_put, (proj2 (N.eqb_neq k sid) NE). reflexivity. Qed.
Lemma neutral_nil : forall k i, In i [] -> neutral k i. Proof. intros k i []. Qed.
Lemma neutral_single j : (forall k, neutral k j) -> forall k i, In i [j] -> neutral k i.
Proof. intros H k i [<-|[]]. apply H. Qed.
Lemma aft_erase sid s : aft (only sid) s (cerase sid s).
Proof.
  apply (aft_local sid s _ []); try reflexivity; [|apply neutral_nil]. intros k NE. rewrite cget_cerase, (proj2 (N.eqb_neq k sid) NE). reflexivity.
Qed.
Lemma aft_setst sid y s : aft (only sid) s (setst sid y s).
Proof. apply (aft_local sid s _ []); try reflexivity; [|apply neutral_nil]. intros k NE. apply cget_setst_other, NE. Qed.

Lemma ctry_close_cases sid s : ctry_close sid s = s \/ (ctry_close sid s = cerase sid s /\ forall x, cget s sid = Some x -> in_state (cs_state x) CLOSED || cs_rsts x || cs_rstr x = true).
Proof. unfold ctry_close. destruct (cget s sid) eqn:E; [|auto]. destruct (_ || _) eqn:Q; [right; split; [reflexivity|intros x Ex; injection Ex as <-; exact Q]|auto]. Qed.
Lemma ctry_close_steps sid s : mvs s (ctry_close sid s) /\ aft (only sid) s (ctry_close sid s) /\
  (cget (ctry_close sid s) sid = None \/ ctry_close sid s = s).
Proof.
  destruct (ctry_close_cases sid s) as [->|[-> Q]].
  - split; [constructor|]. split; [apply aft_refl|auto].
  - split; [apply ms_one, m_erase; intros _; exact Q|]. split; [apply aft_erase|]. left. rewrite cget_cerase, N.eqb_refl. reflexivity.
Qed.

Definition KH (K : client -> client) : Prop := forall s, good s -> mvs s (K s) /\ aft nobody s (K s).
Lemma aft_nobody P s s' : aft nobody s s' -> aft P s s'.
Proof. apply aft_weaken. intros k []. Qed.

Section HANDLERS.
Variable K : client -> client.
Hypothesis HK : KH K.

Lemma call_steps i s s1 : good s -> mvs s (cnote i s1) -> mvs s (call K i s1) /\ aft nobody (cnote i s1) (call K i s1).
Proof.
  intros G M. unfold call. destruct (HK (cnote i s1)) as [M1 A1]; [eapply mvs_good; eauto|]. split; [eapply ms_app; eauto|exact A1].
Qed.

(** GOAWAY, from a state that has already been touched. *)
Lemma cgoaway_die s0 s pre code : good s0 -> calive s0 = true -> pre_ok pre -> cl_log s = pre ++ cl_log s0 -> cl_ok s = true -> dext s0 s ->
  mvs s0 (cgoaway K code s) /\ cl_ok (cgoaway K code s) = false /\ cl_rga (cgoaway K code s) = cl_rga s /\
  (forall k x, cget (cgoaway K code s) k = Some x -> cget s k = Some x \/ tidy true (cl_hsid s) k x).
Proof.
  intros G A HP EL OK DX. unfold cgoaway. rewrite OK. cbn [negb]. cbv zeta.
  set (last := match cl_streams s with [] => 0 | _ => cl_last s end).
  set (s1 := set_cl_active false (cemit (mk_frame (mk_h T_GOAWAY 0 0) (PGoaway last code [])) s)).
  assert (M : mvs s0 (cnote (LBye code last) s1)).
  { apply ms_one. eapply (m_die s0 _ pre last code); auto.
    - unfold s1, cemit, cnote. cl. rewrite EL. reflexivity.
    - destruct DX. constructor; assumption. }
  destruct (call_steps _ _ _ G M) as [M1 A1]. split; [eapply ms_app; [exact M1|apply ms_one, m_notok]|]. split; [reflexivity|].
  split; [exact (af_rga _ _ _ A1)|]. intros k x H. change (cget (call K (LBye code last) s1) k = Some x) in H.
  destruct (cget (cnote (LBye code last) s1) k) as [y|] eqn:E.
  - left. pose proof (af_old _ _ _ A1 k y (fun f => f) E) as E2. rewrite H in E2. injection E2 as ->. exact E.
  - right. exact (af_new _ _ _ A1 k x (fun f => f) H E).
Qed.
Lemma dext_refl s0 : good s0 -> dext s0 s0.
Proof.
  intros [[] _]. constructor; auto; [|apply N.le_refl]. intros k. destruct (cget s0 k); [|exact I]. repeat split.
Qed.
Lemma dext_log s0 s l : dext s0 s -> dext s0 (set_cl_log l s).
Proof. intros []. constructor; auto. Qed.
Lemma cgoaway_clean s0 s pre code : good s0 -> calive s0 = true -> pre_ok pre -> cl_log s = pre ++ cl_log s0 -> cl_ok s = true -> dext s0 s ->
  (forall k x, cget s k = Some x -> clen (cs_body x) <= C_MAX_BODY) -> (forall k x, cget s0 k = Some x -> cs_rsts x = false /\ cs_rstr x = false) ->
  mvs s0 (cgoaway K code s) /\ clean (cgoaway K code s).
Proof.
  intros G A HP EL OK DX HB HF. destruct (cgoaway_die s0 s pre code G A HP EL OK DX) as (M & O & R & S1). split; [exact M|]. split; [|congruence].
  intros k x _ H. rewrite O. destruct (S1 k x H) as [H1|(T1 & T2 & T3 & T4)]; [|do 3 (split; [assumption|]); discriminate]. pose proof (dx_streams _ _ DX k) as D. rewrite H1 in D.
  destruct (cget s0 k) as [y|] eqn:E; [|destruct D]. destruct D as (D1 & D2 & D3). destruct (HF k y E). split; [congruence|]. split; [congruence|]. split; [eauto|discriminate].
Qed.
(** GOAWAY from a clean state. *)
Lemma cgoaway_here s0 pre code : good s0 -> clean s0 -> calive s0 = true -> pre_ok pre ->
  mvs s0 (cgoaway K code (addlog pre s0)) /\ clean (cgoaway K code (addlog pre s0)).
Proof.
  intros G [C1 C2] A HP. apply (cgoaway_clean s0 _ pre); auto.
  - apply calive_ok in A. apply A.
  - apply dext_log, dext_refl, G.
  - intros k x H. apply (C1 k x (fun f => f) H).
  - intros k x H. destruct (C1 k x (fun f => f) H) as (T1 & T2 & _). auto.
Qed.
Lemma cgoaway_off s code : cl_ok s = false -> cgoaway K code s = s.
Proof. intros O. unfold cgoaway. rewrite O. reflexivity. Qed.
Lemma cgoaway_any s code : good s -> clean s -> mvs s (cgoaway K code s) /\ clean (cgoaway K code s).
Proof.
  intros G C. destruct (cl_ok s) eqn:O; [|rewrite cgoaway_off by exact O; split; [constructor|exact C]].
  assert (A : calive s = true) by (unfold calive; rewrite O, (proj2 C O); reflexivity).
  destruct (cgoaway_here s [] code G C A (or_introl eq_refl)) as [M C1].
  replace (addlog [] s) with s in * by (destruct s; reflexivity). auto.
Qed.

(** RST_STREAM on a live stream. *)
Lemma crst_steps s0 pre sid code x : good s0 -> calive s0 = true -> cget s0 sid = Some x -> cs_rsts x = false ->
  (pre = [] \/ exists f, pre = [LIn f] /\ stream_of f = sid /\ match fr_pl f with PData _ _ | PWindow _ => True | _ => False end) ->
  (cs_disp x = false -> notifications sid (cl_log s0) = 0%nat) ->
  mvs s0 (crst K sid code (addlog pre s0)) /\ aft (only sid) (addlog pre s0) (crst K sid code (addlog pre s0)) /\
  cget (crst K sid code (addlog pre s0)) sid = None.
Proof.
  intros G A GX R HP HN. unfold crst. destruct (calive_ok _ A) as [OK ACT].
  assert (NZ : (sid =? 0) = false). { apply N.eqb_neq. intros ->. destruct G as [W _]. destruct (w_key _ W _ _ GX) as [O _]. discriminate O. }
  change (cl_ok (addlog pre s0)) with (cl_ok s0). rewrite OK, NZ. cbn [negb orb]. cbv zeta.
  set (s1 := cemit (mk_frame (mk_h T_RST_STREAM 0 sid) (PRst code)) (addlog pre s0)).
  assert (G1 : cget s1 sid = Some x) by exact GX. rewrite G1. rewrite (cupd_some _ _ _ _ G1).
  set (y := set_cs_err code (set_cs_rsts true x)).
  assert (GY : forall t, cget (setst sid y (set_cl_log t s1)) sid = Some y).
  { intros t. apply (cget_setst _ _ x). exact G1. }
  pose proof (m_mark s0 pre sid code x A GX R HP HN) as MM. fold y in MM.
  assert (AF0 : aft (only sid) (addlog pre s0) (setst sid y s1)).
  { eapply aft_trans; [|apply aft_setst]. apply (aft_here _ _ _ [_]) with (6 := eq_refl); try reflexivity. apply neutral_single. intros k; exact I. }
  assert (FIN : forall s2, mvs s0 s2 -> aft (only sid) (addlog pre s0) s2 -> cget s2 sid = Some y ->
     mvs s0 (match cget s2 sid with None => set_cl_ub true s2 | Some _ => ctry_close sid s2 end) /\
     aft (only sid) (addlog pre s0) (match cget s2 sid with None => set_cl_ub true s2 | Some _ => ctry_close sid s2 end) /\
     cget (match cget s2 sid with None => set_cl_ub true s2 | Some _ => ctry_close sid s2 end) sid = None).
  { intros s2 M2 A2 E2. rewrite E2. unfold ctry_close. rewrite E2. change (cs_rsts y) with true. rewrite orb_true_r. cbn [orb].
    split; [eapply ms_app; [exact M2|apply ms_one, m_erase; intros _ x0 E0; rewrite E2 in E0; injection E0 as <-; change (cs_rsts y) with true; rewrite orb_true_r; reflexivity]|]. split; [eapply aft_trans; [exact A2|apply aft_erase]|]. rewrite cget_cerase, N.eqb_refl. reflexivity. }
  destruct (cs_disp x) eqn:D; cbn [negb app] in *.
  - apply FIN; [apply ms_one; exact MM|exact AF0|apply (cget_setst _ _ x), G1].
  - assert (M1 : mvs s0 (cnote (LErr sid code) (setst sid y s1))) by (apply ms_one; exact MM).
    destruct (call_steps _ _ _ G M1) as [M2 A2]. apply FIN; [exact M2| |].
    + eapply aft_trans; [exact AF0|]. eapply aft_trans; [|apply aft_nobody, A2]. apply (aft_here _ _ _ [_]) with (6 := eq_refl); try reflexivity. apply neutral_single. intros k; exact I.
    + apply (af_old _ _ _ A2 sid y (fun f => f)). exact (GY _).
Qed.
Lemma crst_off s sid code : cl_ok s = false -> crst K sid code s = s.
Proof. intros O. unfold crst. rewrite O. reflexivity. Qed.
Lemma cgoaway_aft s0 s pre code : good s0 -> calive s0 = true -> pre_ok pre -> cl_log s = pre ++ cl_log s0 -> cl_ok s = true -> dext s0 s ->
  aft nobody s (cgoaway K code s).
Proof.
  intros G A HP EL OK DX. unfold cgoaway. rewrite OK. cbn [negb]. cbv zeta.
  set (last := match cl_streams s with [] => 0 | _ => cl_last s end).
  set (s1 := set_cl_active false (cemit (mk_frame (mk_h T_GOAWAY 0 0) (PGoaway last code [])) s)).
  assert (M : mvs s0 (cnote (LBye code last) s1)).
  { apply ms_one. eapply (m_die s0 _ pre last code); auto.
    - unfold s1, cemit, cnote. cl. rewrite EL. reflexivity.
    - destruct DX. constructor; assumption. }
  destruct (call_steps _ _ _ G M) as [M1 A1].
  constructor.
  - intros k x NP H. exact (af_old _ _ _ A1 k x NP H).
  - intros k y NP H1 H2. exact (af_new _ _ _ A1 k y NP H1 H2).
  - intros H. exact OK.
  - intros H. discriminate H.
  - intros H. apply (af_dead _ _ _ A1) in H. discriminate H.
  - destruct (af_log _ _ _ A1) as (l0 & E & HN). exists (l0 ++ [LBye code last; LOut (cgoaway_frame last code)]). split.
    + change (cl_log (set_cl_ok false (call K (LBye code last) s1))) with (cl_log (call K (LBye code last) s1)). rewrite E, <- app_assoc. reflexivity.
    + intros k i Hi. apply in_app_iff in Hi as [Hi|[<-|[<-|[]]]]; [eauto|exact I|exact I].
  - exact (af_rga _ _ _ A1).
  - exact (af_hsid _ _ _ A1).
  - intros R k NP. exact (af_keep _ _ _ A1 R k NP).
Qed.

Lemma st_ok_delivered x : st_ok (set_cs_disp true x) ->
  st_ok (set_cs_state (if cs_ends x && cs_endr x then CLOSED else if cs_endr x then HALF_CLOSED_REMOTE else cs_state x) (set_cs_disp true x)).
Proof.
  unfold st_ok. destruct x. cs. destruct cs_ends; destruct cs_endr; cbn [andb]; auto.
Qed.
(** Delivering a response. *)
Lemma process_ready_steps s sid x : good s -> (cl_ok s = true -> cl_active s = true) -> cget s sid = Some x -> cs_rsts x = false ->
  resp_ok sid x (cl_log s) -> clen (cs_body x) <= C_MAX_BODY -> (cs_disp x = false -> notifications sid (cl_log s) = 0%nat) ->
  (cs_rstr x = true -> cl_rga s = true) ->
  mvs s (process_ready K sid s) /\ aft (only sid) s (process_ready K sid s) /\
  (cget (process_ready K sid s) sid = None \/
   exists y, cget (process_ready K sid s) sid = Some y /\ cs_rsts y = false /\ cs_rstr y = cs_rstr x /\ cs_body y = cs_body x /\ cs_proc y = cs_proc x /\ cs_cont y = cs_cont x).
Proof.
  intros G OA GX R RO BM HN HR. unfold process_ready. rewrite GX.
  assert (SAME : mvs s s /\ aft (only sid) s s /\ (cget s sid = None \/ exists y, cget s sid = Some y /\ cs_rsts y = false /\ cs_rstr y = cs_rstr x /\ cs_body y = cs_body x /\ cs_proc y = cs_proc x /\ cs_cont y = cs_cont x)).
  { split; [constructor|]. split; [apply aft_refl|]. right. exists x. auto 9. }
  destruct (cs_disp x) eqn:D; [exact SAME|]. destruct (cs_main x) eqn:MX; cbn [negb]; [|exact SAME].
  destruct (cs_endr x || cs_rstr x) eqn:ER; cbn [negb]; [|exact SAME].
  destruct (cs_texp x && _ && _); [exact SAME|].
  destruct (length_mismatch x) eqn:LM.
  { destruct (cl_ok s) eqn:OK.
    - assert (A : calive s = true) by (unfold calive; rewrite OK, OA; auto).
      destruct (crst_steps s [] sid PROTOCOL_ERROR x G A GX R (or_introl eq_refl)) as (M & AF & GN); [intros _; auto|].
      replace (addlog [] s) with s in * by (destruct s; reflexivity). auto.
    - rewrite crst_off by exact OK. exact SAME. }
  cbv zeta. rewrite (cupd_some _ _ _ _ GX).
  set (st := if cs_ends x && cs_endr x then CLOSED else if cs_endr x then HALF_CLOSED_REMOTE else cs_state x).
  set (item := LResp sid (cs_app x) (mk_crs (cs_status x) (cs_hdrs x) (cs_body x)) (if cs_rstr x then cs_err x else NO_ERROR)).
  set (y := set_cs_state st (set_cs_disp true x)).
  set (s1 := set_cl_ctl 0 (setst sid y s)).
  assert (EC : cs_endr x = true \/ cl_rga s = true) by (destruct (cs_endr x); [auto|right; apply HR; exact ER]).
  assert (M : mvs s (cnote item s1)).
  { eapply ms_cons; [exact (m_resp s sid x GX D MX (HN eq_refl) RO BM LM EC)|]. fold item.
    apply ms_one. replace (cnote item s1) with (setst sid y (set_cl_ctl 0 (setst sid (set_cs_disp true x) (cnote item s)))).
    - apply (m_upd _ sid (set_cs_disp true x) y); [apply (cget_setst _ _ x); exact GX| |].
      { unfold benign, y. cs. repeat (split; [reflexivity|]). auto. } split; [|auto]. intros SO. exact (st_ok_delivered x SO).
    - unfold setst, s1. cl. unfold setst. cl. rewrite put_put. reflexivity. }
  destruct (call_steps item s s1 G M) as [M1 A1].
  assert (GY : cget (call K item s1) sid = Some y).
  { apply (af_old _ _ _ A1 sid y (fun f => f)). apply (cget_setst _ _ x). exact GX. }
  assert (A0 : aft (only sid) s (cnote item s1)).
  { apply (aft_local sid s _ [item]); try reflexivity; [|apply neutral_single; intros k; exact I]. intros k NE. exact (cget_setst_other s sid y k NE). }
  destruct (ctry_close_steps sid (call K item s1)) as (M2 & A2 & E2).
  split; [eapply ms_app; eauto|]. split; [eapply aft_trans; [exact A0|eapply aft_trans; [apply aft_nobody, A1|exact A2]]|].
  destruct E2 as [E2|E2]; [auto|]. right. exists y. rewrite E2. split; [exact GY|]. unfold y. cs. auto 9.
Qed.

(** Sending: the stream is touched, the rest is left alone. *)
Record touched (sid : N) (x : cstream) (s s' : client) (y : cstream) : Prop := mk_touched {
  t_mvs : mvs s s'; t_aft : aft (only sid) s s'; t_alive : calive s' = true; t_get : cget s' sid = Some y;
  t_rsts : cs_rsts y = cs_rsts x; t_rstr : cs_rstr y = cs_rstr x; t_disp : cs_disp y = cs_disp x; t_body : cs_body y = cs_body x; t_proc : cs_proc y = cs_proc x;
  t_req : cs_req y = cs_req x; t_wtrail : cs_wtrail y = cs_wtrail x; t_cont : cs_cont y = cs_cont x }.
Lemma touched_refl sid x s : calive s = true -> cget s sid = Some x -> touched sid x s s x. 
Proof. intros A G. constructor; auto; [constructor|apply aft_refl]. Qed.
Lemma touched_trans sid x y z s s1 s2 : touched sid x s s1 y -> touched sid y s1 s2 z -> touched sid x s s2 z.
Proof. intros [] []. constructor; try congruence; [eapply ms_app; eauto|eapply aft_trans; eauto]. Qed.
Lemma touched_upd sid x y s : calive s = true -> cget s sid = Some x -> benign sid (cl_log s) x y -> cs_rstr y = cs_rstr x -> cs_wtrail y = cs_wtrail x -> cs_cont y = cs_cont x -> (st_ok x -> st_ok y) ->
  touched sid x s (setst sid y s) y.
Proof.
  intros A G B E W CT SO. pose proof B as (B1 & B2 & B3 & B4 & B5 & B6 & B7 & B8 & B9 & B10 & _).
  constructor; auto; [apply ms_one, (m_upd _ sid x y); auto; split; [exact SO|rewrite E; auto]|apply aft_setst|apply (cget_setst _ _ x), G].
Qed.
Lemma benign_pend sid l x b : benign sid l x (set_cs_pend b x).
Proof. unfold benign. cs. repeat (split; [reflexivity|]). auto. Qed.
Lemma benign_state sid l x st : benign sid l x (set_cs_state st x).
Proof. unfold benign. cs. repeat (split; [reflexivity|]). auto. Qed.

Lemma cbody_loop_steps sid fuel : forall s x, good s -> calive s = true -> cget s sid = Some x -> cs_rsts x = false ->
  (length (q_body (cs_req x)) - cs_off x < fuel)%nat ->
  match cbody_loop fuel sid (q_body (cs_req x)) s with
  | inl (s', b) => exists y, touched sid x s s' y /\ b = true /\ cs_pend y = true
  | inr s' => exists y, touched sid x s s' y /\ cs_off y = length (q_body (cs_req y))
  end.
Proof.
  induction fuel as [|fuel IH]; intros s x G A GX R FU; [lia|]. cbn [cbody_loop]. rewrite GX.
  destruct (calive_ok _ A) as [OK ACT].
  destruct (Nat.ltb_spec (cs_off x) (length (q_body (cs_req x)))) as [L|L].
  2:{ exists x. split; [apply touched_refl; auto|]. destruct G as [W _]. destruct (w_off _ W A _ _ GX) as [L1 _]. lia. }
  rewrite A. cbn [negb].
  assert (PEND : exists y, touched sid x s (cupd sid (set_cs_pend true) s) y /\ true = true /\ cs_pend y = true).
  { exists (set_cs_pend true x). rewrite (cupd_some _ _ _ _ GX). split; [|auto]. apply touched_upd; auto. apply benign_pend. }
  destruct ((cl_csend s <=? 0)%Z || (cs_peer x <=? 0)%Z) eqn:EW; [exact PEND|]. apply orb_false_iff in EW as [W1 W2]. apply Z.leb_gt in W1, W2.
  cbv zeta. set (rem := N.of_nat (length (q_body (cs_req x)) - cs_off x)).
  set (chunk := N.min (N.min rem (cl_pmax s)) (N.min (cu32 (cl_csend s)) (cu32 (cs_peer x)))).
  destruct ((chunk =? 0) && (0 <? rem)) eqn:EC; [exact PEND|].
  assert (RP : 0 < rem) by (unfold rem; lia). assert (CP : chunk <> 0). { intros E0. rewrite E0, N.eqb_refl in EC. apply N.ltb_lt in RP. rewrite RP in EC. discriminate. }
  assert (C1 : chunk <= rem) by (unfold chunk; lia). assert (C2 : chunk <= cl_pmax s) by (unfold chunk; lia).
  assert (C3 : (Z.of_N chunk <= cl_csend s)%Z). { assert (chunk <= cu32 (cl_csend s)) by (unfold chunk; lia). unfold cu32 in *. lia. }
  assert (C4 : (Z.of_N chunk <= cs_peer x)%Z). { assert (chunk <= cu32 (cs_peer x)) by (unfold chunk; lia). unfold cu32 in *. lia. }
  clearbody chunk. set (n := N.to_nat chunk).
  assert (EN : N.of_nat n = chunk) by (unfold n; lia). assert (EZ : Z.of_N chunk = Z.of_nat n) by lia.
  set (fin := ((cs_off x + n =? length (q_body (cs_req x)))%nat && negb (cs_wtrail x))).
  rewrite (cupd_some _ _ _ _ GX).
  set (s1 := setst sid (set_cs_off (cs_off x + n)%nat x) s).
  change (cl_ok (cemit (cdata_frame sid (q_body (cs_req x)) (cs_off x) n fin) s1)) with (cl_ok s). rewrite OK. cbn [negb].
  set (s2 := set_cl_csend (cl_csend (cemit (cdata_frame sid (q_body (cs_req x)) (cs_off x) n fin) s1) - Z.of_N chunk)%Z
               (cemit (cdata_frame sid (q_body (cs_req x)) (cs_off x) n fin) s1)).
  assert (G2 : cget s2 sid = Some (set_cs_off (cs_off x + n)%nat x)) by (apply (cget_setst s sid x); exact GX).
  rewrite (cupd_some _ _ _ _ G2).
  set (x3 := set_cs_peer (cs_peer (set_cs_off (cs_off x + n) x) - Z.of_N chunk)%Z (set_cs_off (cs_off x + n)%nat x)).
  assert (G3 : cget (setst sid x3 s2) sid = Some x3) by (apply (cget_setst _ _ _ _ G2)).
  set (x4 := if fin then set_cs_state (match cs_state x3 with OPEN => HALF_CLOSED_LOCAL | HALF_CLOSED_REMOTE => CLOSED | st => st end) (set_cs_ends true x3) else x3).
  assert (E4 : (if fin then cupd sid (fun x0 : cstream => set_cs_state (match cs_state x0 with OPEN => HALF_CLOSED_LOCAL | HALF_CLOSED_REMOTE => CLOSED | st => st end) (set_cs_ends true x0)) (setst sid x3 s2) else setst sid x3 s2) = setst sid x4 s2).
  { unfold x4. destruct fin; [|reflexivity]. rewrite (cupd_some _ _ _ _ G3), setst_setst. reflexivity. }
  rewrite E4.
  assert (T : touched sid x s (setst sid x4 s2) x4).
  { assert (MC : mv s (setst sid (sent_chunk n fin x) (set_cl_csend (cl_csend s - Z.of_nat n)%Z (cemit (cdata_frame sid (q_body (cs_req x)) (cs_off x) n fin) s)))).
    { apply (m_chunk s sid x n fin); auto; try lia. }
    set (sA := setst sid (sent_chunk n fin x) (set_cl_csend (cl_csend s - Z.of_nat n)%Z (cemit (cdata_frame sid (q_body (cs_req x)) (cs_off x) n fin) s))) in *.
    assert (GA : cget sA sid = Some (sent_chunk n fin x)) by (apply (cget_setst s sid x); exact GX).
    assert (ES : setst sid x4 s2 = setst sid x4 sA).
    { unfold sA. rewrite setst_setst. unfold s2, s1. rewrite EZ. unfold setst. cl. unfold setst. cl. rewrite put_put. reflexivity. }
    assert (BN : benign sid (cl_log sA) (sent_chunk n fin x) x4).
    { unfold x4, x3, sent_chunk, benign. rewrite EZ. destruct fin; cs; repeat (split; [reflexivity|]); auto. }
    constructor.
    - rewrite ES. eapply ms_cons; [exact MC|]. apply ms_one, (m_upd _ sid (sent_chunk n fin x)); auto. split; [|unfold x4, x3, sent_chunk; destruct fin; cs; auto].
      unfold st_ok, x4, x3, sent_chunk. destruct fin; cs; auto. destruct (cs_state x); cs; auto.
    - rewrite ES. eapply aft_trans; [|apply aft_setst].
      apply (aft_local sid s _ [LOut (cdata_frame sid (q_body (cs_req x)) (cs_off x) n fin)]); try reflexivity; [|apply neutral_single; intros k; exact I].
      intros k NE. unfold sA. rewrite cget_setst_other by exact NE. reflexivity.
    - exact A.
    - apply (cget_setst _ _ _ _ G2).
    - unfold x4, x3. destruct fin; reflexivity.
    - unfold x4, x3. destruct fin; reflexivity.
    - unfold x4, x3. destruct fin; reflexivity.
    - unfold x4, x3. destruct fin; reflexivity.
    - unfold x4, x3. destruct fin; reflexivity.
    - unfold x4, x3. destruct fin; reflexivity.
    - unfold x4, x3. destruct fin; reflexivity.
    - unfold x4, x3. destruct fin; reflexivity. }
  assert (O4 : cs_off x4 = (cs_off x + n)%nat) by (unfold x4, x3; destruct fin; reflexivity).
  assert (RQ : cs_req x4 = cs_req x) by apply T.
  specialize (IH (setst sid x4 s2) x4 (mvs_good _ _ G (t_mvs _ _ _ _ _ T)) (t_alive _ _ _ _ _ T) (t_get _ _ _ _ _ T)).
  rewrite (t_rsts _ _ _ _ _ T), RQ, O4 in IH. specialize (IH R).
  assert (FU2 : (length (q_body (cs_req x)) - (cs_off x + n) < fuel)%nat) by lia. specialize (IH FU2).
  destruct (cbody_loop fuel sid (q_body (cs_req x)) (setst sid x4 s2)) as [[s' b]|s'].
  - destruct IH as (y & TY & H). exists y. split; [eapply touched_trans; eauto|exact H].
  - destruct IH as (y & TY & H). exists y. split; [eapply touched_trans; eauto|]. exact H.
Qed.

Lemma csend_body_steps sid s x : good s -> calive s = true -> cget s sid = Some x -> cs_rsts x = false -> cs_pend x = true ->
  exists s' y, csend_body sid s = (s', true) /\ touched sid x s s' y /\ (cs_pend y = false -> cs_off y = length (q_body (cs_req y))).
Proof.
  intros G A GX R P. unfold csend_body. rewrite GX. cbv zeta. rewrite P. cbn [negb orb].
  destruct (no_bytes (q_body (cs_req x))) eqn:NB.
  - rewrite (cupd_some _ _ _ _ GX). eexists _, (set_cs_pend false x). split; [reflexivity|]. split; [apply touched_upd; auto; apply benign_pend|].
    intros _. cs. destruct (q_body (cs_req x)) eqn:EB; [|discriminate]. destruct G as [W _]. destruct (w_off _ W A _ _ GX) as [L _]. rewrite EB in L. cbn [length] in *. lia.
  - pose proof (cbody_loop_steps sid (S (length (q_body (cs_req x)))) s x G A GX R) as H.
    specialize (H ltac:(lia)). destruct (cbody_loop _ _ _ _) as [[s' b]|s'].
    + destruct H as (y & T & -> & PY). exists s', y. split; [reflexivity|]. split; [exact T|congruence].
    + destruct H as (y & T & OY). pose proof (t_get _ _ _ _ _ T) as GY. rewrite (cupd_some _ _ _ _ GY).
      eexists _, _. split; [reflexivity|]. split; [eapply touched_trans; [exact T|apply touched_upd]; [apply T|exact GY|apply benign_pend|reflexivity|reflexivity|reflexivity|exact (fun H => H)]|].
      intros _. cs. exact OY.
Qed.

Definition outcome (sid : N) (x : cstream) (s s' : client) : Prop :=
  mvs s s' /\ aft (only sid) s s' /\
  (cget s' sid = None \/ exists y, cget s' sid = Some y /\ cs_rsts y = cs_rsts x /\ cs_rstr y = cs_rstr x /\ cs_body y = cs_body x /\ cs_proc y = cs_proc x /\ cs_cont y = cs_cont x).
Lemma outcome_touched sid x y s s' : touched sid x s s' y -> outcome sid x s s'.
Proof. intros []. split; [auto|]. split; [auto|]. right. exists y. auto 9. Qed.
Lemma outcome_close sid x s s' b : outcome sid x s s' -> outcome sid x s (if in_state b CLOSED then ctry_close sid s' else s').
Proof.
  intros (M & A & E). destruct (in_state b CLOSED); [|split; auto]. destruct (ctry_close_steps sid s') as (M1 & A1 & E1).
  split; [eapply ms_app; eauto|]. split; [eapply aft_trans; eauto|]. destruct E1 as [E1|E1]; [auto|]. rewrite E1. exact E.
Qed.
Lemma addlog_nil s : addlog [] s = s.
Proof. destruct s; reflexivity. Qed.

Lemma ctry_send_steps sid s x : good s -> cget s sid = Some x -> cs_rsts x = false -> cs_rstr x = false -> cs_pend x = true ->
  outcome sid x s (ctry_send K sid s).
Proof.
  intros G GX R RR P. unfold ctry_send. rewrite GX.
  assert (SAME : outcome sid x s s) by (split; [constructor|]; split; [apply aft_refl|]; right; exists x; auto 9).
  destruct (calive s) eqn:A; cbn [negb]; [|exact SAME]. destruct (_ && _); [exact SAME|]. rewrite P.
  destruct (csend_body_steps sid s x G A GX R P) as (s1 & y & -> & T & HO). cbn [negb]. cbv iota beta. pose proof (t_get _ _ _ _ _ T) as GY. rewrite GY.
  destruct (cs_pend y) eqn:PY; [eapply outcome_touched; eauto|]. rewrite GY. specialize (HO eq_refl).
  pose proof (mvs_good _ _ G (t_mvs _ _ _ _ _ T)) as G1. pose proof (t_alive _ _ _ _ _ T) as A1. destruct (calive_ok _ A1) as [OK1 ACT1].
  destruct (cs_wtrail y && negb (cs_ends y)) eqn:TR.
  2:{ cbv iota beta. rewrite GY. apply outcome_close. eapply outcome_touched; eauto. }
  apply andb_true_iff in TR as [TR1 TR2]. apply negb_true_iff in TR2.
  assert (RY : cs_rsts y = false) by (rewrite (t_rsts _ _ _ _ _ T); exact R). assert (RRY : cs_rstr y = false) by (rewrite (t_rstr _ _ _ _ _ T); exact RR).
  assert (CASES : exists s2 block okb, (match ctrailer_fields y with
                     | [] => Some (s1, [], true)
                     | fs => match encode (cl_enc s1) fs with None => None | Some (e, out, okb) => Some (set_cl_enc e s1, out, okb) end end) = Some (s2, block, okb)
                     /\ exists e, s2 = set_cl_enc e s1 /\ exists t, dwf (enc_table e) t).
  { destruct G1 as [W1 _]. pose proof (w_enc _ W1) as WE. destruct (ctrailer_fields y) as [|f0 fs0] eqn:EF.
    - exists s1, [], true. split; [reflexivity|]. exists (cl_enc s1). split; [destruct s1; reflexivity|exact WE].
    - destruct (H2ServerSteps.encode_total (cl_enc s1) (f0 :: fs0) WE) as (e & o & k & EE & HT). rewrite EE. eexists _, _, _. split; [reflexivity|]. exists e. auto. }
  destruct CASES as (s2 & block & okb & -> & e & E2 & HE). subst s2. destruct okb.
  - change (cl_ok (cemit (mk_frame (mk_h T_HEADERS (N.lor FLAG_END_HEADERS FLAG_END_STREAM) sid) (PHeaders block None)) (set_cl_enc e s1))) with (cl_ok s1). rewrite OK1. cbv iota beta.
    set (sE := cemit (mk_frame (mk_h T_HEADERS (N.lor FLAG_END_HEADERS FLAG_END_STREAM) sid) (PHeaders block None)) (set_cl_enc e s1)).
    assert (GE : cget sE sid = Some y) by exact GY. rewrite (cupd_some _ _ _ _ GE).
    set (z := set_cs_wtrail false (set_cs_state (match cs_state y with OPEN | HALF_CLOSED_LOCAL => HALF_CLOSED_LOCAL | HALF_CLOSED_REMOTE => CLOSED | st => st end) (set_cs_ends true y))).
    rewrite (cget_setst _ _ _ z GE). apply outcome_close.
    assert (MT : mv s1 (setst sid (set_cs_ends true y) sE)) by (apply (m_trailers s1 sid y block e); auto).
    assert (M2 : mvs s1 (setst sid z sE)).
    { eapply ms_cons; [exact MT|]. rewrite <- (setst_setst sid (set_cs_ends true y) z sE). apply ms_one, (m_upd _ sid (set_cs_ends true y)); [apply (cget_setst _ _ _ _ GE)| |].
      { unfold benign, z. cs. repeat (split; [reflexivity|]). auto. } split; [|unfold z; cs; auto]. unfold st_ok, z. cs. destruct (cs_state y); cs; auto. }
    split; [eapply ms_app; [apply T|exact M2]|]. split.
    + eapply aft_trans; [apply T|]. eapply aft_trans; [|apply aft_setst]. apply (aft_here _ _ _ [LOut (ctrailer_frame sid block)]); try reflexivity. apply neutral_single. intros k; exact I.
    + right. exists z. split; [apply (cget_setst _ _ _ _ GE)|]. unfold z. cs. destruct T. auto 9.
  - cbv iota beta. assert (M1 : mv s1 (set_cl_enc e s1)) by (apply m_enc; auto).
    assert (G2 : good (set_cl_enc e s1)) by (eapply mvs_good; [exact G1|apply ms_one, M1]).
    destruct (crst_steps (set_cl_enc e s1) [] sid COMPRESSION_ERROR y G2 A1 GY RY (or_introl eq_refl)) as (M2 & AF & GN).
    { intros D. destruct G2 as [W2 _]. exact (w_told _ W2 sid y GY RY RRY D). }
    rewrite addlog_nil in *. split; [eapply ms_app; [apply T|eapply ms_cons; eauto]|]. split; [|auto].
    eapply aft_trans; [apply T|]. eapply aft_trans; [|exact AF]. apply (aft_here _ _ _ []); try reflexivity. apply neutral_nil.
Qed.

(** A request. *)
Lemma fold_emit fs : forall s, fold_left (fun s f => cemit f s) fs s = addlog (rev (map LOut fs)) s.
Proof.
  induction fs as [|f fs IH]; intros s; [symmetry; apply addlog_nil|]. cbn [fold_left map rev]. rewrite IH. unfold addlog, cemit, cnote. cl. rewrite <- app_assoc. reflexivity.
Qed.
Lemma aft_open sid s s1 y : aft (only sid) s s1 -> cget s sid = None -> cl_rga s = false -> (cget s1 sid = None \/ (cget s1 sid = Some y /\ tidy true (cl_hsid s) sid y)) -> aft nobody s s1.
Proof.
  intros [] GN RG H. constructor; auto.
  - intros k x _ G. apply af_old0; [|exact G]. intros E. unfold only in E. subst k. congruence.
  - intros k z _ G1 G2. destruct (N.eq_dec k sid) as [->|NE]; [|eapply af_new0; eauto]. destruct H as [H|[H1 H2]]; [congruence|]. assert (z = y) by congruence. subst. exact H2.
  - congruence.
Qed.

Lemma send_request_steps r app s : good s -> mvs s (fst (send_request K r app s)) /\ aft nobody s (fst (send_request K r app s)).
Proof.
  intros G. unfold send_request.
  assert (REF : mvs s (cnote (LRefuse app) s) /\ aft nobody s (cnote (LRefuse app) s)).
  { split; [apply ms_one, m_refuse|]. apply (aft_here _ _ _ [LRefuse app]); try reflexivity. apply neutral_single. intros k; exact I. }
  destruct (_ || _ || _) eqn:E0; [exact REF|]. apply orb_false_iff in E0 as [E0 RG]. apply orb_false_iff in E0 as [OK ACT]. apply negb_false_iff in OK, ACT.
  assert (A : calive s = true) by (unfold calive; rewrite OK, ACT; reflexivity).
  destruct (N.leb_spec (cl_pmcs s) (cactive_count s)) as [L|L]; [exact REF|]. cbv zeta.
  assert (GN : cget s (cl_next s) = None).
  { destruct G as [W _]. destruct (cget s (cl_next s)) as [x|] eqn:E; [|reflexivity]. destruct (w_key _ W _ _ E) as [_ K1]. destruct (w_next _ W) as (_ & K2 & _). lia. }
  change (cget (set_cl_last (cl_next s) (set_cl_next (cl_next s + 2) s)) (cl_next s)) with (cget s (cl_next s)). rewrite GN.
  set (x0 := set_cs_tnames (q_tnames r) _).
  set (s1 := set_cl_streams _ _). change (cl_enc s1) with (cl_enc s).
  destruct G as [W AG]. destruct (H2ServerSteps.encode_total (cl_enc s) (q_head r) (w_enc _ W)) as (e & block & okb & EE & HT). rewrite EE. assert (G : good s) by (split; assumption).
  destruct okb.
  - (* accepted *)
    set (fin := negb (negb (no_bytes (q_body r))) && negb (q_wtrail r)).
    set (sH := set_cl_enc e s1).
    change (cl_ok (cnote (LReq (cl_next s) app r) sH)) with (cl_ok s).
    assert (EH : cheader_block (cl_next s) (if fin then FLAG_END_STREAM else 0) block (cnote (LReq (cl_next s) app r) sH) =
                 (addlog (rev (map LOut (send_headers (cl_next s) (open_flags r) (cl_pmax s) block))) (cnote (LReq (cl_next s) app r) sH), true)).
    { unfold cheader_block. change (cl_pmax (cnote (LReq (cl_next s) app r) sH)) with (cl_pmax s). change (cl_ok (cnote (LReq (cl_next s) app r) sH)) with (cl_ok s).
      rewrite OK. unfold open_flags. fold fin. destruct (send_headers _ _ _ _) as [|f0 fs0]; [rewrite addlog_nil; reflexivity|]. rewrite fold_emit. reflexivity. }
    rewrite EH. cbn [negb]. cbv iota beta.
    set (sB := addlog (rev (map LOut (send_headers (cl_next s) (open_flags r) (cl_pmax s) block))) (cnote (LReq (cl_next s) app r) sH)).
    assert (GB : cget sB (cl_next s) = Some x0). { unfold cget, sB, sH, s1, addlog. cl. rewrite find_cons, N.eqb_refl. reflexivity. }
    rewrite (cupd_some _ _ _ _ GB). set (x1 := set_cs_state _ (set_cs_ends fin x0)). rewrite (cupd_some _ _ _ _ (cget_setst _ _ _ x1 GB)), setst_setst.
    set (x2 := set_cs_pend (negb (no_bytes (q_body r))) _).
    assert (EX : x2 = opened r app s) by reflexivity.
    set (sC := setst (cl_next s) x2 sB).
    assert (MO : mv s sC).
    { pose proof (m_open s r app e block A RG L EE) as MO. replace sC with (set_cl_streams ((cl_next s, opened r app s) :: cl_streams s)
          (addlog (rev (map LOut (send_headers (cl_next s) (open_flags r) (cl_pmax s) block)) ++ [LReq (cl_next s) app r])
            (set_cl_enc e (set_cl_last (cl_next s) (set_cl_next (cl_next s + 2) s))))); [exact MO|].
      rewrite <- EX. unfold sC, setst, sB, sH, s1, addlog. cl. rewrite put_cons_same, <- app_assoc. reflexivity. }
    assert (GC : cget sC (cl_next s) = Some x2) by (apply (cget_setst _ _ _ _ GB)).
    assert (G2 : good sC) by (eapply mvs_good; [exact G|apply ms_one, MO]).
    assert (AC : calive sC = true) by exact A.
    assert (AF : aft (only (cl_next s)) s sC).
    { apply (aft_local _ _ _ (rev (map LOut (send_headers (cl_next s) (open_flags r) (cl_pmax s) block)) ++ [LReq (cl_next s) app r])); try reflexivity.
      - intros k NE. unfold sC. rewrite cget_setst_other by exact NE. unfold cget, sB, sH, s1, addlog. cl. rewrite find_cons, (proj2 (N.eqb_neq k _) NE). reflexivity.
      - unfold sC, sB, setst, addlog. cl. rewrite <- app_assoc. reflexivity.
      - intros k i Hi. apply in_app_iff in Hi as [Hi|[<-|[]]]; [|exact I]. rewrite <- in_rev in Hi. apply in_map_iff in Hi as (f & <- & _). exact I. }
    assert (X2 : cs_rsts x2 = false /\ cs_rstr x2 = false /\ cs_body x2 = [] /\ cs_proc x2 = 0 /\ cs_pend x2 = negb (no_bytes (q_body r))).
    { unfold x2, x1, x0. destruct (negb (no_bytes (q_body r)) || q_wtrail r); cs; repeat split. }
    destruct X2 as (X21 & X22 & X23 & X24 & X25).
    assert (FIN : forall s3 y, touched (cl_next s) x2 sC s3 y -> mvs s (if in_state (cs_state y) CLOSED then ctry_close (cl_next s) s3 else s3) /\
                  aft nobody s (if in_state (cs_state y) CLOSED then ctry_close (cl_next s) s3 else s3)).
    { intros s3 y T. pose proof (outcome_close _ _ _ _ (cs_state y) (outcome_touched _ _ _ _ _ T)) as (M3 & A3 & E3).
      split; [eapply ms_cons; [exact MO|exact M3]|].
      assert (AF3 : aft (only (cl_next s)) s (if in_state (cs_state y) CLOSED then ctry_close (cl_next s) s3 else s3)) by (eapply aft_trans; [exact AF|exact A3]).
      destruct E3 as [E3|(z & Z1 & Z2 & Z3 & Z4 & Z5 & Z6)]; [eapply (aft_open _ _ _ x2); eauto|].
      eapply (aft_open _ _ _ z); eauto. right. split; [exact Z1|]. unfold tidy. rewrite Z2, Z3, Z4, Z5, X21, X22, X23, X24. split; [reflexivity|]. split; [reflexivity|]. split; [discriminate|]. intros _. split; [reflexivity|]. intros EHK. exfalso. pose proof (w_hsid _ W A) as LH. destruct (w_next _ W) as (_ & LN & _). clear - EHK LH LN. lia. }
    destruct (negb (no_bytes (q_body r))) eqn:HB.
    + destruct (csend_body_steps (cl_next s) sC x2 G2 AC GC X21 X25) as (s3 & y & -> & T & _). cbn [negb]. cbv iota beta. rewrite (t_get _ _ _ _ _ T). cbn [fst]. apply FIN, T.
    + cbn [negb]. cbv iota beta. rewrite GC. cbn [fst]. apply FIN, touched_refl; auto.
  - (* refused by the encoder *)
    set (sE := cerase _ _).
    assert (ES : sE = set_cl_enc e (set_cl_last (cl_next s) (set_cl_next (cl_next s + 2) s))).
    { unfold sE, cerase, s1. cl. rewrite del_cons_same by exact GN. reflexivity. }
    cbn [fst]. assert (MS : mv s sE) by (rewrite ES; apply m_skip; auto).
    assert (G2 : good sE) by (eapply mvs_good; [exact G|apply ms_one, MS]).
    assert (AE : calive sE = true) by exact A. assert (OE : cl_ok sE = true) by exact OK.
    destruct (cgoaway_die sE sE [] INTERNAL_ERROR G2 AE (or_introl eq_refl) eq_refl OE (dext_refl _ G2)) as (M & _).
    pose proof (cgoaway_aft sE sE [] INTERNAL_ERROR G2 AE (or_introl eq_refl) eq_refl OE (dext_refl _ G2)) as AF.
    split; [eapply ms_cons; [exact MS|eapply ms_app; [exact M|apply ms_one, m_refuse]]|].
    eapply aft_trans; [|eapply aft_trans; [exact AF|]].
    + rewrite ES. apply (aft_here _ _ _ []); try reflexivity. apply neutral_nil.
    + apply (aft_here _ _ _ [LRefuse app]); try reflexivity. apply neutral_single. intros k; exact I.
Qed.
Lemma run_ccmds_steps cs : Forall is_send cs -> forall s, good s -> mvs s (run_ccmds K cs s) /\ aft nobody s (run_ccmds K cs s).
Proof.
  unfold run_ccmds. induction 1 as [|c cs HC HF IH]; intros s G; [split; [constructor|apply aft_refl]|]. cbn [fold_left].
  destruct c as [r app|]; [|destruct HC]. cbn [run_ccmd]. destruct (send_request_steps r app s G) as [M A].
  destruct (IH _ (mvs_good _ _ G M)) as [M1 A1]. split; [eapply ms_app; eauto|eapply aft_trans; eauto].
Qed.
End HANDLERS.
