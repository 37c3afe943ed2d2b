(** The response sent on a stream, over the elementary steps of H2ServerSteps. *)
From Coq Require Import Permutation.
From Verif Require Import Base UtilModel HpackTables HpackModel HpackSpec DynTableProofs HpackCodecProofs HpackConnProofs
  H2Model H2Spec H2Proofs H2FramerProofs H2Props H2FieldModel H2ServerModel H2ServerSpec H2ServerSteps H2ServerRefine H2ServerHandlers H2ServerInv H2ServerInv2.
Local Open Scope N_scope.

Lemma header_frames_conts fuel : forall sid flags maxf block f, In f (header_frames fuel false sid flags maxf block) -> exists b, fr_pl f = PCont b.
Proof.
  induction fuel as [|n IH]; intros sid flags maxf block f H; [destruct H|]. cbn [header_frames] in H. cbv zeta in H. destruct H as [<-|H]; [eexists; reflexivity|].
  destruct (skipn _ _); [destruct H|]. eapply IH; exact H.
Qed.
Lemma send_headers_shape sid flags pmax block : exists h rest, send_headers sid flags pmax block = h :: rest /\
  (exists b, fr_pl h = PHeaders b None) /\ has_end_stream h = N.testbit flags 0 /\ (sid < 2 ^ 31 -> stream_of h = sid) /\
  (forall f, In f rest -> exists b, fr_pl f = PCont b).
Proof.
  unfold send_headers. cbn [header_frames]. cbv zeta. eexists; eexists; split; [reflexivity|]. split; [eexists; reflexivity|]. split.
  - unfold has_end_stream. cbn [fr_hdr h_flags mk_h]. destruct (skipn _ _).
    + change (N.testbit (N.lor flags FLAG_END_HEADERS) 0 = N.testbit flags 0). rewrite N.lor_spec. change (N.testbit FLAG_END_HEADERS 0) with false. apply orb_false_r.
    + change (N.testbit (N.ldiff flags FLAG_END_HEADERS) 0 = N.testbit flags 0). rewrite N.ldiff_spec. change (N.testbit FLAG_END_HEADERS 0) with false. apply andb_true_r.
  - split; [intros H; apply (stream_of_mk _ _ _ _ H)|]. intros f H. destruct (skipn _ _); [destruct H|]. eapply header_frames_conts; exact H.
Qed.
Lemma response_frames_outs k fs l : (forall f, In f fs -> response_frame k f = false) -> response_frames k (rev (map LOut fs) ++ l) = response_frames k l.
Proof.
  induction fs as [|f fs IH] in l |- *; intros H; [reflexivity|]. cbn [map rev]. rewrite <- app_assoc. rewrite IH by (intros; apply H; right; assumption).
  cbn [app response_frames]. rewrite (H f) by (left; reflexivity). reflexivity.
Qed.
Lemma responses_outs k fs l : responses k (rev (map LOut fs) ++ l) = responses k l.
Proof. induction fs as [|f fs IH] in l |- *; [reflexivity|]. cbn [map rev]. rewrite <- app_assoc. rewrite IH. reflexivity. Qed.
Lemma response_frames_headers k sid flags pmax block l : sid < 2 ^ 31 -> exists h, 
  response_frames k (rev (map LOut (send_headers sid flags pmax block)) ++ l) = (if sid =? k then response_frames k l ++ [h] else response_frames k l) /\
  (exists b, fr_pl h = PHeaders b None) /\ has_end_stream h = N.testbit flags 0.
Proof.
  intros HS. destruct (send_headers_shape sid flags pmax block) as (h & rest & E & (b & B) & F & S & C). exists h. split; [|split; [exists b; exact B|exact F]]. rewrite E.
  cbn [map rev]. rewrite <- app_assoc. rewrite response_frames_outs.
  - cbn [app response_frames]. unfold response_frame. rewrite (S HS), B. rewrite andb_true_r. reflexivity.
  - intros f Hf. destruct (C f Hf) as (c & D). apply response_frame_false. rewrite D. exact I.
Qed.

(** ** The invariant *)
Definition fresh (x : stream) : Prop := st_resp x = resp_empty /\ st_off x = 0%nat /\ st_trail x = false /\ st_ends x = false.
Definition sending (r : response) (fs : list frame) (x : stream) : Prop :=
  st_resp x = r /\ fs <> [] /\ existsb has_end_stream fs = false /\ body_octets fs = firstn (st_off x) (rs_body r).
Definition st_phase (rs : list response) (fs : list frame) (x : stream) : Prop :=
  match rs with
  | [] => fresh x
  | [r] => (fs = [] /\ fresh x) \/ sending r fs x \/ st_ends x = true \/ st_state x = CLOSED
  | _ => True
  end.
Definition log_phase (rs : list response) (fs : list frame) : Prop :=
  match rs with [] => fs = [] | [r] => transmits r fs | _ => True end.
Definition resp_inv (s : server) : Prop := forall k, N.odd k = true ->
  log_phase (responses k (sv_log s)) (response_frames k (sv_log s)) /\
  (sv_ok s = true -> forall x, find_st (sv_streams s) k = Some x -> st_phase (responses k (sv_log s)) (response_frames k (sv_log s)) x).

Lemma phase_same rs fs x y : st_resp y = st_resp x -> st_off y = st_off x -> st_trail y = st_trail x -> st_ends y = st_ends x ->
  (st_state x = CLOSED -> st_state y = CLOSED) -> st_phase rs fs x -> st_phase rs fs y.
Proof.
  intros A B C D F. unfold st_phase, fresh, sending. destruct rs as [|r [|]]; rewrite ?A, ?B, ?C, ?D; auto. intros [H|[H|[H|H]]]; auto.
Qed.
Lemma transmits_nil r : transmits r [].
Proof. repeat split; try (intros; discriminate). - exists (rs_body r). reflexivity. - destruct before; discriminate. - destruct before; discriminate. Qed.
Lemma transmits_start r h b : fr_pl h = PHeaders b None -> (has_end_stream h = true -> rs_body r = []) -> transmits r [h].
Proof.
  intros B F. assert (BO : body_octets [h] = []) by (cbn [body_octets flat_map]; unfold payload_octets; rewrite B; reflexivity). repeat split.
  - intros f rest E. injection E as <- <-. exists b. exact B.
  - exists (rs_body r). rewrite BO. reflexivity.
  - destruct before as [|g before]; [injection H as _ <-; reflexivity|]. injection H as _ H. destruct before; discriminate.
  - rewrite BO. symmetry. apply F. destruct before as [|g before]; [injection H as <- _; assumption|]. injection H as _ H. destruct before; discriminate.
Qed.
Lemma existsb_no_end fs f : existsb has_end_stream fs = false -> In f fs -> has_end_stream f = true -> False.
Proof. intros H HI HF. assert (existsb has_end_stream fs = true) by (apply existsb_exists; eauto). congruence. Qed.
Lemma transmits_more r fs f later : transmits r fs -> fs <> [] -> existsb has_end_stream fs = false ->
  rs_body r = body_octets fs ++ payload_octets f ++ later -> (has_end_stream f = true -> later = []) -> transmits r (fs ++ [f]).
Proof.
  intros (T1 & T2 & T3) NE NX B F. assert (BO : body_octets (fs ++ [f]) = body_octets fs ++ payload_octets f) by (rewrite body_app; cbn [body_octets flat_map]; rewrite app_nil_r; reflexivity).
  split; [|split].
  - intros g rest E. destruct fs as [|g0 fs]; [congruence|]. injection E as <- _. eapply T1; reflexivity.
  - exists later. rewrite BO, <- app_assoc. exact B.
  - intros before g after E HG. destruct (exists_last (l := g :: after)) as (a & z & EZ); [discriminate|].
    rewrite EZ, app_assoc in E. apply app_inj_tail in E as [E1 ->]. destruct a as [|a0 a].
    + injection EZ as -> ->. split; [reflexivity|]. rewrite BO, B, (F HG), app_nil_r. reflexivity.
    + exfalso. injection EZ as -> EA. eapply (existsb_no_end fs a0); [exact NX|rewrite E1; apply in_or_app; right; left; reflexivity|exact HG].
Qed.

Lemma resp_in f s s' : virgin_inv s -> resp_inv s -> instep f s s' -> resp_inv s'.
Proof.
  unfold resp_inv. intros V I H k O. specialize (I k O). destruct I as [I1 I2]. norm_in H; fields; cbn [responses response_frames].
  all: try (rewrite (response_frame_false k (rst_frame _ _)) by exact Logic.I).
  all: try (rewrite (response_frame_false k (wu_frame _ _)) by exact Logic.I).
  all: try (rewrite (response_frame_false k (goaway_frame _ _)) by exact Logic.I).
  all: split; [exact I1|]; try discriminate; try exact I2.
  all: intros OK y G; specialize (I2 OK); streams G; try exact (I2 _ G).
  2: { subst k. unfold virgin_inv, alive in *. destruct (V H2 _ O H3) as (_ & _ & _ & _ & VF). rewrite VF in *. unfold st_phase.
       destruct (responses _ _) as [|r [|]]; [repeat split| |exact Logic.I]. left. repeat split. }
  all: try subst k; match goal with F : find_st _ _ = Some _ |- _ => refine (phase_same _ _ _ _ _ _ _ _ _ (I2 _ F)); try reflexivity; try (intros C; exact C) end.
  intros C. congruence.
Qed.
Lemma phase_grow k r (s : server) : responses k (LCmd (CRespond k r) :: sv_log s) = responses k (sv_log s) ++ [r].
Proof. cbn [responses]. rewrite N.eqb_refl. reflexivity. Qed.
Lemma log_grow rs fs r : log_phase rs fs -> log_phase (rs ++ [r]) fs.
Proof. destruct rs as [|a [|b rs]]; cbn [app log_phase]; auto. intros ->. apply transmits_nil. Qed.
Lemma phase_cmd rs fs r x : log_phase rs fs -> st_phase rs fs x -> st_phase (rs ++ [r]) fs x.
Proof. destruct rs as [|a [|b rs]]; cbn [app log_phase st_phase]; auto. Qed.
Lemma log_start rs fs r h b : log_phase rs fs -> fr_pl h = PHeaders b None -> (has_end_stream h = true -> rs_body r = []) -> log_phase (rs ++ [r]) (fs ++ [h]).
Proof. destruct rs as [|a [|b0 rs]]; cbn [app log_phase]; auto. intros -> B F. eapply transmits_start; eauto. Qed.
Lemma phase_two rs fs r x : rs <> [] -> st_phase (rs ++ [r]) fs x.
Proof. destruct rs as [|a [|b rs]]; [congruence| |]; intros _; exact I. Qed.
Lemma resp_q E th sh s s' : wf s -> idle_inv s -> resp_inv s -> qstep E th sh s s' -> resp_inv s'.
Proof.
  unfold resp_inv. intros W J I H k O. specialize (I k O). destruct I as [I1 I2]. norm_q H; fields; rewrite ?responses_outs; cbn [responses response_frames].
  all: rewrite ?(response_frame_false k (rst_frame _ _)) by exact Logic.I.
  all: rewrite ?(response_frame_false k (wu_frame _ _)) by exact Logic.I.
  all: rewrite ?(response_frame_false k (goaway_frame _ _)) by exact Logic.I.
  all: try (rewrite (response_frame_false k f) by (rew_pl; exact Logic.I)).
  all: try solve [split; [exact I1|]; try discriminate; try exact I2; intros OK y G; specialize (I2 OK); streams G; try exact (I2 _ G);
    try subst k; match goal with F : find_st _ _ = Some _ |- _ => refine (phase_same _ _ _ _ _ _ _ _ _ (I2 _ F)); try reflexivity; try (intros C; exact C); try congruence end].
  (* q_cmd *)
  { destruct c as [k0 r| | |]; try (split; [exact I1|exact I2]). destruct (k0 =? k); [|split; [exact I1|exact I2]].
    split; [apply log_grow, I1|]. intros OK x G. apply phase_cmd; [exact I1|exact (I2 OK x G)]. }
  (* q_respond *)
  { destruct (N.eqb_spec sid k) as [EQ|NE].
    - split; [apply log_grow, I1|]. intros OK y G. specialize (I2 OK). streams G; [|congruence]. assert (HK : find_st (sv_streams s) k = Some x) by (rewrite <- EQ; exact H). specialize (I2 _ HK).
      destruct (responses k (sv_log s)) as [|a rs] eqn:RS; [|apply phase_two; discriminate]. cbn [app st_phase]. right. right.
      destruct I2 as (_ & _ & _ & F). destruct H0 as [C|[C|[C|C]]]; [|right; exact C| |congruence].
      + pose proof (ws_hcl _ (w_st _ W _ _ H) C). congruence.
      + rewrite (J OK C) in H. discriminate H.
    - split; [exact I1|]. intros OK y G. specialize (I2 OK). streams G; [congruence|exact (I2 _ G)]. }
  (* q_start_body *)
  { pose proof (proj1 (w_key _ W _ _ H)) as KS. destruct (response_frames_headers k sid 0 (sv_pmax s) block (LCmd (CRespond sid r) :: sv_log s) KS) as (h & RF & (b & B) & F).
    rewrite RF. cbn [response_frames]. destruct (N.eqb_spec sid k) as [EQ|NE].
    - split; [eapply log_start; [exact I1|exact B|]; rewrite F; discriminate|]. intros OK y G. specialize (I2 OK). streams G; [|congruence]. assert (HK : find_st (sv_streams s) k = Some x) by (rewrite <- EQ; exact H). specialize (I2 _ HK).
      destruct (responses k (sv_log s)) as [|a rs] eqn:RS; [|apply phase_two; discriminate]. cbn [log_phase] in I1. rewrite I1. cbn [app st_phase]. right. left. repeat split.
      + discriminate.
      + cbn [existsb]. rewrite F. reflexivity.
      + cbn [body_octets flat_map]. unfold payload_octets. rewrite B. reflexivity.
    - split; [exact I1|]. intros OK y G. specialize (I2 OK). streams G; [congruence|exact (I2 _ G)]. }
  (* q_start_nobody *)
  { pose proof (proj1 (w_key _ W _ _ H)) as KS. destruct (response_frames_headers k sid FLAG_END_STREAM (sv_pmax s) block (LCmd (CRespond sid r) :: sv_log s) KS) as (h & RF & (b & B) & F).
    rewrite RF. cbn [response_frames]. destruct (N.eqb_spec sid k) as [EQ|NE].
    - split; [eapply log_start; [exact I1|exact B|auto]|]. intros OK y G. specialize (I2 OK). streams G; [|congruence].
      destruct (responses k (sv_log s)) as [|a rs] eqn:RS; [|apply phase_two; discriminate]. cbn [app st_phase]. right. right. left. reflexivity.
    - split; [exact I1|]. intros OK y G. specialize (I2 OK). streams G; [congruence|exact (I2 _ G)]. }
  (* q_start_dead *)
  1,2: pose proof (proj1 (w_key _ W _ _ H)) as KS; split; [|congruence].
  { destruct (send_headers_shape sid (match rs_body r with [] => FLAG_END_STREAM | _ => 0 end) (sv_pmax s) block) as (h & rs & EH & (b & B) & F & S & _).
    rewrite EH in H3. injection H3 as -> _. unfold response_frame. rewrite (S KS), B. rewrite andb_true_r. destruct (sid =? k); [|exact I1].
    eapply log_start; [exact I1|exact B|]. rewrite F. destruct (rs_body r); [reflexivity|discriminate]. }
  { destruct (send_headers_shape sid (match rs_body r with [] => FLAG_END_STREAM | _ => 0 end) (sv_pmax s) block) as (h & rs & EH & (b & B) & F & S & _).
    rewrite EH in H3. injection H3 as -> _. congruence. }
  (* q_encfail *)
  { destruct (sid =? k); (split; [first [apply log_grow, I1|exact I1]|discriminate]). }
  { destruct (sid =? k); (split; [first [apply log_grow, I1|exact I1]|]); intros OK; revert ACT; fields; intros ACT; unfold get in H; rewrite (J OK ACT) in H; discriminate H. }
  (* q_data *)
  { pose proof (proj1 (w_key _ W _ _ H)) as KS. set (fr := data_frame sid (rs_body (st_resp x)) (st_off x) (N.to_nat n) fin).
    assert (RF : response_frame k fr = (sid =? k)) by (unfold response_frame, fr, data_frame; rewrite stream_of_mk by exact KS; apply andb_true_r).
    rewrite RF. destruct (N.eqb_spec sid k) as [EQ|NE].
    2: { split; [exact I1|]. intros OK y G. specialize (I2 OK). streams G; [congruence|exact (I2 _ G)]. }
    assert (HK : find_st (sv_streams s) k = Some x) by (rewrite <- EQ; exact H). pose proof (I2 H1 _ HK) as P.
    assert (NF : ~ fresh x) by (intros (C1 & C2 & _); rewrite C1, C2 in H3; cbn [resp_empty rs_body length] in H3; lia).
    assert (NC : st_ends x = true \/ st_state x = CLOSED -> False).
    { intros [C|C]; [destruct (ws_ends _ (w_st _ W _ _ H) C) as [D|D]; destruct H0; congruence|destruct H0; congruence]. }
    destruct (responses k (sv_log s)) as [|r [|r2 rs]]; cbn [st_phase log_phase] in *; [contradiction| |split; auto].
    destruct P as [[_ P]|[P|P]]; [contradiction| |contradiction]. destruct P as (P1 & P2 & P3 & P4).
    assert (FE : has_end_stream fr = fin) by (unfold fr, has_end_stream; cbn [data_frame fr_hdr]; destruct fin; reflexivity).
    assert (BO : body_octets (response_frames k (sv_log s) ++ [fr]) = firstn (st_off x + N.to_nat n) (rs_body r)).
    { rewrite body_app. cbn [body_octets flat_map fr data_frame payload_octets fr_pl]. fold body_octets. rewrite app_nil_r, P4, P1.
      rewrite <- (firstn_skipn (st_off x) (rs_body r)) at 3. rewrite firstn_app, firstn_firstn. rewrite (Nat.min_r (st_off x + N.to_nat n) (st_off x)) by lia. rewrite firstn_length, Nat.min_l by (rewrite <- P1; lia).
      f_equal. f_equal. lia. }
    split.
    - apply (transmits_more _ _ _ (skipn (st_off x + N.to_nat n) (rs_body r))); auto.
      + rewrite app_assoc. transitivity (firstn (st_off x + N.to_nat n) (rs_body r) ++ skipn (st_off x + N.to_nat n) (rs_body r)); [symmetry; apply firstn_skipn|].
        f_equal. rewrite <- BO, body_app. cbn [body_octets flat_map]. rewrite app_nil_r. reflexivity.
      + rewrite FE. intros C. rewrite C in H7. symmetry in H7. apply andb_true_iff in H7 as [C1 _]. apply Nat.eqb_eq in C1. rewrite P1 in C1. apply skipn_all2. lia.
    - intros OK y G. streams G; [|congruence]. unfold data_stream. destruct fin; [right; right; left; reflexivity|]. right. left. unfold sending. st. repeat split; auto.
      + destruct (response_frames k (sv_log s)); discriminate.
      + rewrite existsb_app, P3. cbn [existsb]. rewrite FE. reflexivity. }
  (* q_trailers *)
  { pose proof (proj1 (w_key _ W _ _ H)) as KS. set (fr := mk_frame (mk_h T_HEADERS (N.lor FLAG_END_HEADERS FLAG_END_STREAM) sid) (PHeaders block None)).
    assert (RF : response_frame k fr = (sid =? k)) by (unfold response_frame, fr; rewrite stream_of_mk by exact KS; apply andb_true_r).
    rewrite RF. destruct (N.eqb_spec sid k) as [EQ|NE].
    2: { split; [exact I1|]. intros OK y G. specialize (I2 OK). streams G; [congruence|exact (I2 _ G)]. }
    assert (HK : find_st (sv_streams s) k = Some x) by (rewrite <- EQ; exact H). pose proof (I2 H1 _ HK) as P.
    assert (NF : ~ fresh x) by (intros (_ & _ & C & _); congruence).
    assert (NC : st_ends x = true \/ st_state x = CLOSED -> False).
    { intros [C|C]; [destruct (ws_ends _ (w_st _ W _ _ H) C) as [D|D]; destruct H0; congruence|destruct H0; congruence]. }
    destruct (responses k (sv_log s)) as [|r [|r2 rs]]; cbn [st_phase log_phase] in *; [contradiction| |split; auto].
    destruct P as [[_ P]|[P|P]]; [contradiction| |contradiction]. destruct P as (P1 & P2 & P3 & P4). split.
    - apply (transmits_more _ _ _ []); auto. cbn [payload_octets fr fr_pl app]. rewrite app_nil_r, P4, H2, P1. symmetry. apply firstn_all.
    - intros OK y G. streams G; [|congruence]. right. right. left. reflexivity. }
  (* q_push *)
  { rewrite response_frame_false by exact Logic.I. split; [exact I1|]. intros OK y G. streams G; [congruence|exact (I2 OK _ G)]. }
  { rewrite response_frame_false by exact Logic.I. split; [exact I1|exact I2]. }
Qed.


(** ** No HEADERS or DATA on a stream the server has reset *)
Definition reset_inv (s : server) : Prop :=
  (forall k x, N.odd k = true -> find_st (sv_streams s) k = Some x -> reset_since k (sv_log s) = false) /\ always silent_after_reset (sv_log s).
Lemma reset_since_outs k fs l : (forall f, In f fs -> is_rst_on k f = false) -> reset_since k (rev (map LOut fs) ++ l) = reset_since k l.
Proof.
  induction fs as [|f fs IH] in l |- *; intros H; [reflexivity|]. cbn [map rev]. rewrite <- app_assoc. rewrite IH by (intros; apply H; right; assumption).
  cbn [app reset_since]. rewrite (H f) by (left; reflexivity). reflexivity.
Qed.
Lemma reset_since_in k f l : reset_since k l = false -> reset_since k (LIn f :: l) = false.
Proof. intros H. cbn [reset_since]. destruct (fr_pl f); auto. destruct (_ =? _); auto. Qed.
Lemma reset_in f s s' : stream_id_ok f -> reset_inv s -> instep f s s' -> reset_inv s'.
Proof.
  unfold reset_inv. intros SO [I1 I2] H. norm_in H; fields.
  all: split; [|repeat apply always_cons; try assumption; try exact Logic.I;
     cbn [silent_after_reset]; intros k O R; exfalso; unfold response_frame in R; cbn [rst_frame wu_frame goaway_frame fr_pl] in R; rewrite andb_false_r in R; discriminate R].
  all: intros k y O G; specialize (I1 k); streams G; try specialize (I1 _ O G).
  all: cbn [reset_since]; try (rewrite (rst_false k (wu_frame _ _)) by exact Logic.I); try (rewrite (rst_false k (goaway_frame _ _)) by exact Logic.I); cbn [orb].
  all: try solve [apply reset_since_in; exact I1].
  all: try solve [apply reset_since_in; try subst k; match goal with F : find_st _ _ = Some _ |- _ => exact (I1 _ O F) end].
  all: try solve [rew_pl; subst k; rewrite N.eqb_refl; reflexivity].
  all: rewrite rst_other by (rewrite stream_of_rst by exact SO; congruence); cbn [orb]; apply reset_since_in; exact I1.
Qed.
Lemma silent_out f l : match fr_pl f with PData _ _ | PHeaders _ _ => False | _ => True end -> silent_after_reset (LOut f :: l).
Proof. intros H k O R. rewrite response_frame_false in R by exact H. discriminate R. Qed.
Lemma silent_frames k fs l : (forall f, In f fs -> stream_of f = k /\ is_rst_on k f = false) -> (N.odd k = true -> reset_since k l = false) ->
  always silent_after_reset l -> always silent_after_reset (rev (map LOut fs) ++ l).
Proof.
  induction fs as [|f fs IH] in l |- *; intros H R A; [exact A|]. cbn [map rev]. rewrite <- app_assoc. cbn [app]. apply IH; [intros; apply H; right; assumption| |].
  - intros O. cbn [reset_since]. destruct (H f (or_introl eq_refl)) as [_ ->]. exact (R O).
  - apply always_cons; [exact A|]. intros j O RF. destruct (H f (or_introl eq_refl)) as [S _]. unfold response_frame in RF. apply andb_true_iff in RF as [RF _]. apply N.eqb_eq in RF.
    assert (EJ : j = k) by congruence. rewrite EJ in *. exact (R O).
Qed.
Lemma reset_q E sh s s' : wf s -> reset_inv s -> qstep E false sh s s' -> reset_inv s'.
Proof.
  unfold reset_inv. intros W [I1 I2] H. norm_q H; try discriminate H; fields.
  all: try solve [split; [|exact I2]; intros k y O G; specialize (I1 k); streams G; try exact (I1 _ O G); try subst k; match goal with F : find_st _ _ = Some _ |- _ => exact (I1 _ O F) end].
  all: split; [intros k y O G; specialize (I1 k); streams G; try specialize (I1 _ O G)|].
  all: rewrite ?reset_since_outs by (intros ff Hff; exact (headers_not_rst _ _ _ _ _ _ Hff)); cbn [reset_since].
  all: try (rewrite rst_false by (rew_pl; exact Logic.I)); cbn [orb]; try exact I1; try (try subst k; solve [match goal with F : find_st _ _ = Some _ |- _ => exact (I1 _ O F) end]).
  all: try solve [repeat apply always_cons; try assumption; try exact Logic.I; apply silent_out; rew_pl; exact Logic.I].
  1,2: pose proof (proj1 (w_key _ W _ _ H)) as KS; apply (silent_frames sid); [intros f Hf; split; [destruct (send_headers_frames _ _ _ _ _ Hf) as [S _]; rewrite S; apply stream_of_mk, KS|exact (headers_not_rst _ _ _ _ _ _ Hf)]|
         intros O; cbn [reset_since]; exact (I1 _ _ O H)|apply always_cons; [exact I2|exact Logic.I]].
  1,2,3: pose proof (proj1 (w_key _ W _ _ H)) as KS; repeat apply always_cons; try exact I2; try exact Logic.I; intros k O R; cbn [reset_since]; apply (I1 k x O);
     unfold response_frame in R; apply andb_true_iff in R as [R _]; apply N.eqb_eq in R.
  - replace k with sid; [exact H|]. rewrite <- R. symmetry. destruct (send_headers_frames sid _ _ _ f ltac:(rewrite H3; left; reflexivity)) as [S _]. rewrite S. apply stream_of_mk, KS.
  - unfold data_frame in R. rewrite stream_of_mk in R by exact KS. rewrite <- R. exact H.
  - rewrite stream_of_mk in R by exact KS. rewrite <- R. exact H.
  - congruence.
  - rewrite rst_other by (rewrite stream_of_rst by assumption; congruence). exact I1.
Qed.

(** ** A closed stream stays closed *)
Definition gone (k : N) (fs : list frame) (s : server) : Prop :=
  find_st (sv_streams s) k = None /\ (k <= sv_last s \/ sv_active s = false) /\ response_frames k (sv_log s) = fs.
Lemma gone_in k fs f s s' : N.odd k = true -> gone k fs s -> instep f s s' -> gone k fs s'.
Proof.
  unfold gone. intros O (I1 & I2 & I3) H. norm_in H; unfold get, alive in *; fields; cbn [response_frames];
    rewrite ?(response_frame_false k (rst_frame _ _)), ?(response_frame_false k (wu_frame _ _)), ?(response_frame_false k (goaway_frame _ _)) by exact Logic.I.
  all: split; [|split; [|exact I3]]; auto.
  all: autorewrite with svf; try match goal with |- context [?a =? ?b] => destruct (N.eqb_spec a b) as [EQ|NE] end; auto.
  all: try solve [exfalso; destruct I2 as [I2|I2]; [lia|congruence]|rewrite I1; reflexivity].
  - exfalso. apply andb_true_iff in H2 as [_ H2]. destruct I2 as [I2|I2]; [lia|congruence].
  - destruct I2 as [I2|I2]; [left; lia|right; exact I2].
Qed.
Lemma gone_q E th sh k fs s s' : N.odd k = true -> wf s -> gone k fs s -> qstep E th sh s s' -> gone k fs s'.
Proof.
  unfold gone. intros O W (I1 & I2 & I3) H. norm_q H; unfold get in *; fields; cbn [response_frames];
    rewrite ?(response_frame_false k (rst_frame _ _)), ?(response_frame_false k (wu_frame _ _)), ?(response_frame_false k (goaway_frame _ _)) by exact Logic.I.
  all: try match goal with F : find_st (sv_streams _) ?j = Some _, N : find_st _ ?k = None, W : wf _ |- _ =>
     assert (NE : j <> k) by congruence; pose proof (proj1 (w_key _ W _ _ F)) as KS end.
  all: split; [autorewrite with svf; try match goal with |- context [?a =? ?b] => destruct (N.eqb_spec a b) as [EQ|NE2] end; auto; congruence|].
  all: split; [auto; fail|].
  all: try exact I3.
  all: try (rewrite response_frame_false by (rew_pl; exact Logic.I); exact I3).
  all: try (rewrite response_frame_other by (unfold data_frame; rewrite stream_of_mk by exact KS; exact NE); exact I3).
  - destruct (response_frames_headers k sid 0 (sv_pmax s) block (LCmd (CRespond sid r) :: sv_log s) KS) as (h & RF & _). rewrite RF. apply N.eqb_neq in NE. rewrite NE. exact I3.
  - destruct (response_frames_headers k sid FLAG_END_STREAM (sv_pmax s) block (LCmd (CRespond sid r) :: sv_log s) KS) as (h & RF & _). rewrite RF. apply N.eqb_neq in NE. rewrite NE. exact I3.
  - rewrite response_frame_other; [exact I3|]. destruct (send_headers_frames sid _ _ _ f ltac:(rewrite H3; left; reflexivity)) as [S _]. rewrite S, stream_of_mk by exact KS. exact NE.
Qed.

(** Induction over the continuation of a run. *)
Lemma run_invariant_from E (th sh : bool) (Inv : server -> Prop) es0 :
  Forall event_ok es0 -> Inv (run E es0) ->
  (forall f s s', sv_ok s = true -> wf s -> mc s -> frame_octets_ok f -> stream_id_ok f -> Inv s -> instep f s s' -> Inv s') ->
  (forall s s', wf s -> mc s -> Inv s -> qstep E th sh s s' -> Inv s') ->
  forall es, Forall event_ok es -> Forall (fun e => (throws e = true -> th = true) /\ (sets e = true -> sh = true)) es -> Inv (run E (es0 ++ es)).
Proof.
  intros F0 I0 II IQ. assert (QS : forall s s', qsteps E th sh s s' -> wf s -> mc s -> Inv s -> Inv s').
  { induction 1; auto. intros W M V. apply IHqsteps; [eapply qstep_wf; eauto|eapply mc_q; eauto|eapply IQ; eauto]. }
  induction es as [|e es IH] using rev_ind; intros F G; [rewrite app_nil_r; exact I0|].
  apply Forall_app in F as [F1 F2]. apply Forall_app in G as [G1 G2]. inversion F2; subst. inversion G2; subst.
  rewrite app_assoc, run_snoc. destruct (run_wf E (es0 ++ es)) as [W M]; [apply Forall_app; auto|]. specialize (IH F1 G1). set (s := run E (es0 ++ es)) in *.
  destruct H3 as [TH SH]. pose proof (step_q E th sh s e W M H1 TH SH) as H.
  destruct e as [|f a ord|code sid| |c|t]; try solve [eapply QS; eauto].
  destruct (sv_ok s) eqn:OK; [|rewrite H; exact IH]. destruct H as (s1 & I & S). destruct H1 as (FO & SI & _).
  eapply QS; [exact S|eapply instep_wf; eauto|eapply mc_in; eauto|]. eapply II; eauto.
Qed.
Lemma all_allowed es : Forall (fun e => (throws e = true -> true = true) /\ (sets e = true -> true = true)) es.
Proof. induction es; constructor; auto. Qed.

(** ** Per-stream send window, while the peer does not change its settings *)
Lemma no_response_no_data k l : response_frames k l = [] -> data_sent_on k l = 0.
Proof.
  unfold data_sent_on. induction l as [|i l IH]; [reflexivity|]. cbn [response_frames total weigh_out]. destruct i as [f|f| | | | |]; cbn [weigh_out]; auto.
  unfold response_frame, on_stream, flow_size. destruct (stream_of f =? k); cbn [andb]; [|auto]. destruct (fr_pl f); auto; intros H; destruct (response_frames k l); discriminate.
Qed.
Definition swindow (w : N) (s : server) : Prop := sv_ipeer s = w /\ forall k, N.odd k = true ->
  data_sent_on k (sv_log s) <= w + credit_received_on k (sv_log s) /\
  forall x, find_st (sv_streams s) k = Some x -> (st_peer x + Z.of_N (data_sent_on k (sv_log s)) <= Z.of_N w + Z.of_N (credit_received_on k (sv_log s)))%Z.
Lemma swindow_in w f s s' : sv_ok s = true -> virgin_inv s -> swindow w s -> instep f s s' -> swindow w s'.
Proof.
  unfold swindow, data_sent_on, credit_received_on. intros OK V [I0 I] H. norm_in H; fields; (split; [exact I0|]); intros k O; destruct (I k O) as [I1 I2].
  all: frs; rewrite ?(on_stream_zero k flow_size (rst_frame _ _)), ?(on_stream_zero k flow_size (wu_frame _ _)), ?(on_stream_zero k flow_size (goaway_frame _ _)) by reflexivity; rewrite ?N.add_0_l.
  all: split; [clear V; lia|].
  all: intros y G; streams G; try (specialize (I2 _ G); clear V; lia).
  all: try match goal with F : find_st _ (stream_of _) = Some ?x, Ek : _ = stream_of _ |- _ => rewrite <- Ek in F; specialize (I2 _ F); unfold grant, acc_stream, hdr_stream in *; st; clear V end.
  1,3: subst k; unfold virgin_inv, alive in *; rewrite OK in *; cbn [andb] in *;
     match goal with A : sv_active _ = true, L : sv_last _ < stream_of _ |- _ => destruct (V A _ O L) as (_ & _ & _ & _ & VF) end;
     pose proof (no_response_no_data _ _ VF) as Z0; unfold data_sent_on in Z0; rewrite Z0; unfold hdr_stream; st; cbn [new_stream st_peer]; rewrite I0; clear V; lia.
  all: try lia.
  rewrite Ek in *. rewrite on_same. unfold credit at 1. rewrite H. clear I. lia.
Qed.
Lemma total_data_headers k sid flags pmax block : total (weigh_out (on_stream k flow_size)) (rev (map LOut (send_headers sid flags pmax block))) = 0.
Proof. apply total_out_headers0. intros f [(b & p & B)|(b & B)]; apply on_stream_zero; unfold flow_size; rewrite B; reflexivity. Qed.
Lemma swindow_q E th w s s' : wf s -> swindow w s -> qstep E th false s s' -> swindow w s'.
Proof.
  unfold swindow, data_sent_on, credit_received_on. intros W [I0 I] H. norm_q H; try discriminate H; fields; (split; [exact I0|]); intros k O; destruct (I k O) as [I1 I2]; clear I.
  all: rewrite ?total_app, ?total_in_outs, ?total_data_headers; frs.
  all: try match goal with F : get _ ?sid = Some _ |- _ => pose proof (proj1 (w_key _ W _ _ F)) as KS end; clear W.
  all: try (rewrite (on_stream_zero k flow_size) by (unfold flow_size; rew_pl; reflexivity)); rewrite ?N.add_0_l.
  all: try solve [split; [exact I1|]; intros y G; streams G; try exact (I2 _ G); try solve [match goal with F : find_st _ ?sid = Some ?x, Ek : _ = ?sid |- _ => rewrite <- Ek in F; specialize (I2 _ F); unfold response_ends in *; st; exact I2 end]; congruence].
  assert (FS : on_stream k flow_size (data_frame sid (rs_body (st_resp x)) (st_off x) (N.to_nat n) fin) = if sid =? k then n else 0).
  { unfold on_stream, data_frame. rewrite stream_of_mk by exact KS. destruct (sid =? k); [|reflexivity]. unfold flow_size. cbn [fr_pl]. rewrite firstn_length, skipn_length. lia. }
  rewrite FS. destruct (N.eqb_spec sid k) as [EQ|NE].
  - assert (HK : find_st (sv_streams s) k = Some x) by (rewrite <- EQ; exact H). pose proof (I2 _ HK) as I3. split; [lia|]. intros y G. streams G; [|congruence].
    replace (st_peer (data_stream n fin x)) with (st_peer x - Z.of_N n)%Z by (unfold data_stream; destruct fin; reflexivity). lia.
  - rewrite N.add_0_l. split; [exact I1|]. intros y G. streams G; [congruence|exact (I2 _ G)].
Qed.
