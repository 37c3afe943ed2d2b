(** Every frame handler of the HTTP/2 client, and so every event, is a sequence of elementary steps from one clean
    state to another. *)
From Verif Require Import Base UtilModel HpackTables HpackModel HpackSpec DynTableProofs HpackCodecProofs HpackConnProofs
  H2Model H2Proofs H2FieldModel H2ClientModel H2ClientSpec H2ClientSteps H2ClientAgree H2ClientHandlers.
From Verif Require H2ServerSteps.
Local Open Scope N_scope.

Lemma callback_KH n : KH (callback n).
Proof.
  induction n as [|n IH]; intros s G; [split; [constructor|apply aft_refl]|]. cbn [callback].
  destruct (cl_script s) as [|cs r] eqn:E; [split; [constructor|apply aft_refl]|].
  pose proof (w_script _ (proj1 G)) as WS. rewrite E in WS. inversion WS as [|? ? W1 W2]; subst.
  assert (M : mv s (set_cl_script r s)) by (apply m_script; auto).
  destruct (run_ccmds_steps (callback n) IH cs W1 _ (mvs_good _ _ G (ms_one _ _ M))) as [M1 A1].
  split; [eapply ms_cons; eauto|]. eapply aft_trans; [|exact A1]. apply (aft_here _ _ _ []); try reflexivity. apply neutral_nil.
Qed.

Lemma clean_alive s : clean s -> cl_ok s = true -> calive s = true.
Proof. intros [_ C] O. unfold calive. rewrite O, (C O). reflexivity. Qed.
Lemma clean_gone sid s s' : clean_but (only sid) s -> aft (only sid) s s' -> cget s' sid = None -> clean s'.
Proof. intros C A GN. apply (clean_only sid); [eapply aft_clean; eauto|]. congruence. Qed.
Lemma clean_outcome sid x s s' : clean_but (only sid) s -> tidy (cl_ok s) (cl_hsid s) sid x -> outcome sid x s s' -> clean s'.
Proof.
  intros C (T1 & T2 & T3 & T4) (M & A & E). apply (clean_only sid); [eapply aft_clean; eauto|]. intros y GY.
  destruct E as [E|(z & Z1 & Z2 & Z3 & Z4 & Z5 & Z6)]; [congruence|]. assert (z = y) by congruence. subst z.
  unfold tidy. rewrite Z2, Z3, Z4, Z5, Z6, (af_hsid _ _ _ A). do 3 (split; [assumption|]). intros O. apply T4, (af_ok _ _ _ A), O.
Qed.
Lemma clean_same s s' : clean s -> cl_streams s' = cl_streams s -> cl_ok s' = cl_ok s -> cl_hsid s' = cl_hsid s -> cl_active s' = cl_active s -> clean s'.
Proof. intros [C1 C2] E1 E2 E3 E4. unfold clean, clean_but, cget in *. rewrite E1, E2, E3, E4. auto. Qed.
Lemma clean_dead s s' : clean s -> cl_ok s' = false -> (forall k y, cget s' k = Some y -> exists x, cget s k = Some x /\ cs_rsts y = cs_rsts x /\ cs_rstr y = cs_rstr x /\ cs_body y = cs_body x) -> clean s'.
Proof.
  intros [C1 C2] O H. split; [|congruence]. intros k y _ G. destruct (H k y G) as (x & G1 & E1 & E2 & E3). destruct (C1 k x (fun f => f) G1) as (T1 & T2 & T3 & _).
  unfold tidy. rewrite E1, E2, E3, O. do 3 (split; [assumption|]). discriminate.
Qed.
Lemma clean_dead_same s s' : clean s -> cl_ok s' = false -> cl_streams s' = cl_streams s -> clean s'.
Proof. intros C O E. apply (clean_dead s); auto. intros k y G. unfold cget in *. rewrite E in G. eauto 6. Qed.
Lemma dext_more s s' : good s -> cl_streams s' = cl_streams s -> cl_next s' = cl_next s -> cl_last s' = cl_last s -> cl_rga s' = cl_rga s ->
  (exists t, dwf (enc_table (cl_enc s')) t) -> H2ServerSteps.dec_ok (cl_dec s') -> bytes_ok (cl_frag s') -> cl_ub s' = cl_ub s -> cl_script s' = cl_script s -> cl_ctl s <= cl_ctl s' -> dext s s'.
Proof.
  intros G E1 E2 E3 E4 E5 E6 E7 E8 E9. constructor; auto. intros k. unfold cget. rewrite E1. destruct (find_cs (cl_streams s) k); [|exact I]. repeat split.
Qed.
Lemma clean_setst sid x y s : clean_but (only sid) s -> cget s sid = Some x -> tidy (cl_ok s) (cl_hsid s) sid y -> clean (setst sid y s).
Proof.
  intros C GX T. apply (clean_only sid); [eapply aft_clean; [exact C|apply aft_setst]|]. intros z GZ. rewrite (cget_setst _ _ _ _ GX) in GZ. injection GZ as <-. exact T.
Qed.
Ltac dsame G := apply (dext_more _ _ G); try reflexivity; try apply N.le_refl; try apply N.le_add_r; try apply (w_enc _ (proj1 G)); try apply (w_dec _ (proj1 G)); try apply (w_frag _ (proj1 G)).

Section FRAMES.
Variable K : client -> client.
Hypothesis HK : KH K.

Definition fine (s s' : client) : Prop := mvs s s' /\ clean s'.
Lemma fine_refl s : clean s -> fine s s. Proof. split; [constructor|assumption]. Qed.
Lemma fine_after s s1 s2 : mvs s s1 -> fine s1 s2 -> fine s s2.
Proof. intros M [M1 C]. split; [eapply ms_app; eauto|exact C]. Qed.

Lemma quiet_start f s : good s -> clean s -> cl_ok s = true -> quiet_in f s ->
  mvs s (cnote (LIn f) s) /\ good (cnote (LIn f) s) /\ clean (cnote (LIn f) s).
Proof.
  intros G C O Q. assert (M : mvs s (cnote (LIn f) s)) by (apply ms_one, m_in; [apply clean_alive; auto|exact Q]).
  split; [exact M|]. split; [eapply mvs_good; eauto|exact C].
Qed.
Lemma goaway_fine s code : good s -> clean s -> fine s (cgoaway K code s).
Proof. intros G C. exact (cgoaway_any K HK s code G C). Qed.
Lemma goaway_in f s code : good s -> clean s -> cl_ok s = true -> (forall a b c, fr_pl f <> PGoaway a b c) -> fine s (cgoaway K code (cnote (LIn f) s)).
Proof.
  intros G C O NG. assert (A : calive s = true) by (apply clean_alive; auto).
  apply (cgoaway_here K HK s [LIn f] code G C A). right. left. exists f. auto.
Qed.
(** GOAWAY from a state that differs from a clean one in unimportant ways. *)
Lemma goaway_from s s1 code : good s -> clean s -> cl_ok s = true -> cl_log s1 = cl_log s -> cl_ok s1 = true -> cl_streams s1 = cl_streams s -> dext s s1 -> fine s (cgoaway K code s1).
Proof.
  intros G C O EL OK ES DX. apply (cgoaway_clean K HK s s1 [] code G (clean_alive _ C O) (or_introl eq_refl) EL OK DX); destruct C as [C1 C2].
  - intros k x H. unfold cget in H. rewrite ES in H. apply (C1 k x (fun f => f) H).
  - intros k x H. destruct (C1 k x (fun f => f) H) as (T1 & T2 & _). auto.
Qed.
Lemma goaway_over s code : cl_ok (cgoaway K code s) = false.
Proof. unfold cgoaway. destruct (cl_ok s) eqn:O; cbn [negb]; [reflexivity|exact O]. Qed.
Lemma clear_fine s0 s : good s0 -> fine s0 s -> cl_ok s = false -> fine s0 (cclear s).
Proof.
  intros G0 [M C] O. pose proof (mvs_good _ _ G0 M) as G. split.
  - eapply ms_app; [exact M|]. apply ms_one, m_dead; try reflexivity; [unfold calive; rewrite O; reflexivity|]. dsame G. apply Forall_nil.
  - eapply clean_dead_same; [exact C|exact O|reflexivity].
Qed.
Lemma rst_fine s sid code x : good s -> clean s -> cget s sid = Some x -> fine s (crst K sid code s) /\ good (crst K sid code s).
Proof.
  intros G C GX. destruct (cl_ok s) eqn:O; [|rewrite crst_off by exact O; split; [apply fine_refl, C|exact G]].
  destruct (proj1 C sid x (fun f => f) GX) as (T1 & T2 & T3 & T4).
  destruct (crst_steps K HK s [] sid code x G (clean_alive _ C O) GX T1 (or_introl eq_refl)) as (M & AF & GN); [intros D; apply (w_told _ (proj1 G) sid x); auto|].
  rewrite addlog_nil in *. split; [|eapply mvs_good; eauto]. split; [exact M|]. eapply clean_gone; [apply clean_any, C|exact AF|exact GN].
Qed.
(** RST_STREAM while the DATA or WINDOW_UPDATE frame received has not been accounted for. *)
Lemma rst_in f s code x : good s -> clean s -> cl_ok s = true -> cget s (stream_of f) = Some x -> match fr_pl f with PData _ _ | PWindow _ => True | _ => False end ->
  fine s (crst K (stream_of f) code (cnote (LIn f) s)) /\ good (crst K (stream_of f) code (cnote (LIn f) s)).
Proof.
  intros G C O GX HF. destruct (proj1 C _ x (fun f => f) GX) as (T1 & T2 & T3 & T4).
  destruct (crst_steps K HK s [LIn f] (stream_of f) code x G (clean_alive _ C O) GX T1) as (M & AF & GN).
  - right. exists f. auto.
  - intros D. apply (w_told _ (proj1 G) _ x); auto.
  - split; [|eapply mvs_good; eauto]. split; [exact M|].
    eapply (clean_gone (stream_of f) (addlog [LIn f] s)); [apply clean_any; exact C|exact AF|exact GN].
Qed.

(** ** The simpler frames *)
Lemma priority_fine f s p : good s -> clean s -> cl_ok s = true -> fr_pl f = PPriority p -> fine s (con_priority K (fr_hdr f) (cnote (LIn f) s)).
Proof.
  intros G C O EF. destruct (quiet_start f s G C O) as (M & G1 & C1); [unfold quiet_in; rewrite EF; exact I|].
  unfold con_priority. change (cl_ok (cnote (LIn f) s)) with (cl_ok s). rewrite O. cbn [negb]. apply (fine_after _ _ _ M).
  destruct (_ =? 0); [apply goaway_fine; auto|apply fine_refl; auto].
Qed.
Lemma push_fine f s a b : good s -> clean s -> cl_ok s = true -> fr_pl f = PPush a b -> fine s (con_push K a (cnote (LIn f) s)).
Proof.
  intros G C O EF. destruct (quiet_start f s G C O) as (M & G1 & C1); [unfold quiet_in; rewrite EF; exact I|].
  unfold con_push. apply (fine_after _ _ _ M). destruct (calive _); cbn [negb]; [apply goaway_fine; auto|apply fine_refl; auto].
Qed.
Lemma ping_fine f s o : good s -> clean s -> cl_ok s = true -> fr_pl f = PPing o -> fine s (con_ping K (fr_hdr f) o (cnote (LIn f) s)).
Proof.
  intros G C O EF. destruct (quiet_start f s G C O) as (M & G1 & C1); [unfold quiet_in; rewrite EF; exact I|].
  unfold con_ping. apply (fine_after _ _ _ M). destruct (has_flag _ _); [apply fine_refl; auto|]. cbv zeta.
  set (s1 := cnote (LIn f) s) in *. assert (A1 : calive s1 = true) by (apply clean_alive; auto).
  change (cl_ctl (set_cl_ctl (cl_ctl s1 + 1) s1)) with (cl_ctl s1 + 1). destruct (N.ltb_spec C_MAX_REPLIES (cl_ctl s1 + 1)) as [L|L].
  - apply goaway_from; auto. dsame G1.
  - split; [|exact C1]. apply ms_one, (m_reply s1 (mk_frame (mk_h T_PING FLAG_ACK 0) (PPing o))); auto. right. exists o. reflexivity.
Qed.
Lemma rst_stream_fine f s code : good s -> clean s -> cl_ok s = true -> fr_pl f = PRst code -> fine s (con_rst K (fr_hdr f) code (cnote (LIn f) s)).
Proof.
  intros G C O EF. destruct (quiet_start f s G C O) as (M & G1 & C1); [unfold quiet_in; rewrite EF; exact I|].
  unfold con_rst. apply (fine_after _ _ _ M). clear M. set (s1 := cnote (LIn f) s) in *.
  assert (A1 : calive s1 = true) by (apply clean_alive; auto). rewrite A1. cbn [negb]. cbv zeta.
  destruct (get_stream_id (fr_hdr f) =? 0); [apply goaway_fine; auto|]. set (sid := get_stream_id (fr_hdr f)).
  destruct (cget s1 sid) as [x|] eqn:GX; [|destruct (_ && _); [apply goaway_fine; auto|apply fine_refl; auto]].
  rewrite (cupd_some _ _ _ _ GX). set (y := set_cs_state CLOSED (set_cs_err code (set_cs_rstr true x))).
  destruct (proj1 C1 sid x (fun f => f) GX) as (T1 & T2 & T3 & T4).
  assert (BN : benign sid (cl_log s1) x y) by (unfold benign, y; cs; repeat (split; [reflexivity|]); auto).
  assert (ST : steady s1 sid x y) by (split; [intros _; right; reflexivity|]; intros _; right; left; exists f; split; [left; reflexivity|]; split; [reflexivity|exists code; exact EF]).
  assert (FIN : forall s2, mvs s1 s2 -> aft (only sid) s1 s2 -> cget s2 sid = Some y -> fine s1 (ctry_close sid s2)).
  { intros s2 M2 A2 E2. unfold ctry_close. rewrite E2. change (cs_rstr y) with true. rewrite !orb_true_r.
    split; [eapply ms_app; [exact M2|apply ms_one, m_erase; intros _ x0 E0; rewrite E2 in E0; injection E0 as <-; change (cs_rstr y) with true; apply orb_true_r]|]. eapply clean_gone; [apply clean_any; exact C1|eapply aft_trans; [exact A2|apply aft_erase]|].
    rewrite cget_cerase, N.eqb_refl. reflexivity. }
  destruct (cs_disp x) eqn:D; cbn [negb].
  - apply FIN; [apply ms_one, (m_upd s1 sid x y GX BN ST)|apply aft_setst|apply (cget_setst _ _ _ _ GX)].
  - pose proof (w_told _ (proj1 G1) sid x GX T1 T2 D) as NT.
    assert (M1 : mvs s1 (cnote (LErr sid code) (setst sid y s1))).
    { apply ms_one. exact (m_rstin s1 sid code x y GX D NT BN eq_refl ST). }
    destruct (call_steps K HK _ _ _ G1 M1) as [M2 A2]. apply FIN; [exact M2| |].
    + eapply aft_trans; [apply (aft_setst sid y)|]. eapply aft_trans; [|apply aft_nobody, A2]. apply (aft_here _ _ _ [LErr sid code]); try reflexivity. apply neutral_single. intros k; exact I.
    + apply (af_old _ _ _ A2 sid y (fun f => f)). apply (cget_setst _ _ _ _ GX).
Qed.

(** ** WINDOW_UPDATE and SETTINGS *)
Lemma try_send_fine sid s x : good s -> clean s -> cget s sid = Some x -> cs_pend x = true -> fine s (ctry_send K sid s).
Proof.
  intros G C GX P. pose proof (proj1 C sid x (fun f => f) GX) as T. destruct T as (T1 & T2 & T3 & T4).
  pose proof (ctry_send_steps K HK sid s x G GX T1 T2 P) as OC. split; [apply OC|]. eapply clean_outcome; [apply clean_any, C| |exact OC]. unfold tidy. auto.
Qed.
Lemma flush_fine order : forall s, good s -> clean s -> fine s (cflush K order s).
Proof.
  induction order as [|sid r IH]; intros s G C; [apply fine_refl, C|]. cbn [cflush].
  destruct (cget s sid) as [x|] eqn:GX; [|auto]. destruct (cs_pend x) eqn:P; [|auto]. cbv zeta.
  pose proof (try_send_fine sid s x G C GX P) as [M1 C1]. destruct (negb _); [split; assumption|].
  apply (fine_after _ _ _ M1). apply IH; [eapply mvs_good; eauto|exact C1].
Qed.
Lemma window_fine f s inc ord : good s -> clean s -> cl_ok s = true -> fr_pl f = PWindow inc -> inc <> 0 ->
  fine s (con_window_update K (fr_hdr f) inc ord (cnote (LIn f) s)).
Proof.
  intros G C O EF NZ. assert (A : calive s = true) by (apply clean_alive; auto). assert (NG : forall a b c, fr_pl f <> PGoaway a b c) by (intros; rewrite EF; discriminate).
  unfold con_window_update. rewrite (proj2 (N.eqb_neq inc 0) NZ). cbv zeta. fold (stream_of f).
  destruct (N.eqb_spec (stream_of f) 0) as [E0|N0].
  - change (cl_csend (cnote (LIn f) s)) with (cl_csend s). destruct (_ <? _)%Z; [apply goaway_in; auto|].
    assert (M : mv s (set_cl_csend (cl_csend s + Z.of_N inc)%Z (cnote (LIn f) s))) by (apply m_wu0; auto).
    apply (fine_after _ _ _ (ms_one _ _ M)). apply flush_fine; [eapply mvs_good; [exact G|apply ms_one, M]|exact C].
  - change (cget (cnote (LIn f) s) (stream_of f)) with (cget s (stream_of f)). destruct (cget s (stream_of f)) as [x|] eqn:GX.
    + destruct (in_state _ IDLE); [apply goaway_in; auto|]. destruct (_ <? _)%Z.
      * destruct (rst_in f s FLOW_CONTROL_ERROR x G C O GX) as [[M1 C1] G1]; [rewrite EF; exact I|]. apply (fine_after _ _ _ M1). apply goaway_fine; auto.
      * assert (GX1 : cget (cnote (LIn f) s) (stream_of f) = Some x) by exact GX. rewrite (cupd_some _ _ _ _ GX1).
        set (y := set_cs_peer _ x). assert (M : mv s (setst (stream_of f) y (cnote (LIn f) s))) by (eapply m_wu; eauto).
        set (s1 := setst (stream_of f) y (cnote (LIn f) s)) in *.
        assert (C1 : clean s1) by (apply (clean_setst _ x); [apply clean_any; exact C|exact GX1|exact (proj1 C _ x (fun f => f) GX)]).
        apply (fine_after _ _ _ (ms_one _ _ M)). destruct (cs_pend x) eqn:P; [|apply fine_refl, C1].
        apply (try_send_fine _ _ y); [eapply mvs_good; [exact G|apply ms_one, M]|exact C1|apply (cget_setst _ _ _ _ GX1)|exact P].
    + destruct (N.odd (stream_of f) && (cl_last (cnote (LIn f) s) <? stream_of f)) eqn:EU; [apply goaway_in; auto|].
      destruct (quiet_start f s G C O) as (M & G1 & C1); [|split; assumption]. unfold quiet_in. rewrite EF. split; [exact N0|]. split; [exact GX|].
      intros OD. rewrite OD in EU. cbn [andb] in EU. apply N.ltb_ge in EU. exact EU.
Qed.

Lemma shift_zero l : map (cshift 0) l = l.
Proof.
  induction l as [|[k x] l IH]; [reflexivity|]. cbn [map]. rewrite IH. f_equal. unfold cshift. cbn [fst snd]. destruct (N.odd k); [|reflexivity].
  rewrite Z.add_0_r. destruct x; reflexivity.
Qed.
Lemma clean_shift d s s' : clean s -> cl_streams s' = map (cshift d) (cl_streams s) -> cl_ok s' = cl_ok s -> cl_hsid s' = cl_hsid s -> cl_active s' = cl_active s -> clean s'.
Proof.
  intros [C1 C2] E1 E2 E3 E4. unfold clean, clean_but, cget in *. rewrite E1, E2, E3, E4. split; [|exact C2]. intros k y NP H. rewrite find_shift in H.
  destruct (find_cs (cl_streams s) k) as [x|] eqn:E; [|discriminate]. cbn [option_map] in H. injection H as <-. specialize (C1 k x NP E).
  unfold cshift, tidy in *. cbn [fst snd]. destruct (N.odd k); exact C1.
Qed.
Lemma dext_shift s s' d : good s -> cl_streams s' = map (cshift d) (cl_streams s) -> cl_next s' = cl_next s -> cl_last s' = cl_last s -> cl_rga s' = cl_rga s ->
  cl_enc s' = cl_enc s -> cl_dec s' = cl_dec s -> cl_frag s' = cl_frag s -> cl_ub s' = cl_ub s -> cl_script s' = cl_script s -> cl_ctl s <= cl_ctl s' -> dext s s'.
Proof.
  intros G E1 E2 E3 E4 E5 E6 E7 E8 E9. constructor; auto; rewrite ?E5, ?E6, ?E7.
  - intros k. unfold cget. rewrite E1, find_shift. destruct (find_cs (cl_streams s) k); [|exact I]. unfold cshift. cbn [fst snd option_map]. destruct (N.odd k); repeat split.
  - apply (w_enc _ (proj1 G)).
  - apply (w_dec _ (proj1 G)).
  - apply (w_frag _ (proj1 G)).
Qed.
Lemma flush_over order s : cl_active s = false -> good s -> cflush K order s = s.
Proof.
  intros A G. induction order as [|sid r IH]; [reflexivity|]. cbn [cflush]. destruct (cget s sid) as [x|] eqn:GX; [|exact IH]. destruct (cs_pend x); [|exact IH].
  assert (E : ctry_send K sid s = s). { unfold ctry_send. rewrite GX. unfold calive. rewrite A, andb_false_r. reflexivity. }
  cbv zeta. rewrite E, A. reflexivity.
Qed.
(** SETTINGS_INITIAL_WINDOW_SIZE, connection still open. *)
Lemma set_initial_fine v ord s : good s -> clean s -> cl_ok s = true -> v <= 2147483647 -> fine s (cset_initial K v ord (cnote (LSet 4 v) s)).
Proof.
  intros G C O LV. assert (A : calive s = true) by (apply clean_alive; auto). unfold cset_initial. cbv zeta.
  change (cl_ipeer (cnote (LSet 4 v) s)) with (cl_ipeer s). set (d := (Z.of_N v - Z.of_N (cl_ipeer s))%Z).
  pose proof (m_set4 s v A LV) as MS. fold d in MS.
  destruct (Z.eqb_spec d 0) as [E0|N0].
  - split; [|exact C]. apply ms_one. rewrite E0, shift_zero in MS. exact MS.
  - destruct (existsb _ _).
    + apply (cgoaway_clean K HK s _ [LSet 4 v]); auto; [right; right; eauto|dsame G| |]; destruct C as [C1 C2]; intros k x H; destruct (C1 k x (fun f => f) H) as (T1 & T2 & T3 & _); auto.
    + set (s1 := set_cl_streams (map (cshift d) _) _). assert (M : mv s s1) by exact MS.
      apply (fine_after _ _ _ (ms_one _ _ M)). apply flush_fine; [eapply mvs_good; [exact G|apply ms_one, M]|]. eapply (clean_shift d s); auto.
Qed.
(** The same once the connection is over. *)
Lemma set_initial_over v ord s : good s -> clean s -> cl_ok s = false -> fine s (cset_initial K v ord (cnote (LSet 4 v) s)).
Proof.
  intros G C O. unfold cset_initial. cbv zeta. change (cl_ipeer (cnote (LSet 4 v) s)) with (cl_ipeer s). set (d := (Z.of_N v - Z.of_N (cl_ipeer s))%Z).
  set (s1 := cnote (LSet 4 v) s). assert (M1 : mv s s1) by (apply m_set_dead; exact O). assert (G1 : good s1) by (eapply mvs_good; [exact G|apply ms_one, M1]).
  assert (D1 : calive s1 = false) by (unfold calive; change (cl_ok s1) with (cl_ok s); rewrite O; reflexivity).
  assert (M2 : mv s1 (set_cl_ipeer v s1)) by (apply m_dead; try reflexivity; [exact D1|dsame G1]).
  apply (fine_after _ s1); [apply ms_one, M1|]. destruct (d =? 0)%Z; [split; [apply ms_one, M2|exact C]|].
  destruct (existsb _ _); [rewrite cgoaway_off by exact O; split; [apply ms_one, M2|exact C]|].
  change (cl_streams (set_cl_ipeer v s1)) with (cl_streams s). set (s2 := set_cl_streams (map (cshift d) (cl_streams s)) _).
  assert (M3 : mv s1 s2).
  { apply m_dead; try reflexivity; [exact D1|]. apply (dext_shift s1 s2 d G1); reflexivity. }
  apply (fine_after _ _ _ (ms_one _ _ M3)). apply flush_fine; [eapply mvs_good; [exact G1|apply ms_one, M3]|]. eapply (clean_shift d s); auto.
Qed.
Lemma apply_settings_fine ord es : forall s, good s -> clean s ->
  match capply_settings K es ord s with inl s' => fine s s' | inr s' => fine s s' end.
Proof.
  induction es as [|[id v] r IH]; intros s G C; cbn [capply_settings]; [apply fine_refl, C|].
  destruct (validate_setting id v) as [code|] eqn:EV; [apply goaway_fine; auto|]. cbv zeta.
  set (s1 := if id =? 1 then _ else _).
  assert (F : fine s s1).
  { unfold s1. clear IH s1. change (cl_enc (cnote (LSet id v) s)) with (cl_enc s).
    destruct (H2ServerSteps.enc_peer_total (cl_enc s) v (w_enc _ (proj1 G))) as (e & EE & HT). rewrite EE.
    destruct (cl_ok s) eqn:O.
    - assert (A : calive s = true) by (apply clean_alive; auto). destruct (N.eqb_spec id 4) as [->|N4].
      + change (fine s (cset_initial K v ord (cnote (LSet 4 v) s))). apply set_initial_fine; auto. change ((if MAX_WINDOW <? v then Some FLOW_CONTROL_ERROR else None) = None) in EV. destruct (N.ltb_spec MAX_WINDOW v) as [L|L]; [discriminate|exact L].
      + pose proof (m_set s id v _ A EV N4 eq_refl) as M. rewrite EE in M. destruct (id =? 1); [split; [apply ms_one, M|exact C]|].
        destruct (id =? 3); [split; [apply ms_one, M|exact C]|]. destruct (id =? 5); (split; [apply ms_one, M|exact C]).
    - assert (M1 : mv s (cnote (LSet id v) s)) by (apply m_set_dead; exact O). assert (G1 : good (cnote (LSet id v) s)) by (eapply mvs_good; [exact G|apply ms_one, M1]).
      assert (D1 : calive (cnote (LSet id v) s) = false) by (unfold calive; change (cl_ok (cnote (LSet id v) s)) with (cl_ok s); rewrite O; reflexivity).
      destruct (id =? 1); [|destruct (id =? 3); [|destruct (N.eqb_spec id 4) as [->|N4]; [apply set_initial_over; auto|destruct (id =? 5)]]].
      + split; [|exact C]. eapply ms_cons; [exact M1|]. apply ms_one, m_dead; try reflexivity; [exact D1|]. dsame G1. exact HT.
      + split; [|exact C]. eapply ms_cons; [exact M1|]. apply ms_one, m_dead; try reflexivity; [exact D1|]. dsame G1.
      + split; [|exact C]. eapply ms_cons; [exact M1|]. apply ms_one, m_dead; try reflexivity; [exact D1|]. dsame G1.
      + split; [|exact C]. apply ms_one, M1. }
  clearbody s1. destruct F as [M1 C1]. specialize (IH s1 (mvs_good _ _ G M1) C1).
  destruct (capply_settings K r ord s1); apply (fine_after _ _ _ M1), IH.
Qed.
Lemma settings_fine f s es ord : good s -> clean s -> cl_ok s = true -> fr_pl f = PSettings es -> fine s (con_settings K (fr_hdr f) es ord (cnote (LIn f) s)).
Proof.
  intros G C O EF. destruct (quiet_start f s G C O) as (M & G1 & C1); [unfold quiet_in; rewrite EF; exact I|].
  unfold con_settings. apply (fine_after _ _ _ M). clear M. set (s1 := cnote (LIn f) s) in *.
  assert (A1 : calive s1 = true) by (apply clean_alive; auto). rewrite A1. cbn [negb].
  destruct (negb _); [apply goaway_fine; auto|]. destruct (has_flag _ _); [destruct es; [apply fine_refl; auto|apply goaway_fine; auto]|].
  pose proof (apply_settings_fine ord es s1 G1 C1) as H. destruct (capply_settings K es ord s1) as [s2|s2]; [exact H|].
  destruct H as [M2 C2]. apply (fine_after _ _ _ M2). pose proof (mvs_good _ _ G1 M2) as G2. clear M2. cbv zeta.
  change (cl_ctl (set_cl_ctl (cl_ctl s2 + 1) s2)) with (cl_ctl s2 + 1).
  destruct (cl_ok s2) eqn:O2.
  - assert (A2 : calive s2 = true) by (apply clean_alive; auto). destruct (N.ltb_spec C_MAX_REPLIES (cl_ctl s2 + 1)) as [L|L].
    + apply goaway_from; auto. dsame G2.
    + split; [|exact C2]. apply ms_one, (m_reply s2 csettings_ack); auto.
  - assert (D2 : calive s2 = false) by (unfold calive; rewrite O2; reflexivity). destruct (N.ltb_spec C_MAX_REPLIES (cl_ctl s2 + 1)) as [L|L].
    + rewrite cgoaway_off by exact O2. split; [|exact C2]. apply ms_one, m_dead; try reflexivity; [exact D2|dsame G2].
    + split; [|exact C2]. apply ms_one, m_ack_dead; auto.
Qed.

(** ** GOAWAY *)
Definition answerable (s : client) : Prop := forall k x, cget s k = Some x -> resp_ok k x (cl_log s).
Lemma goaway_streams_fine code order : forall s, good s -> clean s -> answerable s -> cl_rga s = true ->
  fine s (cgoaway_streams K code order s).
Proof.
  induction order as [|sid r IH]; intros s G C AN RG; [apply fine_refl, C|]. cbn [cgoaway_streams].
  destruct (cget s sid) as [x|] eqn:GX; [|auto]. cbv zeta. rewrite (cupd_some _ _ _ _ GX).
  set (y := set_cs_state CLOSED (set_cs_rstr true (set_cs_err code x))). destruct (proj1 C sid x (fun f => f) GX) as (T1 & T2 & T3 & T4).
  assert (BN : benign sid (cl_log s) x y) by (unfold benign, y; cs; repeat (split; [reflexivity|]); auto).
  assert (M1 : mv s (setst sid y s)) by (apply (m_upd s sid x y GX BN); split; [intros _; right; reflexivity|auto]). set (s1 := setst sid y s) in *.
  assert (G1 : good s1) by (eapply mvs_good; [exact G|apply ms_one, M1]).
  destruct (process_ready_steps K HK s1 sid y G1) as (M2 & A2 & E2).
  - exact (proj2 C).
  - apply (cget_setst _ _ _ _ GX).
  - exact T1.
  - apply (resp_ok_ext sid x y); try reflexivity; [auto|]. exact (AN sid x GX).
  - exact T3.
  - intros D. exact (w_told _ (proj1 G) sid x GX T1 T2 D).
  - intros _. exact RG.
  - set (s2 := process_ready K sid s1) in *. assert (M3 : mv s2 (cerase sid s2)) by (apply m_erase; intros RF; exfalso; rewrite (af_rga _ _ _ A2) in RF; change (cl_rga s1) with (cl_rga s) in RF; congruence).
    assert (AF : aft (only sid) s (cerase sid s2)) by (eapply aft_trans; [apply (aft_setst sid y)|eapply aft_trans; [exact A2|apply aft_erase]]).
    assert (GN : cget (cerase sid s2) sid = None) by (rewrite cget_cerase, N.eqb_refl; reflexivity).
    assert (M : mvs s (cerase sid s2)) by (eapply ms_cons; [exact M1|eapply ms_app; [exact M2|apply ms_one, M3]]).
    apply (fine_after _ _ _ M). apply IH.
    + exact (mvs_good _ _ G M).
    + eapply clean_gone; [apply clean_any; exact C|exact AF|exact GN].
    + intros k z GZ. destruct (N.eq_dec k sid) as [->|NE]; [congruence|]. rewrite (af_keep _ _ _ AF RG k NE) in GZ. eapply aft_resp; [exact AF|]. apply AN, GZ.
    + rewrite (af_rga _ _ _ AF). exact RG.
Qed.
Lemma goaway_frame_fine f s last code dbg ord : good s -> clean s -> cl_ok s = true -> fr_pl f = PGoaway last code dbg ->
  fine s (con_goaway K last code ord (cnote (LIn f) s)).
Proof.
  intros G C O EF. assert (A : calive s = true) by (apply clean_alive; auto). unfold con_goaway. cbv zeta.
  assert (M1 : mv s (set_cl_rga true (cnote (LIn f) s))) by (eapply m_goaway; eauto). set (s1 := set_cl_rga true (cnote (LIn f) s)) in *.
  assert (G1 : good s1) by (eapply mvs_good; [exact G|apply ms_one, M1]). assert (C1 : clean s1) by exact C.
  apply (fine_after _ _ _ (ms_one _ _ M1)).
  set (ids := ord _). destruct (goaway_streams_fine code ids s1 G1 C1) as [M2 C2]; [|reflexivity|].
  { intros k x GX. apply (a_st _ (proj2 G1 A) k x GX). apply (proj1 C k x (fun f => f) GX). }
  set (s2 := cgoaway_streams K code ids s1) in *. apply (fine_after _ _ _ M2). pose proof (mvs_good _ _ G1 M2) as G2.
  destruct (call_steps K HK (LBye code last) s2 s2 G2 (ms_one _ _ (m_bye s2 code last))) as [M3 A3]. set (s3 := call K (LBye code last) s2) in *.
  assert (C3 : clean s3). { eapply (aft_clean nobody (cnote (LBye code last) s2)); [exact C2|exact A3]. }
  assert (OFF : fine s2 (set_cl_ok false s3)).
  { split; [eapply ms_app; [exact M3|apply ms_one, m_notok]|]. eapply clean_dead_same; [exact C3|reflexivity|reflexivity]. }
  destruct (negb _); [exact OFF|]. destruct (call_closed _ _); [exact OFF|]. split; assumption.
Qed.

(** ** DATA *)
Lemma cond_wu_fine s : good s -> calive s = true -> mvs s (ccond_wu s) /\ aft nobody s (ccond_wu s) /\ cl_streams (ccond_wu s) = cl_streams s /\ calive (ccond_wu s) = true.
Proof.
  intros G A. unfold ccond_wu. destruct (_ <=? _); [|split; [constructor|split; [apply aft_refl|auto]]]. cbv zeta.
  assert (E : cl_crecv (csend_wu 0 (cl_cproc s) s) = cl_crecv s) by (destruct (csend_wu_cases 0 (cl_cproc s) s) as [->|[-> _]]; reflexivity).
  rewrite E. split; [apply ms_one, (m_credit0 s A)|].
  destruct (csend_wu_cases 0 (cl_cproc s) s) as [->|[-> _]]; (split; [|split; [reflexivity|exact A]]).
  - apply (aft_here _ _ _ []); try reflexivity. apply neutral_nil.
  - apply (aft_here _ _ _ [LOut (cwu_frame 0 (cl_cproc s))]); try reflexivity. apply neutral_single; intros k; exact I.
Qed.
Lemma cond_wu_over s : good s -> clean s -> cl_ok s = false -> fine s (ccond_wu s).
Proof.
  intros G C O. unfold ccond_wu. destruct (_ <=? _); [|apply fine_refl, C]. cbv zeta. assert (E : csend_wu 0 (cl_cproc s) s = s) by (unfold csend_wu; rewrite O; reflexivity). rewrite E.
  split; [|exact C]. apply ms_one, m_dead; try reflexivity; [unfold calive; rewrite O; reflexivity|dsame G].
Qed.
Lemma stream_wu_steps sid s x : good s -> calive s = true -> cget s sid = Some x -> cs_rsts x = false ->
  exists l, mvs s (cstream_wu sid s) /\ aft (only sid) s (cstream_wu sid s) /\ calive (cstream_wu sid s) = true /\
    cget (cstream_wu sid s) sid = Some (if 32767 <=? cs_proc x then set_cs_proc 0 (set_cs_local l x) else x).
Proof.
  intros G A GX R. unfold cstream_wu. rewrite GX. exists (cs_local x + Z.of_N (cs_proc x))%Z.
  change C_THRESHOLD with 32767. change (0 <? 32767) with true. rewrite andb_true_r.
  destruct (N.leb_spec 32767 (cs_proc x)) as [L|L]; [|split; [constructor|]; split; [apply aft_refl|]; auto].
  destruct (w_win _ (proj1 G) A sid x GX R) as [W1 W2]. cbv zeta. destruct (calive_ok _ A) as [OK ACT].
  assert (E : csend_wu sid (cs_proc x) s = cemit (cwu_frame sid (cs_proc x)) s).
  { unfold csend_wu. rewrite OK. rewrite (proj2 (N.eqb_neq (cs_proc x) 0)) by lia. rewrite (proj2 (N.ltb_ge 2147483647 (cs_proc x))) by lia. reflexivity. }
  rewrite E. assert (GE : cget (cemit (cwu_frame sid (cs_proc x)) s) sid = Some x) by exact GX. rewrite (cupd_some _ _ _ _ GE).
  split; [apply ms_one, (m_credit s sid x); auto; lia|]. split; [|split; [exact A|apply (cget_setst _ _ _ _ GE)]].
  eapply aft_trans; [|apply aft_setst]. apply (aft_here _ _ _ [LOut (cwu_frame sid (cs_proc x))]); try reflexivity. apply neutral_single; intros k; exact I.
Qed.

Lemma unknown_data_fine f s d pad : good s -> clean s -> cl_ok s = true -> fr_pl f = PData d pad -> cget s (stream_of f) = None ->
  fine s (unknown_data K (stream_of f) (clen d + pad) (cnote (LIn f) s)).
Proof.
  intros G C O EF GN. assert (A : calive s = true) by (apply clean_alive; auto). unfold unknown_data. cbv zeta.
  destruct (N.odd (stream_of f)) eqn:OD; cbn [negb].
  - destruct (goaway_in f s PROTOCOL_ERROR G C O) as [M1 C1]; [intros; rewrite EF; discriminate|].
    assert (O1 : cl_ok (cgoaway K PROTOCOL_ERROR (cnote (LIn f) s)) = false) by apply goaway_over.
    set (s1 := cgoaway K PROTOCOL_ERROR (cnote (LIn f) s)) in *. pose proof (mvs_good _ _ G M1) as G1. apply (fine_after _ _ _ M1).
    set (s2 := set_cl_cproc _ _). assert (M2 : mv s1 s2) by (apply m_dead; try reflexivity; [unfold calive; rewrite O1; reflexivity|dsame G1]).
    apply (fine_after _ _ _ (ms_one _ _ M2)). apply cond_wu_over; [eapply mvs_good; [exact G1|apply ms_one, M2]|exact C1|exact O1].
  - assert (EX : exists out, (out = [] \/ out = [LOut (crst_frame (stream_of f) STREAM_CLOSED)]) /\
        crst K (stream_of f) STREAM_CLOSED (cnote (LIn f) s) = addlog (out ++ [LIn f]) s).
    { unfold crst. change (cl_ok (cnote (LIn f) s)) with (cl_ok s). rewrite O. cbn [negb orb]. destruct (stream_of f =? 0).
      - exists []. auto.
      - cbv zeta. change (cget (cemit (mk_frame (mk_h T_RST_STREAM 0 (stream_of f)) (PRst STREAM_CLOSED)) (cnote (LIn f) s)) (stream_of f)) with (cget s (stream_of f)). rewrite GN.
        exists [LOut (crst_frame (stream_of f) STREAM_CLOSED)]. auto. }
    destruct EX as (out & HO & ->). set (s2 := set_cl_cproc _ _).
    assert (M : mv s s2) by (eapply (m_unknown s f d pad out); eauto). assert (G2 : good s2) by (eapply mvs_good; [exact G|apply ms_one, M]).
    apply (fine_after _ _ _ (ms_one _ _ M)). destruct (cond_wu_fine s2 G2 A) as (M3 & A3 & _). split; [exact M3|]. eapply (aft_clean nobody); [|exact A3]. exact C.
Qed.
Lemma closed_data_fine f s d pad x : good s -> clean s -> cl_ok s = true -> fr_pl f = PData d pad -> cget s (stream_of f) = Some x ->
  fine s (closed_data K (stream_of f) (clen d + pad) (cnote (LIn f) s)).
Proof.
  intros G C O EF GX. assert (A : calive s = true) by (apply clean_alive; auto). unfold closed_data. cbv zeta.
  destruct (w_key _ (proj1 G) _ _ GX) as [OD LE]. assert (NZ : stream_of f <> 0) by (intros E; rewrite E in OD; discriminate).
  change (cl_last (cnote (LIn f) s)) with (cl_last s). rewrite (proj2 (N.ltb_lt 0 (stream_of f))) by lia. rewrite (proj2 (N.leb_le _ _) LE). cbn [andb].
  assert (NG : forall a b c, fr_pl f <> PGoaway a b c) by (intros; rewrite EF; discriminate).
  destruct (goaway_in f s STREAM_CLOSED G C O NG) as [M1 C1].
  assert (O1 : cl_ok (cgoaway K STREAM_CLOSED (cnote (LIn f) s)) = false) by apply goaway_over.
  assert (GX1 : cget (cgoaway K STREAM_CLOSED (cnote (LIn f) s)) (stream_of f) = Some x).
  { apply (af_old _ _ _ (cgoaway_aft K HK s (cnote (LIn f) s) [LIn f] STREAM_CLOSED G A (or_intror (or_introl (ex_intro _ f (conj eq_refl NG)))) eq_refl O (dext_log _ _ _ (dext_refl _ G))) (stream_of f) x (fun f => f) GX). }
  set (s1 := cgoaway K STREAM_CLOSED (cnote (LIn f) s)) in *. pose proof (mvs_good _ _ G M1) as G1. apply (fine_after _ _ _ M1). clearbody s1. clear M1.
  set (size := clen d + pad). set (s2 := set_cl_cproc _ _). assert (GX2 : cget s2 (stream_of f) = Some x) by exact GX1. rewrite (cupd_some _ _ _ _ GX2).
  assert (GEN : forall y c z, same_flags x y -> cs_body y = cs_body x -> fine s1 (setst (stream_of f) y (set_cl_cproc c (set_cl_crecv z s1)))).
  { intros y c z SF SB. split.
    - apply ms_one, m_dead; try reflexivity; [unfold calive; rewrite O1; reflexivity|].
      constructor; try reflexivity; try apply (w_enc _ (proj1 G1)); try apply (w_dec _ (proj1 G1)); try apply (w_frag _ (proj1 G1)).
      intros k. unfold cget in *. unfold setst. cl. rewrite find_put, GX1. destruct (N.eqb_spec k (stream_of f)) as [->|NE]; [rewrite GX1; exact SF|].
      destruct (find_cs (cl_streams s1) k); [repeat split|exact I].
    - apply (clean_dead s1); [exact C1|exact O1|]. intros k z0 GZ. unfold cget, setst in *. clh GZ. rewrite find_put, GX1 in GZ.
      destruct (N.eqb_spec k (stream_of f)) as [->|NE]; [|eauto 6]. injection GZ as <-. exists x. destruct SF as (F1 & F2 & F3). auto. }
  set (y := set_cs_proc _ _). set (s3 := setst (stream_of f) y s2).
  assert (GX3 : cget s3 (stream_of f) = Some y) by (apply (cget_setst _ _ _ _ GX2)).
  assert (E4 : exists z, cstream_wu (stream_of f) s3 = setst (stream_of f) z s2 /\ same_flags x z /\ cs_body z = cs_body x).
  { unfold cstream_wu. rewrite GX3. destruct (_ && _).
    - cbv zeta. assert (E : csend_wu (stream_of f) (cs_proc y) s3 = s3) by (unfold csend_wu; change (cl_ok s3) with (cl_ok s1); rewrite O1; reflexivity). rewrite E.
      rewrite (cupd_some _ _ _ _ GX3). unfold s3. rewrite setst_setst. eexists. split; [reflexivity|]. repeat split.
    - exists y. repeat split. }
  destruct E4 as (z & -> & F1 & F2). destruct (GEN z (cl_cproc s1 + size) (cl_crecv s1 - Z.of_N size)%Z F1 F2) as [M4 C4].
  apply (fine_after _ _ _ M4). apply cond_wu_over; [eapply mvs_good; [exact G1|exact M4]|exact C4|exact O1].
Qed.

Lemma ended_now f l sid : In (LIn f) l -> message_frame sid f = true -> has_flag (h_flags (fr_hdr f)) FLAG_END_STREAM = true -> ended sid l.
Proof. intros H1 H2 H3. exists f. split; [exact H1|]. split; [exact H2|]. unfold has_end_stream. rewrite <- (testbit_flag _ 0). exact H3. Qed.
Lemma rst_but s sid code x : good s -> clean_but (only sid) s -> calive s = true -> cget s sid = Some x -> cs_rsts x = false -> cs_rstr x = false ->
  fine s (crst K sid code s).
Proof.
  intros G C A GX R RR. destruct (crst_steps K HK s [] sid code x G A GX R (or_introl eq_refl)) as (M & AF & GN); [intros D; exact (w_told _ (proj1 G) sid x GX R RR D)|].
  rewrite addlog_nil in *. split; [exact M|]. eapply clean_gone; eauto.
Qed.
(** Both window updates after DATA. *)
Lemma credit_both sid s x : good s -> clean_but (only sid) s -> calive s = true -> cget s sid = Some x -> cs_rsts x = false -> cs_rstr x = false ->
  clen (cs_body x) <= C_MAX_BODY -> (cl_hsid s = sid -> cs_cont x = true) ->
  exists l p, mvs s (ccond_wu (cstream_wu sid s)) /\ clean (ccond_wu (cstream_wu sid s)) /\ calive (ccond_wu (cstream_wu sid s)) = true /\ p < 32767 /\
    aft (only sid) s (ccond_wu (cstream_wu sid s)) /\
    cget (ccond_wu (cstream_wu sid s)) sid = Some (set_cs_proc p (set_cs_local l x)).
Proof.
  intros G C A GX R RR BM HC. destruct (stream_wu_steps sid s x G A GX R) as (l & M1 & A1 & L1 & E1).
  set (s1 := cstream_wu sid s) in *. pose proof (mvs_good _ _ G M1) as G1. destruct (cond_wu_fine s1 G1 L1) as (M2 & A2 & S2 & L2). set (s2 := ccond_wu s1) in *.
  assert (AF : aft (only sid) s s2) by (eapply aft_trans; [exact A1|apply aft_nobody, A2]).
  assert (E : exists l p, p < 32767 /\ cget s2 sid = Some (set_cs_proc p (set_cs_local l x))).
  { unfold cget in *. rewrite S2. destruct (N.leb_spec 32767 (cs_proc x)) as [L|L].
    - exists l, 0. split; [reflexivity|exact E1].
    - exists (cs_local x), (cs_proc x). split; [exact L|]. rewrite E1. destruct x; reflexivity. }
  destruct E as (l' & p & LP & E). exists l', p. split; [eapply ms_app; eauto|]. split.
  - apply (clean_only sid); [eapply aft_clean; eauto|]. intros y GY. rewrite E in GY. injection GY as <-. unfold tidy. cs. do 3 (split; [assumption|]).
    intros _. split; [exact LP|]. rewrite (af_hsid _ _ _ AF). exact HC.
  - split; [exact L2|]. split; [exact LP|]. split; [exact AF|exact E].
Qed.
Lemma ready_fine sid s x : good s -> clean s -> calive s = true -> cget s sid = Some x -> outcome sid x s (process_ready K sid s).
Proof.
  intros G C A GX. destruct (proj1 C sid x (fun f => f) GX) as (T1 & T2 & T3 & T4).
  destruct (process_ready_steps K HK s sid x G (proj2 C) GX T1) as (M & AF & E).
  - exact (a_st _ (proj2 G A) sid x GX T1).
  - exact T3.
  - intros D. exact (w_told _ (proj1 G) sid x GX T1 T2 D).
  - congruence.
  - split; [exact M|]. split; [exact AF|]. destruct E as [E|(y & E1 & E2 & E3)]; [auto|]. right. exists y. rewrite T1. auto.
Qed.

Lemma data_fine f s d pad : good s -> clean s -> cl_ok s = true -> fr_pl f = PData d pad -> fine s (con_data K (fr_hdr f) d pad (cnote (LIn f) s)).
Proof.
  intros G C O EF. assert (A : calive s = true) by (apply clean_alive; auto). unfold con_data.
  change (cl_ok (cnote (LIn f) s)) with (cl_ok s). rewrite O. cbn [negb]. cbv zeta. fold (stream_of f). set (sid := stream_of f) in *. set (size := clen d + pad).
  change (cget (cnote (LIn f) s) sid) with (cget s sid).
  destruct (cget s sid) as [x|] eqn:GX; [|apply unknown_data_fine; auto].
  destruct (_ || _ || _) eqn:ECL; [apply (closed_data_fine f s d pad x); auto|].
  destruct (_ && _); [apply (rst_in f s STREAM_CLOSED x G C O GX); rewrite EF; exact I|].
  destruct (Z.ltb_spec (cs_local x) (Z.of_N size)) as [LW|LW].
  { destruct (rst_in f s FLOW_CONTROL_ERROR x G C O GX) as [[M1 C1] G1]; [rewrite EF; exact I|]. apply (fine_after _ _ _ M1). apply goaway_fine; auto. }
  assert (GX0 : cget (cnote (LIn f) s) sid = Some x) by exact GX.
  rewrite (cupd_some _ _ _ _ GX0). set (x1 := set_cs_proc (cs_proc x + size) (set_cs_local (cs_local x - Z.of_N size)%Z x)). set (s1 := setst sid x1 (cnote (LIn f) s)).
  assert (GX1 : cget s1 sid = Some x1) by (apply (cget_setst _ _ _ _ GX0)).
  destruct (proj1 C sid x (fun f => f) GX) as (T1 & T2 & T3 & T4). specialize (T4 O). destruct T4 as [T4 T5].
  change (cl_crecv s1) with (cl_crecv s).
  destruct (Z.ltb_spec (cl_crecv s) (Z.of_N size)) as [CW|CW].
  { apply (cgoaway_clean K HK s s1 [LIn f]); auto.
    - right. left. exists f. split; [reflexivity|]. intros; rewrite EF; discriminate.
    - constructor; try reflexivity; try apply N.le_refl; try apply N.le_add_r; try apply (w_enc _ (proj1 G)); try apply (w_dec _ (proj1 G)); try apply (w_frag _ (proj1 G)).
      intros k. destruct (N.eq_dec k sid) as [->|NE]; [rewrite GX, GX1; repeat split|]. unfold s1. rewrite cget_setst_other by exact NE.
      change (cget (cnote (LIn f) s) k) with (cget s k). destruct (cget s k); [repeat split|exact I].
    - intros k z GZ. destruct (N.eq_dec k sid) as [->|NE]; [rewrite GX1 in GZ; injection GZ as <-; exact T3|]. unfold s1 in GZ. rewrite cget_setst_other in GZ by exact NE.
      apply (proj1 C k z (fun f => f) GZ).
    - intros k z GZ. destruct (proj1 C k z (fun f => f) GZ) as (U1 & U2 & _). auto. }
  change (cl_cproc s1) with (cl_cproc s).
  set (s2 := set_cl_ctl 0 _). assert (GX2 : cget s2 sid = Some x1) by exact GX1.
  set (x3 := got_data d size x).
  assert (E3 : (if no_bytes d then s2 else cupd sid (fun x0 : cstream => set_cs_body (cs_body x0 ++ d) x0) s2) = setst sid x3 s2).
  { destruct d as [|d0 d'] eqn:ED; cbn [no_bytes].
    - assert (EX : x3 = x1) by (unfold x3, got_data, x1; cs; rewrite app_nil_r; destruct x; reflexivity). rewrite EX. unfold setst. unfold cget in GX2. rewrite (put_self _ _ _ GX2). reflexivity.
    - rewrite (cupd_some _ _ _ _ GX2). reflexivity. }
  rewrite E3.
  assert (M3 : mv s (setst sid x3 s2)).
  { pose proof (m_data s f d pad x EF A GX T1 LW CW) as M. fold sid size x3 in M. replace (setst sid x3 s2) with (setst sid x3
      (set_cl_ctl 0 (set_cl_cproc (cl_cproc s + size) (set_cl_crecv (cl_crecv s - Z.of_N size)%Z (cnote (LIn f) s))))); [exact M|].
    unfold s2, s1, setst. cl. rewrite put_put. reflexivity. }
  set (s3 := setst sid x3 s2) in *. apply (fine_after _ _ _ (ms_one _ _ M3)).
  assert (G3 : good s3) by (eapply mvs_good; [exact G|apply ms_one, M3]). assert (A3 : calive s3 = true) by exact A.
  assert (GX3 : cget s3 sid = Some x3) by (apply (cget_setst _ _ _ _ GX2)).
  assert (C3 : clean_but (only sid) s3).
  { split; [|exact (proj2 C)]. intros k z NP GZ. assert (NE : k <> sid) by exact NP. unfold s3 in GZ. rewrite cget_setst_other in GZ by exact NE. change (cget s1 k = Some z) in GZ.
    unfold s1 in GZ. rewrite cget_setst_other in GZ by exact NE. exact (proj1 C k z (fun f => f) GZ). }
  assert (BL : clen (cs_body x3) = clen (cs_body x) + clen d) by (unfold x3, got_data, clen; cs; rewrite app_length; lia).
  rewrite <- BL. destruct (negb (no_bytes d) && (C_MAX_BODY <? clen (cs_body x3))) eqn:EB; [apply (rst_but s3 sid _ x3); auto|].
  match goal with |- fine _ (if ?c then _ else _) => destruct c end; [apply (rst_but s3 sid _ x3); auto|].
  assert (BM : clen (cs_body x3) <= C_MAX_BODY).
  { destruct d as [|d0 d']; [unfold x3, got_data; cs; rewrite app_nil_r; exact T3|]. cbn [no_bytes negb andb] in EB. apply N.ltb_ge in EB. exact EB. }
  assert (HC : cl_hsid s3 = sid -> cs_cont x3 = true) by exact T5.
  destruct (has_flag (h_flags (fr_hdr f)) FLAG_END_STREAM) eqn:EE.
  - rewrite (cupd_some _ _ _ _ GX3). set (x4 := set_cs_state _ (set_cs_endr true x3)). set (s4 := setst sid x4 s3).
    assert (M4 : mv s3 s4).
    { apply (m_upd s3 sid x3 x4 GX3).
      - unfold benign, x4. cs. repeat (split; [reflexivity|]). split; [auto|]. intros _. right. apply (ended_now f); [left; reflexivity| |exact EE].
        unfold message_frame. unfold sid. rewrite N.eqb_refl, EF. reflexivity.
      - split; [|unfold x4; cs; auto]. unfold st_ok, x4. cs. destruct (cs_state x3); auto; intros [[? ?]|?]; auto. }
    assert (G4 : good s4) by (eapply mvs_good; [exact G3|apply ms_one, M4]). assert (GX4 : cget s4 sid = Some x4) by (apply (cget_setst _ _ _ _ GX3)).
    apply (fine_after _ _ _ (ms_one _ _ M4)). assert (C4 : clean_but (only sid) s4) by (eapply aft_clean; [exact C3|apply aft_setst]).
    destruct (credit_both sid s4 x4 G4 C4 A3 GX4 T1 T2 BM HC) as (l & p & M5 & C5 & A5 & LP & AF5 & GX5).
    rewrite GX5. set (s5 := ccond_wu (cstream_wu sid s4)) in *. set (x5 := set_cs_proc p (set_cs_local l x4)) in *. pose proof (mvs_good _ _ G4 M5) as G5.
    apply (fine_after _ _ _ M5). destruct (negb (cs_texp x5) && length_mismatch x5); [apply (rst_but s5 sid _ x5); auto; apply clean_any, C5|].
    assert (OC : outcome sid x5 s5 (if negb (cs_texp x5) then process_ready K sid s5 else s5)).
    { destruct (negb (cs_texp x5)); [apply ready_fine; auto|]. split; [constructor|]. split; [apply aft_refl|]. right. exists x5. auto 9. }
    set (s6 := if negb (cs_texp x5) then process_ready K sid s5 else s5) in *.
    assert (T : tidy (cl_ok s5) (cl_hsid s5) sid x5) by (exact (proj1 C5 sid x5 (fun f => f) GX5)).
    destruct (cget s6 sid) as [z|] eqn:GZ.
    + pose proof (outcome_close _ _ _ _ (cs_state z) OC) as OC2. split; [apply OC2|]. eapply clean_outcome; [apply clean_any, C5|exact T|exact OC2].
    + split; [apply OC|]. eapply clean_outcome; [apply clean_any, C5|exact T|exact OC].
  - destruct (credit_both sid s3 x3 G3 C3 A3 GX3 T1 T2 BM HC) as (l & p & M5 & C5 & A5 & LP & AF5 & GX5).
    rewrite GX5. set (s5 := ccond_wu (cstream_wu sid s3)) in *. apply (fine_after _ _ _ M5).
    destruct (in_state _ _); [|apply fine_refl, C5]. destruct (ctry_close_steps sid s5) as (M6 & A6 & E6). split; [exact M6|].
    destruct E6 as [E6|E6]; [|rewrite E6; exact C5]. eapply clean_gone; [apply clean_any, C5|exact A6|exact E6].
Qed.

(** ** HEADERS and CONTINUATION *)
Lemma apply_block_fine sid expect s x : good s -> clean_but (only sid) s -> calive s = true -> cget s sid = Some x ->
  cs_rsts x = false -> cs_rstr x = false -> clen (cs_body x) <= C_MAX_BODY -> cs_proc x < 32767 ->
  exists s' go, apply_block K sid expect s = (s', go) /\
    if (go : bool) then mvs s s' /\ clean s' /\ calive s' = true /\ cl_hsid s' = 0 /\ (forall i, In i (cl_log s) -> In i (cl_log s')) /\
      exists y, cget s' sid = Some y /\ cs_main y = true
    else fine s s'.
Proof.
  intros G C A GX R RR BM PL. unfold apply_block. destruct (decode (cl_dec s) (cl_frag s)) as [d res] eqn:ED.
  destruct (H2ServerSteps.decode_total _ _ _ _ (w_dec _ (proj1 G)) (w_frag _ (proj1 G)) ED) as [DO NU]. destruct res as [code| |fs]; [|congruence|].
  - eexists _, false. split; [reflexivity|].
    assert (M1 : mv s (set_cl_dec d s)).
    { pose proof (m_hdr s (cl_frag s) (cl_hsid s) (cl_contn s) d A (w_frag_len _ (proj1 G) A) (w_frag _ (proj1 G)) DO (or_intror (or_intror (conj eq_refl (conj eq_refl eq_refl)))) (w_hsid _ (proj1 G) A)) as M.
      exact M. }
    assert (G1 : good (set_cl_dec d s)) by (eapply mvs_good; [exact G|apply ms_one, M1]).
    destruct (rst_but (set_cl_dec d s) sid COMPRESSION_ERROR x G1 C A GX R RR) as [M2 C2]. pose proof (mvs_good _ _ G1 M2) as G2.
    apply (fine_after _ _ _ (ms_one _ _ M1)). apply (clear_fine _ _ G1); [|apply goaway_over]. apply (fine_after _ _ _ M2). apply goaway_fine; auto.
  - set (s1 := cclear (set_cl_dec d s)).
    assert (M1 : mv s s1).
    { pose proof (m_hdr s [] 0 0 d A (N.le_0_l _) (Forall_nil _) DO (or_introl eq_refl) (N.le_0_l _)) as M. exact M. }
    assert (G1 : good s1) by (eapply mvs_good; [exact G|apply ms_one, M1]). assert (GX1 : cget s1 sid = Some x) by exact GX. rewrite GX1.
    assert (C1 : clean_but (only sid) s1).
    { split; [|exact (proj2 C)]. intros k z NP GZ. change (cget s k = Some z) in GZ. destruct (proj1 C k z NP GZ) as (T1 & T2 & T3 & T4). do 3 (split; [assumption|]).
      intros O. split; [apply T4, O|]. intros E0. destruct (w_key _ (proj1 G) _ _ GZ) as [OD _]. change (cl_hsid s1) with 0 in E0. subst k. discriminate OD. }
    destruct (parse_response_head x fs (cs_main x)) as [code|y] eqn:EP.
    + eexists _, false. split; [reflexivity|]. apply (fine_after _ _ _ (ms_one _ _ M1)). apply (rst_but s1 sid code x); auto.
    + assert (GX2 : cget (cnote (LBlock sid fs) s1) sid = Some x) by exact GX. cbv zeta. rewrite (cupd_some _ _ _ _ GX2). eexists _, true. split; [reflexivity|].
      set (y1 := if cs_main x then set_cs_trecv true y else _). set (y2 := match cs_state y1 with IDLE => _ | _ => _ end).
      destruct (parse_same _ _ _ _ EP) as (B1 & B2 & B3 & B4 & B5 & B6 & B7 & B8 & B9 & B10 & B11 & B12 & B13 & B14 & _).
      assert (Y1 : benign sid (LBlock sid fs :: cl_log s1) (set_cs_main true y) y1).
      { unfold y1. destruct (cs_main x) eqn:MX; [|destruct (_ && _)]; unfold benign; cs; repeat (split; [first [reflexivity|congruence]|]); auto. }
      assert (Y2 : benign sid (LBlock sid fs :: cl_log s1) (set_cs_main true y) y2 /\ cs_rstr y2 = false).
      { assert (RY : cs_rstr y1 = false) by (unfold y1; destruct (cs_main x); [|destruct (_ && _)]; cs; congruence).
        unfold y2. destruct (cs_state y1); (split; [|exact RY]); unfold benign in *; cs; exact Y1. }
      assert (Y3 : st_ok (set_cs_main true y) -> st_ok y2).
      { unfold y2, y1. destruct (cs_main x); [|destruct (_ && _)]; unfold st_ok; cs; destruct (cs_state y) eqn:?; cs; try tauto; rewrite ?Heqs0; auto. }
      clearbody y2. clear y1 Y1. destruct Y2 as [Y2 RY]. pose proof Y2 as (D1 & D2 & D3 & D4 & D5 & D6 & D7 & D8 & D9 & D10 & D11 & _). csh D3. csh D4. csh D10. csh D11.
      assert (MB : mv s1 (setst sid (set_cs_main true y) (cnote (LBlock sid fs) s1))) by (eapply m_block; eauto).
      assert (M2 : mvs s1 (setst sid y2 (cnote (LBlock sid fs) s1))).
      { eapply ms_cons; [exact MB|]. rewrite <- (setst_setst sid (set_cs_main true y) y2). apply ms_one, (m_upd _ sid (set_cs_main true y) y2); [apply (cget_setst _ _ _ _ GX2)|exact Y2|split; [exact Y3|congruence]]. }
      split; [eapply ms_cons; [exact M1|exact M2]|]. split; [|split; [exact A|split; [reflexivity|]]].
      * apply (clean_setst sid x); [exact C1|exact GX2|]. unfold tidy. rewrite D10, D4, D3, B10, B4, B3. do 3 (split; [assumption|]). intros _. split; [exact PL|].
        intros E0. destruct (w_key _ (proj1 G) _ _ GX) as [OD _]. change (cl_hsid (cnote (LBlock sid fs) s1)) with 0 in E0. rewrite <- E0 in OD. discriminate OD.
      * split; [intros i Hi; right; exact Hi|]. exists y2. split; [apply (cget_setst _ _ _ _ GX2)|exact D11].
Qed.
Lemma ready_ok sid s x : good s -> clean s -> calive s = true -> cget s sid = Some x -> fine s (process_ready K sid s).
Proof.
  intros G C A GX. pose proof (ready_fine sid s x G C A GX) as OC. split; [apply OC|]. eapply clean_outcome; [apply clean_any, C|exact (proj1 C sid x (fun f => f) GX)|exact OC].
Qed.
Lemma incoming_fine f s frag pr : good s -> clean s -> cl_ok s = true -> fr_pl f = PHeaders frag pr -> bytes_ok frag -> In (LIn f) (cl_log s) -> continuations (cl_log s) = 0 -> continuation_octets (cl_log s) = 0 ->
  cget s (stream_of f) <> None -> fine s (incoming_headers K (stream_of f) (fr_hdr f) frag s).
Proof.
  intros G C O EF HB IL CN HOE GN. assert (A : calive s = true) by (apply clean_alive; auto). unfold incoming_headers. set (sid := stream_of f) in *.
  destruct (cget s sid) as [x|] eqn:GX; [|congruence]. clear GN. cbv zeta.
  destruct (proj1 C sid x (fun f => f) GX) as (T1 & T2 & T3 & T4). specialize (T4 O). destruct T4 as [T4 T5].
  destruct (cs_endr x && _); [apply (rst_fine s sid _ x); auto|]. destruct (cs_main x && _); [apply (rst_fine s sid _ x); auto|].
  destruct (cs_cont x) eqn:CX.
  { destruct (rst_fine s sid PROTOCOL_ERROR x G C GX) as [[M1 C1] G1]. apply (fine_after _ _ _ M1). apply goaway_fine; auto. }
  change (cl_frag (set_cl_hsid sid s)) with (cl_frag s).
  assert (BO : bytes_ok (cl_frag s ++ frag)) by (apply bytes_ok_app; split; [apply (w_frag _ (proj1 G))|exact HB]).
  set (s1 := set_cl_frag (cl_frag s ++ frag) (set_cl_hsid sid s)). change (cl_frag s1) with (cl_frag s ++ frag).
  destruct (N.ltb_spec C_MAX_HEADER_BLOCK (clen (cl_frag s ++ frag))) as [L|L].
  { apply (clear_fine s _ G); [|apply goaway_over]. apply goaway_from; auto. dsame G. exact BO. }
  assert (HO : continuation_octets (cl_log s) <= clen (cl_frag s ++ frag)) by (rewrite HOE; apply N.le_0_l).
  assert (M1 : mv s s1).
  { pose proof (m_hdr s (cl_frag s ++ frag) sid (cl_contn s) (cl_dec s) A L BO (w_dec _ (proj1 G)) (or_intror (or_introl (conj CN HO))) (proj2 (w_key _ (proj1 G) _ _ GX))) as M. exact M. }
  assert (G1 : good s1) by (eapply mvs_good; [exact G|apply ms_one, M1]). assert (A1 : calive s1 = true) by exact A. assert (GX1 : cget s1 sid = Some x) by exact GX.
  assert (C1 : clean_but (only sid) s1).
  { split; [|exact (proj2 C)]. intros k z NP GZ. destruct (proj1 C k z (fun f => f) GZ) as (U1 & U2 & U3 & U4). do 3 (split; [assumption|]). intros OO. split; [apply U4, OO|].
    intros E. exfalso. apply NP. symmetry. exact E. }
  apply (fine_after _ _ _ (ms_one _ _ M1)).
  set (eh := has_flag (h_flags (fr_hdr f)) FLAG_END_HEADERS). set (es := has_flag (h_flags (fr_hdr f)) FLAG_END_STREAM).
  assert (STEP : exists s2 go, (if eh then apply_block K sid (fun _ => negb es) s1 else (cupd sid (set_cs_cont true) s1, true)) = (s2, go) /\
     if (go : bool) then mvs s1 s2 /\ clean s2 /\ calive s2 = true /\ (forall i, In i (cl_log s1) -> In i (cl_log s2)) /\
       exists y, cget s2 sid = Some y /\ (eh = true -> cs_main y = true) else fine s1 s2).
  { destruct eh.
    - destruct (apply_block_fine sid (fun _ => negb es) s1 x G1 C1 A1 GX1 T1 T2 T3 T4) as (s2 & go & E & H). exists s2, go. split; [exact E|]. destruct go; [|exact H].
      destruct H as (H1 & H2 & H3 & H4 & H5 & y & H6 & H7). do 4 (split; [assumption|]). exists y. auto.
    - rewrite (cupd_some _ _ _ _ GX1). eexists _, true. split; [reflexivity|]. split; [apply ms_one, (m_upd _ sid x); [exact GX1|unfold benign; cs; repeat (split; [reflexivity|]); auto|split; [exact (fun H => H)|cs; auto]]|].
      split; [apply (clean_setst sid x); auto; unfold tidy; cs; auto 9|]. split; [exact A1|]. split; [auto|]. exists (set_cs_cont true x). split; [apply (cget_setst _ _ _ _ GX1)|discriminate]. }
  destruct STEP as (s2 & go & -> & H). destruct go; cbn [negb]; [|exact H]. destruct H as (M2 & C2 & A2 & IL2 & y & GY & MY).
  apply (fine_after _ _ _ M2). pose proof (mvs_good _ _ G1 M2) as G2. destruct es eqn:ES; [|apply (ready_ok sid s2 y); auto].
  rewrite (cupd_some _ _ _ _ GY). set (y1 := if cs_ends _ then _ else _).
  assert (Y1 : benign sid (cl_log s2) y y1 /\ cs_rstr y1 = cs_rstr y /\ cs_cont y1 = cs_cont y).
  { assert (EN : ended sid (cl_log s2)). { apply (ended_now f); [apply IL2; exact IL| |exact ES]. unfold message_frame, sid. rewrite N.eqb_refl, EF. reflexivity. }
    assert (MM : negb (cs_main (set_cs_endr true y)) && eh = false) by (cs; destruct eh; [rewrite MY by reflexivity; reflexivity|apply andb_false_r]).
    unfold y1. rewrite MM. cs. match goal with |- context [if ?c then set_cs_trecv true _ else _] => destruct c end; cs; (destruct (cs_ends y) eqn:?; [|destruct (cs_state y)]); unfold benign; cs; repeat split; auto. }
  assert (Y4 : st_ok y -> st_ok y1).
  { assert (MM : negb (cs_main (set_cs_endr true y)) && eh = false) by (cs; destruct eh; [rewrite MY by reflexivity; reflexivity|apply andb_false_r]).
    unfold y1. rewrite MM. cs. match goal with |- context [if ?c then set_cs_trecv true _ else _] => destruct c end; cs; unfold st_ok; (destruct (cs_ends y) eqn:?; [cs; auto|destruct (cs_state y) eqn:SY; cs; rewrite ?SY; auto; intuition congruence]). }
  destruct Y1 as (Y1 & Y2 & Y3). clearbody y1. assert (M3 : mv s2 (setst sid y1 s2)) by (apply (m_upd s2 sid y y1); auto; split; [exact Y4|rewrite Y2; auto]).
  apply (fine_after _ _ _ (ms_one _ _ M3)). apply (ready_ok sid _ y1); [eapply mvs_good; [exact G2|apply ms_one, M3]| |exact A2|apply (cget_setst _ _ _ _ GY)].
  apply (clean_setst sid y); [apply clean_any, C2|exact GY|]. pose proof (proj1 C2 sid y (fun f => f) GY) as (V1 & V2 & V3 & V4). destruct Y1 as (D1 & D2 & D3 & D4 & D5 & D6 & D7 & D8 & D9 & D10 & _).
  unfold tidy. rewrite D10, Y2, D4, D3, Y3. auto.
Qed.
Lemma headers_fine f s frag pr : good s -> clean s -> cl_ok s = true -> fr_pl f = PHeaders frag pr -> bytes_ok frag -> stream_of f < 2 ^ 31 ->
  fine s (con_headers K (fr_hdr f) frag (cnote (LIn f) s)).
Proof.
  intros G C O EF HB LS. destruct (quiet_start f s G C O) as (M & G1 & C1); [unfold quiet_in; rewrite EF; exact I|].
  unfold con_headers. fold (stream_of f). apply (fine_after _ _ _ M). set (s1 := cnote (LIn f) s) in *. assert (A1 : calive s1 = true) by (apply clean_alive; auto). assert (O1 : cl_ok s1 = true) by exact O.
  destruct (cget s1 (stream_of f)) as [x|] eqn:GX.
  - apply (incoming_fine f s1 frag pr); auto; [left; reflexivity| | |congruence]; unfold s1; cl; cbn [continuations continuation_octets]; rewrite EF; reflexivity.
  - destruct (N.odd (stream_of f) && (cl_last s1 <? stream_of f)) eqn:EU; [apply goaway_fine; auto|].
    unfold crst. rewrite O1. cbn [negb orb]. destruct (stream_of f =? 0); [apply fine_refl; auto|]. cbv zeta.
    change (cget (cemit (mk_frame (mk_h T_RST_STREAM 0 (stream_of f)) (PRst STREAM_CLOSED)) s1) (stream_of f)) with (cget s1 (stream_of f)). rewrite GX.
    split; [|exact C1]. apply ms_one, m_rst_unknown; auto. intros OD. rewrite OD in EU. cbn [andb] in EU. apply N.ltb_ge in EU. exact EU.
Qed.
Lemma continuation_fine f s frag : good s -> clean s -> cl_ok s = true -> fr_pl f = PCont frag -> bytes_ok frag ->
  fine s (con_continuation K (fr_hdr f) frag (cnote (LIn f) s)).
Proof.
  intros G C O EF HB. assert (A : calive s = true) by (apply clean_alive; auto). assert (NG : forall a b c, fr_pl f <> PGoaway a b c) by (intros; rewrite EF; discriminate).
  unfold con_continuation. fold (stream_of f). set (sid := stream_of f). change (cl_hsid (cnote (LIn f) s)) with (cl_hsid s).
  destruct (_ || _) eqn:E0; [apply goaway_in; auto|]. apply orb_false_iff in E0 as [E1 E2]. apply N.eqb_neq in E1. apply negb_false_iff, N.eqb_eq in E2.
  change (cget (cnote (LIn f) s) sid) with (cget s sid). destruct (cget s sid) as [x|] eqn:GX; [|apply (clear_fine s _ G); [apply goaway_in; auto|apply goaway_over]].
  destruct (proj1 C sid x (fun f => f) GX) as (T1 & T2 & T3 & T4). specialize (T4 O). destruct T4 as [T4 T5]. rewrite (T5 E2). cbn [negb]. cbv zeta.
  change (cl_contn (cnote (LIn f) s)) with (cl_contn s). change (cl_contn (set_cl_contn (cl_contn s + 1) (cnote (LIn f) s))) with (cl_contn s + 1).
  assert (BO : bytes_ok (cl_frag s ++ frag)) by (apply bytes_ok_app; split; [apply (w_frag _ (proj1 G))|exact HB]).
  assert (DIE : forall s1, cl_log s1 = [LIn f] ++ cl_log s -> cl_ok s1 = true -> cl_streams s1 = cl_streams s -> dext s s1 -> fine s (cclear (cgoaway K ENHANCE_YOUR_CALM s1))).
  { intros s1 EL OK ES DX. apply (clear_fine s _ G); [|apply goaway_over]. apply (cgoaway_clean K HK s s1 [LIn f]); auto; [right; left; eauto| |].
    - intros k z GZ. unfold cget in GZ. rewrite ES in GZ. apply (proj1 C k z (fun f => f) GZ).
    - intros k z GZ. destruct (proj1 C k z (fun f => f) GZ) as (U1 & U2 & _). auto. }
  destruct (N.ltb_spec C_MAX_CONT (cl_contn s + 1)) as [L|L]; [apply DIE; auto; dsame G|].
  set (s1 := set_cl_frag _ _). change (cl_frag s1) with (cl_frag s ++ frag).
  destruct (N.ltb_spec C_MAX_HEADER_BLOCK (clen (cl_frag s ++ frag))) as [L2|L2]; [apply DIE; auto; dsame G; exact BO|].
  assert (M1 : mv s s1) by (eapply (m_cont s f frag); eauto). assert (G1 : good s1) by (eapply mvs_good; [exact G|apply ms_one, M1]).
  assert (C1 : clean s1) by exact C. assert (A1 : calive s1 = true) by exact A. assert (GX1 : cget s1 sid = Some x) by exact GX.
  apply (fine_after _ _ _ (ms_one _ _ M1)). destruct (has_flag _ _); [|apply (ready_ok sid s1 x); auto].
  rewrite (cupd_some _ _ _ _ GX1). set (x2 := set_cs_cont false x). set (s2 := setst sid x2 s1).
  assert (M2 : mv s1 s2) by (apply (m_upd s1 sid x x2); [exact GX1|unfold benign, x2; cs; repeat (split; [reflexivity|]); auto|split; [exact (fun H => H)|unfold x2; cs; auto]]).
  assert (G2 : good s2) by (eapply mvs_good; [exact G1|apply ms_one, M2]). assert (GX2 : cget s2 sid = Some x2) by (apply (cget_setst _ _ _ _ GX1)).
  assert (C2 : clean_but (only sid) s2) by (eapply aft_clean; [apply clean_any, C1|apply aft_setst]).
  apply (fine_after _ _ _ (ms_one _ _ M2)).
  destruct (apply_block_fine sid (fun y => negb (cs_endr y)) s2 x2 G2 C2 A1 GX2 T1 T2 T3 T4) as (s3 & go & -> & H). destruct go; cbn [negb]; [|exact H].
  destruct H as (M3 & C3 & A3 & _ & _ & y & GY & _). apply (fine_after _ _ _ M3). apply (ready_ok sid s3 y); auto. eapply mvs_good; eauto.
Qed.

Lemma frame_fine f ord s : good s -> clean s -> cl_ok s = true -> frame_octets_ok f -> fine s (con_frame K f ord (cnote (LIn f) s)).
Proof.
  intros G C O [(H0 & H1 & H2 & H3) FO]. unfold con_frame. cbv zeta. destruct (fr_pl f) eqn:EF.
  all: first [eapply data_fine; eauto; fail|eapply continuation_fine; eauto; fail|eapply settings_fine; eauto; fail|eapply rst_stream_fine; eauto; fail|eapply push_fine; eauto; fail
             |eapply goaway_frame_fine; eauto; fail|eapply window_fine; eauto; fail|eapply ping_fine; eauto; fail|eapply priority_fine; eauto; fail|idtac].
  eapply headers_fine; eauto. unfold stream_of, get_stream_id. rewrite (H2Proofs.val31 _ _ _ _ H0 H1 H2 H3). apply N.mod_lt. discriminate.
Qed.
End FRAMES.
