(** What the HTTP/2 client writes on the stream of a request, read off the chronicle. *)
From Verif Require Import Base UtilModel HpackTables HpackModel HpackSpec DynTableProofs HpackCodecProofs HpackConnProofs
  H2Model H2Proofs H2FieldModel H2ClientModel H2ClientSpec H2ClientSteps H2ClientAgree H2ClientInv H2ClientLedger.
From Verif Require H2ServerSteps H2Props.
Local Open Scope N_scope.

Lemma frames_app k l0 l : frames_sent k (l0 ++ l) = frames_sent k l ++ frames_sent k l0.
Proof.
  induction l0 as [|i l0 IH]; [rewrite app_nil_r; reflexivity|]. cbn [app frames_sent]. destruct i; try exact IH. destruct (message_frame k f); [|exact IH]. rewrite IH, <- app_assoc. reflexivity.
Qed.
Definition mute (i : citem) : Prop :=
  match i with LOut f => match fr_pl f with PData _ _ | PHeaders _ _ => False | _ => True end | LReq _ _ _ => False | _ => True end.
Lemma mute_frames k l0 : (forall i, In i l0 -> mute i) -> frames_sent k l0 = [].
Proof.
  induction l0 as [|i l0 IH]; intros H; [reflexivity|]. cbn [frames_sent]. rewrite IH by (intros j Hj; apply H; right; exact Hj). pose proof (H i (or_introl eq_refl)) as W.
  destruct i; try reflexivity. unfold message_frame. cbn [mute] in W. destruct (fr_pl f); try destruct W; rewrite andb_false_r; reflexivity.
Qed.
Lemma body_app a b : body_octets (a ++ b) = body_octets a ++ body_octets b.
Proof. apply flat_map_app. Qed.
Lemma open_sent k sid flags pmax block : sid < 2 ^ 31 -> exists f, frames_sent k (rev (map LOut (send_headers sid flags pmax block))) = (if sid =? k then [f] else []) /\
  (exists b, fr_pl f = PHeaders b None) /\ has_end_stream f = N.testbit flags 0 /\ stream_of f = sid.
Proof.
  intros LS. unfold send_headers. cbn [header_frames]. cbv zeta. set (maxf := N.max 1 pmax). set (frag := firstn _ block). set (rest := skipn _ block).
  set (last := match rest with [] => true | _ => false end). set (f := mk_frame _ (PHeaders frag None)). exists f.
  assert (SO : stream_of f = sid) by (apply stream_mk, LS).
  assert (Z : frames_sent k (rev (map LOut (if last then [] else header_frames (length block) false sid flags maxf rest))) = []).
  { destruct last; [reflexivity|]. generalize (length block) as n. clearbody rest. intros n. revert rest. clear. induction n as [|n IH]; intros rest; [reflexivity|]. cbn [header_frames]. cbv zeta. cbn [map rev].
    rewrite frames_app. cbn [frames_sent]. unfold message_frame at 1. cbn [fr_pl]. rewrite andb_false_r. destruct (match skipn _ _ with [] => true | _ => false end); [reflexivity|]. rewrite IH. reflexivity. }
  split; [|split; [eexists; reflexivity|split; [|exact SO]]].
  - cbn [map rev]. rewrite frames_app, Z, app_nil_r. cbn [frames_sent]. unfold message_frame. rewrite SO. cbn [fr_pl f]. rewrite andb_true_r. destruct (sid =? k); reflexivity.
  - unfold has_end_stream, f. cbn [fr_hdr mk_h set_stream_id h_flags]. unfold FLAG_END_HEADERS.
    destruct last; [rewrite N.lor_spec|rewrite N.ldiff_spec]; change (N.testbit 4 0) with false; [apply orb_false_r|apply andb_true_r].
Qed.

(** ** The transmission of a request *)
Definition sends (r : crequest) (x : cstream) (fs : list frame) : Prop :=
  q_body (cs_req x) = q_body r /\ body_octets fs = firstn (cs_off x) (q_body r) /\ (cs_ends x = false -> forall f, In f fs -> has_end_stream f = false).
Definition send_eq (y x : cstream) : Prop := q_body (cs_req y) = q_body (cs_req x) /\ cs_off y = cs_off x /\ cs_ends y = cs_ends x.
Lemma send_eq_refl z : send_eq z z. Proof. repeat split. Qed.
Record tx (s : client) : Prop := mk_tx {
  tx_all : forall k app r, In (LReq k app r) (cl_log s) -> transmits r (frames_sent k (cl_log s));
  tx_str : calive s = true -> forall k x, cget s k = Some x -> cs_rsts x = false -> forall app r, In (LReq k app r) (cl_log s) -> sends r x (frames_sent k (cl_log s));
  tx_new : forall k, N.odd k = true -> cl_next s <= k -> frames_sent k (cl_log s) = [];
  tx_key : forall k app r, In (LReq k app r) (cl_log s) -> k < cl_next s }.
Definition tx_inv (s : client) : Prop := cl_next s <= 2 ^ 31 -> tx s.
Ltac mutes := let i := fresh "i" in let Hi := fresh "Hi" in intros i Hi; cbn [In] in Hi; repeat (destruct Hi as [Hi|Hi]; [subst i|]); try destruct Hi;
  cbn [mute]; frs; try exact I; try tauto.
Ltac same_streamx := first [apply (streams_same (P := send_eq)); [reflexivity|apply send_eq_refl]
  |apply (streams_del (P := send_eq)); apply send_eq_refl
  |eapply (streams_put (P := send_eq)); [reflexivity|eassumption|intros ?; split; [|]|apply send_eq_refl]].

(** One more frame on the stream. *)
Lemma transmits_more r fs g : transmits r fs -> (forall f, In f fs -> has_end_stream f = false) -> (exists later, q_body r = body_octets (fs ++ [g]) ++ later) ->
  (has_end_stream g = true -> body_octets (fs ++ [g]) = q_body r) -> transmits r (fs ++ [g]).
Proof.
  intros ((f & rest & b & -> & EF) & _ & _) NE PX EN. split; [exists f, (rest ++ [g]), b; auto|]. split; [exact PX|].
  intros before h after E ES. destruct (exists_last (l := h :: after)) as (l' & a & E2); [discriminate|].
  change ((f :: rest) ++ [g] = before ++ h :: after) in E. rewrite E2, app_assoc in E. apply app_inj_tail in E as [E <-]. destruct l' as [|h' l'].
  - injection E2 as -> ->. split; [reflexivity|]. apply EN, ES.
  - injection E2 as <- E3. exfalso. assert (IH : In h (f :: rest)) by (rewrite E; apply in_or_app; right; left; reflexivity). rewrite (NE h IH) in ES. discriminate.
Qed.
Lemma mv_tx s s' : good s -> tx_inv s -> mv s s' -> tx_inv s'.
Proof.
  intros G SI H NX'. pose proof (mv_next _ _ H) as NM. assert (NX : cl_next s <= 2 ^ 31) by (eapply N.le_trans; [exact NM|exact NX']). destruct (SI NX) as [T1 T2 T3 T4].
  assert (GEN : forall l0, cl_log s' = l0 ++ cl_log s -> (forall i, In i l0 -> mute i) ->
     (calive s' = true -> calive s = true /\
       (forall k y, cget s' k = Some y -> cs_rsts y = false -> exists x, cget s k = Some x /\ cs_rsts x = false /\ send_eq y x)) -> tx s').
  { intros l0 EL HW HA.
    assert (FS : forall k, frames_sent k (cl_log s') = frames_sent k (cl_log s)) by (intros; rewrite EL, frames_app, (mute_frames _ _ HW), app_nil_r; reflexivity).
    assert (RQ : forall k a r, In (LReq k a r) (cl_log s') -> In (LReq k a r) (cl_log s)).
    { intros k a r Hr. rewrite EL in Hr. apply in_app_iff in Hr as [Hr|Hr]; [destruct (HW _ Hr)|exact Hr]. }
    constructor.
    - intros k a r Hr. rewrite FS. eapply T1; eauto.
    - intros A' k y GY R a r Hr. destruct (HA A') as (A & HS). destruct (HS k y GY R) as (x & GX & RX & (Q1 & Q2 & Q3)). destruct (T2 A k x GX RX a r (RQ _ _ _ Hr)) as (S1 & S2 & S3).
      unfold sends. rewrite FS, Q1, Q2, Q3. auto.
    - intros k O L. rewrite FS. apply T3; [exact O|lia].
    - intros k a r Hr. specialize (T4 _ _ _ (RQ _ _ _ Hr)). lia. }
  assert (KEY : forall k x, cget s k = Some x -> N.odd k = true /\ k < cl_next s /\ k < 2 ^ 31 /\ k <> 0).
  { intros k x GX. destruct (w_key _ (proj1 G) _ _ GX) as [O L]. destruct (w_next _ (proj1 G)) as (_ & L1 & _). split; [exact O|]. split; [lia|]. split; [lia|]. intros ->. discriminate O. }
  (* one more frame on the stream of [sid] *)
  assert (ONE : forall sid x y g, calive s = true -> cget s sid = Some x -> cs_rsts x = false -> cl_log s' = LOut g :: cl_log s -> cl_streams s' = put_cs (cl_streams s) sid y -> cl_next s' = cl_next s ->
     message_frame sid g = true -> cs_ends x = false ->
     (forall r, q_body (cs_req x) = q_body r -> firstn (cs_off x) (q_body r) ++ payload_octets g = firstn (cs_off y) (q_body r) /\
        q_body (cs_req y) = q_body r /\ (has_end_stream g = true -> firstn (cs_off y) (q_body r) = q_body r) /\ (cs_ends y = false -> has_end_stream g = false)) -> tx s').
  { intros sid x y g A GX RX EL ES EN MG EX STEP. destruct (KEY _ _ GX) as (KO & KL & KB & KZ).
    assert (SG : stream_of g = sid) by (unfold message_frame in MG; apply andb_true_iff in MG as [MG _]; apply N.eqb_eq, MG).
    assert (MO : forall k, k <> sid -> message_frame k g = false) by (intros k NE; unfold message_frame; rewrite SG, (proj2 (N.eqb_neq sid k)) by congruence; reflexivity).
    assert (FO : forall k, k <> sid -> frames_sent k (cl_log s') = frames_sent k (cl_log s)) by (intros k NE; rewrite EL; cbn [frames_sent]; rewrite (MO k NE); reflexivity).
    assert (FS : frames_sent sid (cl_log s') = frames_sent sid (cl_log s) ++ [g]) by (rewrite EL; cbn [frames_sent]; rewrite MG; reflexivity).
    assert (RQ : forall k a r, In (LReq k a r) (cl_log s') -> In (LReq k a r) (cl_log s)) by (intros k a r Hr; rewrite EL in Hr; destruct Hr as [Hr|Hr]; [discriminate|exact Hr]).
    assert (BO : forall a r, In (LReq sid a r) (cl_log s) -> body_octets (frames_sent sid (cl_log s) ++ [g]) = firstn (cs_off y) (q_body r)).
    { intros a r Hr. destruct (T2 A _ _ GX RX _ _ Hr) as (S1 & S2 & S3). rewrite body_app, S2. unfold body_octets. cbn [flat_map]. rewrite app_nil_r. apply STEP, S1. }
    constructor.
    - intros k a r Hr. apply RQ in Hr. destruct (N.eq_dec k sid) as [->|NE]; [|rewrite (FO k NE); eapply T1; eauto]. rewrite FS.
      destruct (T2 A _ _ GX RX _ _ Hr) as (S1 & S2 & S3). destruct (STEP r S1) as (P1 & P2 & P3 & P4). apply transmits_more; [eapply T1; eauto|exact (S3 EX)| |].
      + exists (skipn (cs_off y) (q_body r)). rewrite (BO _ _ Hr). symmetry. apply firstn_skipn.
      + intros E. rewrite (BO _ _ Hr). exact (P3 E).
    - intros _ k z GZ R a r Hr. apply RQ in Hr. unfold cget in *. rewrite ES, find_put, GX in GZ. destruct (N.eqb_spec k sid) as [EK|NE].
      + injection GZ as <-. subst k. rewrite FS. destruct (T2 A _ _ GX RX _ _ Hr) as (S1 & S2 & S3). destruct (STEP r S1) as (P1 & P2 & P3 & P4).
        split; [exact P2|]. split; [apply (BO _ _ Hr)|]. intros E f Hf. apply in_app_iff in Hf as [Hf|[<-|[]]]; [exact (S3 EX f Hf)|exact (P4 E)].
      + rewrite (FO k NE). eapply T2; eauto.
    - intros k O L. rewrite EN in L. rewrite FO by lia. apply T3; auto.
    - intros k a r Hr. rewrite EN. eapply T4, RQ, Hr. }
  clear SI NX. destruct H.
  - apply (GEN []); [reflexivity|mutes|intros A; split; [exact A|]; same_streamx].
  - apply (GEN [LRefuse app]); [reflexivity|mutes|intros A; split; [exact A|]; same_streamx].
  - apply (GEN [LBye code last]); [reflexivity|mutes|intros A; split; [exact A|]; same_streamx].
  - apply (GEN [LIn f]); [reflexivity|mutes|intros A; split; [exact A|]; same_streamx].
  - apply (GEN [LIn f]); [reflexivity|mutes|intros A; split; [exact A|]; same_streamx].
  - apply (GEN (LBye code last :: LOut (cgoaway_frame last code) :: pre)); [exact H1| |unfold calive; rewrite H2, H3; discriminate].
    destruct H0 as [->|[(f & -> & _)|(v & ->)]]; mutes.
  - apply (GEN []); [exact H0|mutes|intros A; unfold calive in A, H; rewrite H1, H2 in A; congruence].
  - apply (GEN [LSet id v]); [reflexivity|mutes|unfold calive; fields; rewrite H; discriminate].
  - apply (GEN [LOut csettings_ack]); [reflexivity|mutes|unfold calive; fields; rewrite H; discriminate].
  - apply (GEN ((if cs_disp x then [] else [LErr sid code]) ++ LOut (crst_frame sid code) :: pre)); [reflexivity| |intros A; split; [exact A|]; same_streamx; discriminate].
    destruct H2 as [->|(f & -> & _)]; destruct (cs_disp x); mutes.
  - apply (GEN [LOut (crst_frame sid code)]); [reflexivity|mutes|intros A; split; [exact A|]; same_streamx].
  - destruct H2 as (B1 & B2 & B3 & B4 & B5 & B6 & B7 & B8 & B9 & B10 & _). apply (GEN [LErr sid code]); [reflexivity|mutes|intros A; split; [exact A|]; same_streamx; [congruence|]].
    unfold send_eq. rewrite B6, B7, B8. repeat split.
  - apply (GEN [LIn f]); [reflexivity|mutes|intros A; split; [exact A|]; same_streamx; [assumption|repeat split]].
  - apply (GEN (out ++ [LIn f])); [reflexivity| |intros A; split; [exact A|]; same_streamx]. destruct H3 as [->| ->]; mutes.
  - destruct (csend_wu_cases 0 (cl_cproc s) s) as [EW|(EW & ? & ?)]; rewrite EW in *; [apply (GEN [])|apply (GEN [LOut (cwu_frame 0 (cl_cproc s))])]; (reflexivity || mutes || (intros A; split; [exact A|]; same_streamx)).
  - apply (GEN [LOut (cwu_frame sid (cs_proc x))]); [reflexivity|mutes|intros A; split; [exact A|]; same_streamx; [assumption|repeat split]].
  - apply (GEN [LIn f]); [reflexivity|mutes|intros A; split; [exact A|]; same_streamx].
  - apply (GEN [LIn f]); [reflexivity|mutes|intros A; split; [exact A|]; same_streamx; [assumption|repeat split]].
  - destruct H0 as (B1 & B2 & B3 & B4 & B5 & B6 & B7 & B8 & B9 & B10 & _). apply (GEN []); [reflexivity|mutes|intros A; split; [exact A|]; same_streamx; [congruence|]].
    unfold send_eq. rewrite B6, B7, B8. repeat split.
  - eapply (GEN [_]); [reflexivity|mutes|intros A; split; [exact A|]; same_streamx; [assumption|repeat split]].
  - apply (GEN []); [reflexivity|mutes|intros A; split; [exact A|]; same_streamx].
  - apply (GEN []); [reflexivity|mutes|intros A; split; [exact A|]; same_streamx].
  - (* open *) destruct (w_next _ (proj1 G)) as (NO & _ & _). assert (LB : cl_next s < 2 ^ 31) by (clh NX'; unfold addlog in NX'; clh NX'; lia).
    pose proof (fun k => open_sent k (cl_next s) (open_flags r) (cl_pmax s) block LB) as OS. set (hs := rev (map LOut (send_headers (cl_next s) (open_flags r) (cl_pmax s) block))) in *.
    assert (FA : forall k l, frames_sent k ((hs ++ [LReq (cl_next s) app r]) ++ l) = frames_sent k l ++ frames_sent k hs) by (intros; rewrite <- app_assoc, frames_app; reflexivity).
    assert (FO : forall k l, k <> cl_next s -> frames_sent k ((hs ++ [LReq (cl_next s) app r]) ++ l) = frames_sent k l).
    { intros k l NE. rewrite FA. destruct (OS k) as (f & -> & _). rewrite (proj2 (N.eqb_neq (cl_next s) k)) by congruence. apply app_nil_r. }
    assert (RQ : forall k a r0, In (LReq k a r0) ((hs ++ [LReq (cl_next s) app r]) ++ cl_log s) -> (k = cl_next s /\ r0 = r) \/ (k <> cl_next s /\ In (LReq k a r0) (cl_log s))).
    { intros k a r0 Hr. rewrite <- app_assoc in Hr. apply in_app_iff in Hr as [Hr|[Hr|Hr]]; [apply open_plain in Hr; destruct Hr|injection Hr as <- _ <-; auto|right; split; [|exact Hr]; intros ->; specialize (T4 _ _ _ Hr); lia]. }
    destruct (OS (cl_next s)) as (f & EF & (b & EB) & EE & ESF). rewrite N.eqb_refl in EF.
    assert (FN : frames_sent (cl_next s) ((hs ++ [LReq (cl_next s) app r]) ++ cl_log s) = [f]) by (rewrite FA, EF, (T3 _ NO (N.le_refl _)); reflexivity).
    assert (BN : body_octets [f] = []) by (unfold body_octets, payload_octets; cbn [flat_map]; rewrite EB; reflexivity).
    assert (OP : q_body (cs_req (opened r app s)) = q_body r /\ cs_off (opened r app s) = 0%nat /\ (cs_ends (opened r app s) = false -> N.testbit (open_flags r) 0 = false) /\ (N.testbit (open_flags r) 0 = true -> q_body r = [])).
    { unfold opened, open_flags. cbv zeta. destruct (q_body r) as [|b0 bs] eqn:QB; cbn [no_bytes negb]; destruct (q_wtrail r); cbn [andb orb]; cs; repeat split; first [reflexivity|assumption|discriminate|intros _; first [reflexivity|assumption]]. }
    destruct OP as (O1 & O2 & O3 & O4). constructor; fields.
    + intros k a r0 Hr. destruct (RQ _ _ _ Hr) as [(-> & ->)|(NE & Hr0)]; [|rewrite (FO _ _ NE); eapply T1; eauto]. rewrite FN.
      split; [exists f, [], b; auto|]. split; [exists (q_body r); rewrite BN; reflexivity|]. intros before g after E ES. destruct before as [|? before]; cbn [Datatypes.app] in E; [|exfalso; apply (f_equal (@length _)) in E; cbn [length] in E; rewrite app_length in E; cbn [length] in E; lia]. injection E as -> <-. split; [reflexivity|].
      rewrite BN. symmetry. apply O4. rewrite <- EE. exact ES.
    + intros A k z GZ R a r0 Hr. unfold cget in *. clh GZ. rewrite find_cons in GZ. destruct (RQ _ _ _ Hr) as [(-> & ->)|(NE & Hr0)].
      * rewrite N.eqb_refl in GZ. injection GZ as <-. rewrite FN. split; [exact O1|]. split; [rewrite BN, O2; reflexivity|]. intros E g [<-|[]]. rewrite EE. exact (O3 E).
      * rewrite (proj2 (N.eqb_neq k (cl_next s)) NE) in GZ. rewrite (FO _ _ NE). eapply T2; eauto.
    + intros k O L. rewrite FO by lia. apply T3; [exact O|lia].
    + intros k a r0 Hr. destruct (RQ _ _ _ Hr) as [(-> & _)|(_ & Hr0)]; [lia|specialize (T4 _ _ _ Hr0); lia].
  - (* chunk *) destruct (KEY _ _ H0) as (KO & KL & KB & KZ). assert (NEN : cs_ends x = false).
    { destruct (cs_ends x) eqn:E; [|reflexivity]. destruct (w_off _ (proj1 G) H _ _ H0) as [_ W2]. specialize (W2 E). lia. }
    apply (ONE sid x (sent_chunk n fin x) (cdata_frame sid (q_body (cs_req x)) (cs_off x) n fin)); auto; try reflexivity.
    { unfold message_frame. unfold cdata_frame. rewrite stream_mk by exact KB. rewrite N.eqb_refl. reflexivity. }
    assert (HE : has_end_stream (cdata_frame sid (q_body (cs_req x)) (cs_off x) n fin) = fin) by (destruct fin; reflexivity).
    intros r Q. rewrite HE. assert (P1 : cs_off (sent_chunk n fin x) = (cs_off x + n)%nat) by (unfold sent_chunk; destruct fin; reflexivity). rewrite P1.
    assert (FF : forall a m (l : list N), firstn (a + m) l = firstn a l ++ firstn m (skipn a l)).
    { clear. induction a as [|a IH]; intros m l; [reflexivity|]. destruct l; [rewrite skipn_nil, !firstn_nil; reflexivity|]. cbn [Nat.add firstn skipn app]. rewrite IH. reflexivity. }
    split; [rewrite FF, Q; reflexivity|]. split; [unfold sent_chunk; destruct fin; exact Q|]. split; [|unfold sent_chunk; destruct fin; cs; [discriminate|reflexivity]].
    intros E. rewrite (H7 E), Q. apply firstn_all.
  - (* trailers *) destruct (KEY _ _ H0) as (KO & KL & KB & KZ). apply (ONE sid x (set_cs_ends true x) (ctrailer_frame sid block)); auto; try reflexivity.
    { unfold message_frame, ctrailer_frame. rewrite stream_mk by exact KB. rewrite N.eqb_refl. reflexivity. }
    intros r Q. cs. rewrite H3, Q. split; [apply app_nil_r|]. split; [reflexivity|]. split; [intros _; apply firstn_all|discriminate].
  - setc. apply (GEN [LSet id v]); [fields; rewrite EL; reflexivity|mutes|intros A; split; [exact H|]]. apply (streams_same (P := send_eq)); [exact EST|apply send_eq_refl].
  - apply (GEN [LSet 4 v]); [reflexivity|mutes|intros A; split; [exact H|]]. intros k z GZ R. unfold cget in *. clh GZ. rewrite find_shift in GZ. destruct (find_cs (cl_streams s) k) as [x|] eqn:E; [|discriminate].
    cbn [option_map] in GZ. injection GZ as <-. exists x. split; [reflexivity|]. unfold cshift in *. cbn [fst snd] in *. destruct (N.odd k); cbn [snd] in *; csh R; (split; [exact R|repeat split]).
  - apply (GEN [LOut f]); [reflexivity| |intros A; split; [exact A|]; same_streamx]. intros i [<-|[]]. cbn [mute]. destruct H1 as [->|(o & ->)]; exact I.
  - apply (GEN []); [reflexivity|mutes|intros A; split; [exact A|]; same_streamx].
  - apply (GEN [LIn f]); [reflexivity|mutes|intros A; split; [exact A|]; same_streamx].
  - destruct (parse_same _ _ _ _ H2) as (B1 & B2 & B3 & B4 & B5 & B6 & B7 & B8 & B9 & B10 & _). apply (GEN [LBlock sid fs]); [reflexivity|mutes|intros A; split; [exact A|]; same_streamx; [assumption|]].
    unfold send_eq. cs. rewrite B6, B7, B8. repeat split.
  - apply (GEN []); [reflexivity|mutes|discriminate].
  - apply (GEN []); [reflexivity|mutes|intros A; split; [exact A|]; same_streamx].
Qed.
