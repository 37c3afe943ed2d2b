(** Sizes of the header frames the HTTP/2 client writes, and silence on the streams it has reset. *)
From Verif Require Import Base UtilModel HpackTables HpackModel HpackSpec DynTableProofs HpackCodecProofs HpackConnProofs
  H2Model H2Proofs H2FieldModel H2ClientModel H2ClientSpec H2ClientSteps H2ClientAgree H2ClientInv H2ClientLedger H2ClientSend.
From Verif Require H2ServerSteps H2Props.
Local Open Scope N_scope.

(** ** The settings in force *)
Definition noset (i : citem) : Prop := match i with LSet _ _ => False | _ => True end.
Lemma noset_setting id d l0 l : (forall i, In i l0 -> noset i) -> setting id d (l0 ++ l) = setting id d l.
Proof.
  induction l0 as [|i l0 IH]; intros H; [reflexivity|]. cbn [app setting]. rewrite IH by (intros j Hj; apply H; right; exact Hj). pose proof (H i (or_introl eq_refl)) as W.
  destruct i; try reflexivity. destruct W.
Qed.
Lemma plain_noset i : plain i -> noset i.
Proof. unfold plain, noset. destruct i; tauto. Qed.
Definition limit_inv (s : client) : Prop := calive s = true -> cl_pmcs s = setting 3 4294967295 (cl_log s) /\ 1 <= setting 5 16384 (cl_log s).
Lemma mv_limit s s' : limit_inv s -> mv s s' -> limit_inv s'.
Proof.
  intros LI H.
  assert (GEN : forall l0, cl_log s' = l0 ++ cl_log s -> (forall i, In i l0 -> noset i) -> (calive s' = true -> calive s = true /\ cl_pmcs s' = cl_pmcs s) -> limit_inv s').
  { intros l0 EL HN HA A'. destruct (HA A') as [A E]. rewrite EL, !noset_setting, E by exact HN. exact (LI A). }
  assert (PL : forall l1 l2, (forall i, In i l1 -> plain i) -> (forall i, In i l2 -> noset i) -> forall i, In i (l1 ++ l2) -> noset i).
  { intros l1 l2 P1 P2 i Hi. apply in_app_iff in Hi as [Hi|Hi]; [apply plain_noset, P1, Hi|apply P2, Hi]. }
  Ltac ns := let i := fresh "i" in let Hi := fresh "Hi" in intros i Hi; cbn [In Datatypes.app] in Hi; repeat (destruct Hi as [Hi|Hi]; [subst i|]); try destruct Hi; exact I.
  destruct H.
  all: try solve [first [apply (GEN []); [reflexivity|ns|intros A; split; [exact A|reflexivity]]
                        |eapply (GEN [_]); [reflexivity|ns|intros A; split; [exact A|reflexivity]]]].
  - intros A'. exfalso. unfold calive in A'. rewrite H2, H3 in A'. discriminate.
  - intros A'. exfalso. unfold calive in *. rewrite H1, H2 in A'. congruence.
  - intros A'. exfalso. unfold calive in A'. fields. clh A'. rewrite H in A'. discriminate.
  - apply (GEN ((if cs_disp x then [] else [LErr sid code]) ++ LOut (crst_frame sid code) :: pre)); [reflexivity| |intros A; split; [exact A|reflexivity]].
    destruct H2 as [->|(f & -> & _)]; destruct (cs_disp x); ns.
  - apply (GEN (out ++ [LIn f])); [reflexivity| |intros A; split; [exact A|reflexivity]]. destruct H3 as [->| ->]; ns.
  - destruct (csend_wu_cases 0 (cl_cproc s) s) as [EW|(EW & ? & ?)]; rewrite EW in *; [apply (GEN [])|eapply (GEN [_])]; (reflexivity || ns || (intros A; split; [exact A|reflexivity])).
  - apply (GEN (rev (map LOut (send_headers (cl_next s) (open_flags r) (cl_pmax s) block)) ++ [LReq (cl_next s) app r])); [reflexivity| |intros A; split; [exact A|reflexivity]].
    apply PL; [plains|ns].
  - specialize (LI H). intros _. destruct LI as [L1 L2]. assert (V5 : id = 5 -> 16384 <= v).
    { intros ->. unfold validate_setting in H0. cbn [N.eqb Pos.eqb] in H0. destruct (_ || _) eqn:E in H0; [discriminate|]. apply orb_false_iff in E as [E _]. apply N.ltb_ge in E. exact E. }
    assert (EP : cl_pmcs s' = if id =? 3 then v else cl_pmcs s).
    { rewrite H2. destruct (N.eqb_spec id 1) as [->|]; [destruct (enc_set_peer_max _ _); reflexivity|]. destruct (N.eqb_spec id 3); [reflexivity|]. destruct (id =? 5); reflexivity. }
    assert (EL : cl_log s' = cl_log s) by (apply (set_same _ _ _ _ H2)).
    fields. rewrite EL. cbn [setting]. rewrite EP. destruct (N.eqb_spec id 3) as [->|]; [split; [reflexivity|exact L2]|]. split; [exact L1|]. destruct (N.eqb_spec id 5) as [E|]; [|exact L2]. specialize (V5 E). lia.
  - intros _. specialize (LI H). fields. cbn [setting]. exact LI.
  - intros A'. discriminate.
Qed.

(** ** Header frames *)
Definition bland (i : citem) : Prop := match i with LOut f => match fr_pl f with PHeaders _ _ | PCont _ => False | _ => True end | _ => True end.
Lemma always_bland l0 l : (forall i, In i l0 -> bland i) -> always head_frame_fits l -> always head_frame_fits (l0 ++ l).
Proof.
  intros H A. induction l0 as [|i l0 IH]; [exact A|]. cbn [app]. apply always_cons; [apply IH; intros j Hj; apply H; right; exact Hj|]. pose proof (H i (or_introl eq_refl)) as W.
  unfold head_frame_fits. destruct i; try exact I. cbn [bland] in W. destruct (fr_pl f); tauto.
Qed.
Definition fit_inv (s : client) : Prop := cl_next s <= 2 ^ 31 -> always head_frame_fits (cl_log s).
Lemma mv_fit s s' : good s -> send_inv s -> tx_inv s -> told_inv s -> limit_inv s -> fit_inv s -> mv s s' -> fit_inv s'.
Proof.
  intros G SI TI (_ & TA & _) LI FI H NX'. pose proof (mv_next _ _ H) as NM. assert (NX : cl_next s <= 2 ^ 31) by (eapply N.le_trans; [exact NM|exact NX']).
  specialize (FI NX). destruct (SI NX) as [_ SC]. specialize (TI NX).
  assert (GEN : forall l0, cl_log s' = l0 ++ cl_log s -> (forall i, In i l0 -> bland i) -> always head_frame_fits (cl_log s')).
  { intros l0 EL HB. rewrite EL. apply always_bland; assumption. }
  Ltac bl := let i := fresh "i" in let Hi := fresh "Hi" in intros i Hi; cbn [In Datatypes.app] in Hi; repeat (destruct Hi as [Hi|Hi]; [subst i|]); try destruct Hi; cbn [bland]; frs; exact I.
  destruct H.
  all: try solve [first [apply (GEN []); [reflexivity|bl]|eapply (GEN [_]); [reflexivity|bl]]].
  - apply (GEN (LBye code last :: LOut (cgoaway_frame last code) :: pre)); [exact H1|]. destruct H0 as [->|[(f & -> & _)|(v & ->)]]; bl.
  - rewrite H0. exact FI.
  - apply (GEN ((if cs_disp x then [] else [LErr sid code]) ++ LOut (crst_frame sid code) :: pre)); [reflexivity|]. destruct H2 as [->|(f & -> & _)]; destruct (cs_disp x); bl.
  - apply (GEN (out ++ [LIn f])); [reflexivity|]. destruct H3 as [->| ->]; bl.
  - destruct (csend_wu_cases 0 (cl_cproc s) s) as [EW|(EW & ? & ?)]; rewrite EW in *; [apply (GEN [])|eapply (GEN [_])]; (reflexivity || bl).
  - fields. rewrite <- app_assoc. cbn [Datatypes.app]. apply (always_plain2 head_frame_fits (fun r => setting 5 16384 r = setting 5 16384 (cl_log s))).
    + intros i q Hi Q. assert (PI : noset i) by (apply plain_noset; eapply open_plain; exact Hi). split; [change (i :: q) with ([i] ++ q); rewrite noset_setting, Q; [reflexivity|intros j [<-|[]]; exact PI]|].
      destruct (open_item _ _ _ _ _ Hi) as (f & -> & _ & HB). assert (MX : N.max 1 (cl_pmax s) <= setting 5 16384 q). { rewrite Q. pose proof (sd_5 _ (SC H)). destruct (LI H). lia. }
      unfold head_frame_fits. destruct HB as [(b & -> & B)|(b & -> & B)]; unfold clen in B; [intros _|]; eapply N.le_trans; eassumption.
    + reflexivity.
    + apply always_cons; [exact FI|exact I].
  - fields. apply always_cons; [exact FI|]. unfold head_frame_fits. cbn [ctrailer_frame fr_pl]. intros E. exfalso. destruct (TA _ _ H0) as (a & q & IR). pose proof (tx_all _ TI _ _ _ IR) as ((f & rest & b & E2 & _) & _).
    destruct (w_key _ (proj1 G) _ _ H0) as [O L]. destruct (w_next _ (proj1 G)) as (_ & L1 & _). change (frames_sent (stream_of (ctrailer_frame sid block)) (cl_log s) = []) in E. unfold ctrailer_frame in E. rewrite stream_mk in E by lia. rewrite E in E2. discriminate.
  - setc. eapply (GEN [_]); [fields; rewrite EL; reflexivity|bl].
  - eapply (GEN [_]); [reflexivity|]. intros i [<-|[]]. cbn [bland]. destruct H1 as [->|(o & ->)]; exact I.
Qed.

(** ** Silence after RST_STREAM *)
Definition noreset (i : citem) : Prop := match i with LOut f => match fr_pl f with PRst _ | PData _ _ | PHeaders _ _ => False | _ => True end | _ => True end.
Lemma reset_app k l0 l : reset_sent k (l0 ++ l) -> reset_sent k l0 \/ reset_sent k l.
Proof. intros (f & Hf & S & C). apply in_app_iff in Hf as [Hf|Hf]; [left|right]; exists f; auto. Qed.
Lemma noreset_reset k l0 l : (forall i, In i l0 -> match i with LOut f => forall c, fr_pl f <> PRst c | _ => True end) -> reset_sent k (l0 ++ l) -> reset_sent k l.
Proof. intros H R. apply reset_app in R as [(f & Hf & _ & c & C)|R]; [|exact R]. destruct (H _ Hf c C). Qed.
Lemma always_silent l0 l : (forall i, In i l0 -> match i with LOut f => match fr_pl f with PData _ _ | PHeaders _ _ => False | _ => True end | _ => True end) -> always silent_after_reset l -> always silent_after_reset (l0 ++ l).
Proof.
  intros H A. induction l0 as [|i l0 IH]; [exact A|]. cbn [app]. apply always_cons; [apply IH; intros j Hj; apply H; right; exact Hj|]. pose proof (H i (or_introl eq_refl)) as W.
  unfold silent_after_reset. destruct i; try exact I. intros sid M. exfalso. unfold message_frame in M. apply andb_true_iff in M as [_ M]. destruct (fr_pl f); try discriminate; exact W.
Qed.
Definition hush (s : client) : Prop :=
  (forall k x, cget s k = Some x -> cs_rsts x = false -> ~ reset_sent k (cl_log s)) /\ (forall k, N.odd k = true -> cl_next s <= k -> ~ reset_sent k (cl_log s)).
Definition hush_inv (s : client) : Prop := cl_next s <= 2 ^ 31 -> always silent_after_reset (cl_log s) /\ (calive s = true -> hush s).
Definition any_eq (y x : cstream) : Prop := True.
Lemma odd_mk t fl sid p : N.odd (stream_of (mk_frame (mk_h t fl sid) p)) = N.odd sid.
Proof.
  unfold stream_of, get_stream_id, mk_h. cbn [fr_hdr set_stream_id h_s0 h_s1 h_s2 h_s3]. rewrite <- !N.bit0_odd, !N.lor_spec, !N.shiftl_spec_low by reflexivity. cbn [orb].
  unfold octet. rewrite ?N.shiftr_0_r. rewrite ?N.land_spec. change (N.testbit 255 0) with true. apply andb_true_r.
Qed.
Lemma mv_hush s s' : good s -> hush_inv s -> mv s s' -> hush_inv s'.
Proof.
  intros G SI H NX'. pose proof (mv_next _ _ H) as NM. assert (NX : cl_next s <= 2 ^ 31) by (eapply N.le_trans; [exact NM|exact NX']). destruct (SI NX) as [AL HU].
  assert (KEY : forall k x, cget s k = Some x -> N.odd k = true /\ k < cl_next s /\ k < 2 ^ 31).
  { intros k x GX. destruct (w_key _ (proj1 G) _ _ GX) as [O L]. destruct (w_next _ (proj1 G)) as (_ & L1 & _). split; [exact O|]. split; lia. }
  assert (GEN : forall l0, cl_log s' = l0 ++ cl_log s -> (forall i, In i l0 -> noreset i) ->
     (calive s' = true -> calive s = true /\ (forall k y, cget s' k = Some y -> cs_rsts y = false -> exists x, cget s k = Some x /\ cs_rsts x = false /\ any_eq y x)) ->
     always silent_after_reset (cl_log s') /\ (calive s' = true -> hush s')).
  { intros l0 EL HN HA. split.
    - rewrite EL. apply always_silent; [|exact AL]. intros i Hi. specialize (HN i Hi). unfold noreset in HN. destruct i; try exact I. destruct (fr_pl f); tauto.
    - intros A'. destruct (HA A') as [A HS]. destruct (HU A) as [U1 U2].
      assert (RS : forall k, reset_sent k (cl_log s') -> reset_sent k (cl_log s)).
      { intros k. rewrite EL. apply noreset_reset. intros i Hi. specialize (HN i Hi). unfold noreset in HN. destruct i; try exact I. intros c E. rewrite E in HN. exact HN. }
      split; [intros k y GY R HR; destruct (HS _ _ GY R) as (x & GX & RX & _); exact (U1 _ _ GX RX (RS _ HR))|].
      intros k O L HR. apply (U2 k O); [lia|exact (RS _ HR)]. }
  (* resets of [sid] only *)
  assert (RST : forall l0 sid, calive s = true -> cl_log s' = l0 ++ cl_log s ->
     (forall i, In i l0 -> match i with LOut f => match fr_pl f with PData _ _ | PHeaders _ _ => False | PRst _ => stream_of f = sid \/ N.odd (stream_of f) = false | _ => True end | _ => True end) ->
     (N.odd sid = true -> sid < cl_next s) ->
     (forall k y, cget s' k = Some y -> cs_rsts y = false -> k <> sid /\ exists x, cget s k = Some x /\ cs_rsts x = false) ->
     always silent_after_reset (cl_log s') /\ (calive s' = true -> hush s')).
  { intros l0 sid A EL HN LS HS. split.
    - rewrite EL. apply always_silent; [|exact AL]. intros i Hi. specialize (HN i Hi). destruct i; try exact I. destruct (fr_pl f); tauto.
    - intros _. destruct (HU A) as [U1 U2].
      assert (RS : forall k, k <> sid -> N.odd k = true -> reset_sent k (cl_log s') -> reset_sent k (cl_log s)).
      { intros k NE O. rewrite EL. intros R. apply reset_app in R as [(f & Hf & ES & c & C)|R]; [|exact R]. specialize (HN _ Hf). cbn beta iota in HN. rewrite C in HN. destruct HN as [HN|HN]; congruence. }
      split.
      + intros k y GY R HR. destruct (HS _ _ GY R) as (NE & x & GX & RX). destruct (KEY _ _ GX) as (O & _). exact (U1 _ _ GX RX (RS _ NE O HR)).
      + intros k O L HR. apply (U2 k O); [lia|]. apply RS; auto. intros ->. specialize (LS O). lia. }
  Ltac nr := let i := fresh "i" in let Hi := fresh "Hi" in intros i Hi; cbn [In Datatypes.app] in Hi; repeat (destruct Hi as [Hi|Hi]; [subst i|]); try destruct Hi; cbn [noreset]; frs; exact I.
  Ltac same_any := first [apply (streams_same (P := any_eq)); [reflexivity|intros; exact I]
    |apply (streams_del (P := any_eq)); intros; exact I
    |eapply (streams_put (P := any_eq)); [reflexivity|eassumption|intros ?; split; [|exact I]|intros; exact I]].
  clear SI NX. destruct H.
  all: try solve [first [apply (GEN []); [reflexivity|nr|intros A; split; [exact A|]; same_any; assumption]
                        |eapply (GEN [_]); [reflexivity|nr|intros A; split; [exact A|]; same_any; assumption]]].
  - apply (GEN (LBye code last :: LOut (cgoaway_frame last code) :: pre)); [exact H1| |unfold calive; rewrite H2, H3; discriminate].
    destruct H0 as [->|[(f & -> & _)|(v & ->)]]; nr.
  - apply (GEN []); [exact H0|nr|intros A; unfold calive in A, H; rewrite H1, H2 in A; congruence].
  - destruct (KEY _ _ H0) as (KO & KL & KB). apply (RST ((if cs_disp x then [] else [LErr sid code]) ++ LOut (crst_frame sid code) :: pre) sid); [exact H|reflexivity| |intros _; exact KL|].
    + intros i Hi. apply in_app_iff in Hi as [Hi|[<-|Hi]].
      * destruct (cs_disp x); [destruct Hi|]. destruct Hi as [<-|[]]. exact I.
      * cbn [crst_frame fr_pl]. left. apply stream_mk, KB.
      * destruct H2 as [->|(f & -> & _)]; [destruct Hi|]. destruct Hi as [<-|[]]. exact I.
    + intros k z GZ R. unfold cget in *. clh GZ. unfold setst, addlog in GZ. clh GZ. rewrite find_put, H0 in GZ. destruct (N.eqb_spec k sid) as [->|NE]; [injection GZ as <-; discriminate R|]. split; [exact NE|]. exists z. auto.
  - destruct (w_next _ (proj1 G)) as (_ & L1 & _). apply (RST [LOut (crst_frame sid code)] sid); [exact H|reflexivity| |intros O; specialize (H1 O); lia|].
    + intros i [<-|[]]. cbn [crst_frame fr_pl]. left. apply stream_mk, H2.
    + intros k z GZ R. change (cget s k = Some z) in GZ. split; [congruence|]. exists z. auto.
  - destruct H2 as (B1 & B2 & B3 & B4 & B5 & B6 & B7 & B8 & B9 & B10 & _). apply (GEN [LErr sid code]); [reflexivity|nr|intros A; split; [exact A|]; same_any; congruence].
  - apply (RST (out ++ [LIn f]) 0); [exact H0|reflexivity| |discriminate|].
    + intros i Hi. apply in_app_iff in Hi as [Hi|[<-|[]]]; [|exact I]. destruct H3 as [->| ->]; [destruct Hi|]. destruct Hi as [<-|[]]. cbn [crst_frame fr_pl]. right. unfold crst_frame. rewrite odd_mk. exact H2.
    + intros k z GZ R. change (cget s k = Some z) in GZ. destruct (KEY _ _ GZ) as (O & _). split; [intros ->; discriminate O|]. exists z. auto.
  - destruct (csend_wu_cases 0 (cl_cproc s) s) as [EW|(EW & ? & ?)]; rewrite EW in *; [apply (GEN [])|eapply (GEN [_])]; (reflexivity || nr || (intros A; split; [exact A|]; same_any)).
  - destruct H0 as (B1 & B2 & B3 & B4 & B5 & B6 & B7 & B8 & B9 & B10 & _). apply (GEN []); [reflexivity|nr|intros A; split; [exact A|]; same_any; congruence].
  - (* open *) destruct (w_next _ (proj1 G)) as (NO & _ & _). destruct (HU H) as [U1 U2]. assert (LB : cl_next s < 2 ^ 31) by (clh NX'; unfold addlog in NX'; clh NX'; lia).
    assert (RQ : forall l k, reset_sent k (rev (map LOut (send_headers (cl_next s) (open_flags r) (cl_pmax s) block)) ++ l) -> reset_sent k l).
    { intros l k. apply noreset_reset. intros i Hi. pose proof (open_plain _ _ _ _ _ Hi) as PI. unfold plain in PI. destruct i; try exact I. intros c E. rewrite E in PI. exact PI. }
    assert (R1 : forall k, reset_sent k (LReq (cl_next s) app r :: cl_log s) -> reset_sent k (cl_log s)) by (intros k (f & [E|Hf] & Q); [discriminate|exists f; auto]).
    fields. rewrite <- app_assoc. cbn [Datatypes.app]. split.
    + apply (always_plain2 silent_after_reset (fun q => forall k, stream_of (mk_frame (mk_h 0 0 (cl_next s)) (PCont [])) = k -> ~ reset_sent k q)).
      * intros i q Hi Q. destruct (open_item _ _ _ _ _ Hi) as (f & -> & ES & HB). split.
        -- intros k EK (g & [E|Hg] & ESG & c & C); [injection E as <-; destruct HB as [(b & B & _)|(b & B & _)]; rewrite B in C; discriminate|]. apply (Q k EK). exists g. eauto.
        -- intros k M. unfold message_frame in M. apply andb_true_iff in M as [M _]. apply N.eqb_eq in M. apply Q. congruence.
      * intros k <- R. rewrite stream_mk in R by exact LB. apply R1 in R. exact (U2 _ NO (N.le_refl _) R).
      * apply always_cons; [exact AL|exact I].
    + intros A. unfold hush. fields. rewrite <- ?app_assoc. cbn [Datatypes.app]. split.
      * intros k z GZ R HR. apply RQ, R1 in HR. unfold cget in *. clh GZ. rewrite find_cons in GZ. destruct (N.eqb_spec k (cl_next s)) as [->|NE]; [exact (U2 _ NO (N.le_refl _) HR)|exact (U1 _ _ GZ R HR)].
      * intros k O L HR. apply RQ, R1 in HR. apply (U2 k O); [lia|exact HR].
  - (* chunk *) destruct (KEY _ _ H0) as (KO & KL & KB). destruct (HU H) as [U1 U2]. fields.
    assert (R1 : forall k, reset_sent k (LOut (cdata_frame sid (q_body (cs_req x)) (cs_off x) n fin) :: cl_log s) -> reset_sent k (cl_log s)) by (intros k (f & [E|Hf] & Q); [injection E as <-; destruct Q as (_ & c & C); discriminate C|exists f; auto]).
    split; [apply always_cons; [exact AL|]|].
    + intros k M. unfold message_frame in M. apply andb_true_iff in M as [M _]. apply N.eqb_eq in M. unfold cdata_frame in M. rewrite stream_mk in M by exact KB. subst k. eapply U1; eauto.
    + intros A. unfold hush. fields. split.
      * intros k z GZ R HR. apply R1 in HR. unfold cget in *. clh GZ. rewrite find_put, H0 in GZ. destruct (N.eqb_spec k sid) as [->|NE]; [exact (U1 _ _ H0 H1 HR)|exact (U1 _ _ GZ R HR)].
      * intros k O L HR. apply (U2 k O L), R1, HR.
  - (* trailers *) destruct (KEY _ _ H0) as (KO & KL & KB). destruct (HU H) as [U1 U2]. fields.
    assert (R1 : forall k, reset_sent k (LOut (ctrailer_frame sid block) :: cl_log s) -> reset_sent k (cl_log s)) by (intros k (f & [E|Hf] & Q); [injection E as <-; destruct Q as (_ & c & C); discriminate C|exists f; auto]).
    split; [apply always_cons; [exact AL|]|].
    + intros k M. unfold message_frame in M. apply andb_true_iff in M as [M _]. apply N.eqb_eq in M. unfold ctrailer_frame in M. rewrite stream_mk in M by exact KB. subst k. eapply U1; eauto.
    + intros A. unfold hush. fields. split.
      * intros k z GZ R HR. apply R1 in HR. unfold cget in *. clh GZ. rewrite find_put, H0 in GZ. destruct (N.eqb_spec k sid) as [->|NE]; [exact (U1 _ _ H0 H1 HR)|exact (U1 _ _ GZ R HR)].
      * intros k O L HR. apply (U2 k O L), R1, HR.
  - setc. apply (GEN [LSet id v]); [fields; rewrite EL; reflexivity|nr|intros A; split; [exact H|]]. apply (streams_same (P := any_eq)); [exact EST|intros; exact I].
  - apply (GEN [LSet 4 v]); [reflexivity|nr|intros A; split; [exact H|]]. intros k z GZ R. unfold cget in *. clh GZ. rewrite find_shift in GZ. destruct (find_cs (cl_streams s) k) as [x|] eqn:E; [|discriminate].
    cbn [option_map] in GZ. injection GZ as <-. exists x. split; [reflexivity|]. unfold cshift in *. cbn [fst snd] in *. destruct (N.odd k); cbn [snd] in *; csh R; (split; [exact R|exact I]).
  - apply (GEN [LOut f]); [reflexivity| |intros A; split; [exact A|]; same_any]. intros i [<-|[]]. cbn [noreset]. destruct H1 as [->|(o & ->)]; exact I.
  - apply (GEN []); [reflexivity|nr|discriminate].
Qed.
