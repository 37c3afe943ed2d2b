(** Ledgers of the HTTP/2 client: windows and bodies, read off the chronicle. *)
From Verif Require Import Base UtilModel HpackTables HpackModel HpackSpec DynTableProofs HpackCodecProofs HpackConnProofs
  H2Model H2Proofs H2FieldModel H2ClientModel H2ClientSpec H2ClientSteps H2ClientAgree H2ClientInv.
From Verif Require H2ServerSteps H2Props.
Local Open Scope N_scope.

Lemma stream_mk t fl sid p : sid < 2 ^ 31 -> stream_of (mk_frame (mk_h t fl sid) p) = sid.
Proof. intros H. unfold stream_of. cbn [fr_hdr]. apply H2Props.mk_h_sid, H. Qed.
Lemma stream_mk0 t fl p : stream_of (mk_frame (mk_h t fl 0) p) = 0.
Proof. reflexivity. Qed.

(** The next stream identifier never decreases. *)
Lemma mv_next s s' : mv s s' -> cl_next s <= cl_next s'.
Proof. intros H. norm H; rewrite ?ENX; try apply N.le_refl; try apply N.le_add_r; match goal with D : dext _ _ |- _ => rewrite (dx_next _ _ D); apply N.le_refl end. Qed.

(** ** Sending *)
Definition weightless (i : citem) : Prop :=
  match i with
  | LOut f => match fr_pl f with PData _ _ => False | _ => True end
  | LIn f => match fr_pl f with PWindow _ => False | _ => True end
  | LSet id _ => id <> 4 /\ id <> 5
  | _ => True
  end.
Lemma weightless_out f : (match fr_pl f with PData _ _ => False | _ => True end) -> flow_size f = 0.
Proof. unfold flow_size. destruct (fr_pl f); tauto. Qed.
Lemma weightless_in f : (match fr_pl f with PWindow _ => False | _ => True end) -> credit f = 0.
Proof. unfold credit. destruct (fr_pl f); tauto. Qed.
Lemma on_zero k g f : g f = 0 -> on_stream k g f = 0.
Proof. unfold on_stream. intros ->. destruct (_ =? _); reflexivity. Qed.
Record same_weight (l l' : list citem) : Prop := mk_sw {
  sw_sent : data_sent l' = data_sent l; sw_sent_on : forall k, data_sent_on k l' = data_sent_on k l;
  sw_credit : forall k, credit_received_on k l' = credit_received_on k l;
  sw_4 : setting 4 65535 l' = setting 4 65535 l; sw_5 : setting 5 16384 l' = setting 5 16384 l;
  sw_always : always respects_send_windows l -> always respects_send_windows l' }.
Lemma weightless_same l0 l : (forall i, In i l0 -> weightless i) -> same_weight l (l0 ++ l).
Proof.
  induction l0 as [|i l0 IH]; intros H; [constructor; auto|]. cbn [app]. destruct IH as [A1 A2 A3 A4 A5 A6]; [intros j Hj; apply H; right; exact Hj|].
  pose proof (H i (or_introl eq_refl)) as W. unfold data_sent, data_sent_on, credit_received_on in *. constructor; unfold data_sent, data_sent_on, credit_received_on.
  - cbn [total]. rewrite A1. destruct i; cbn [weigh_out]; try reflexivity. rewrite (weightless_out _ W). reflexivity.
  - intros k. cbn [total]. rewrite A2. destruct i; cbn [weigh_out]; try reflexivity. rewrite (on_zero _ _ _ (weightless_out _ W)). reflexivity.
  - intros k. cbn [total]. rewrite A3. destruct i; cbn [weigh_in]; try reflexivity. rewrite (on_zero _ _ _ (weightless_in _ W)). reflexivity.
  - destruct i; cbn [setting]; try exact A4. destruct W as [W1 W2]. rewrite (proj2 (N.eqb_neq _ _) W1). exact A4.
  - destruct i; cbn [setting]; try exact A5. destruct W as [W1 W2]. rewrite (proj2 (N.eqb_neq _ _) W2). exact A5.
  - intros AL. apply always_cons; [exact (A6 AL)|]. unfold respects_send_windows. destruct i; try exact I. cbn [weightless] in W. destruct (fr_pl f); tauto.
Qed.

Record send_core (s : client) : Prop := mk_send {
  sd_conn : (cl_csend s + Z.of_N (data_sent (cl_log s)) = 65535 + Z.of_N (credit_received_on 0 (cl_log s)))%Z;
  sd_str : forall k x, cget s k = Some x -> cs_rsts x = false ->
    (cs_peer x + Z.of_N (data_sent_on k (cl_log s)) = Z.of_N (cl_ipeer s) + Z.of_N (credit_received_on k (cl_log s)))%Z;
  sd_new : forall k, cl_next s <= k -> N.odd k = true -> data_sent_on k (cl_log s) = 0 /\ credit_received_on k (cl_log s) = 0;
  sd_4 : cl_ipeer s = setting 4 65535 (cl_log s);
  sd_5 : cl_pmax s <= setting 5 16384 (cl_log s) }.
Definition send_inv (s : client) : Prop :=
  cl_next s <= 2 ^ 31 -> always respects_send_windows (cl_log s) /\ (calive s = true -> send_core s).

Lemma send_same s s' l0 : send_core s -> cl_log s' = l0 ++ cl_log s -> (forall i, In i l0 -> weightless i) ->
  cl_csend s' = cl_csend s -> cl_ipeer s' = cl_ipeer s -> cl_pmax s' = cl_pmax s -> cl_next s <= cl_next s' ->
  (forall k y, cget s' k = Some y -> cs_rsts y = false -> exists x, cget s k = Some x /\ cs_rsts x = false /\ cs_peer y = cs_peer x) -> send_core s'.
Proof.
  intros [] EL HW E1 E2 E3 E4 HS. destruct (weightless_same l0 (cl_log s) HW) as [A1 A2 A3 A4 A5 _]. rewrite <- EL in *.
  constructor; rewrite ?A1, ?A3, ?A4, ?A5, ?E1, ?E2, ?E3; auto.
  - intros k y G R. rewrite A2, A3. destruct (HS k y G R) as (x & GX & RX & ->). auto.
  - intros k L O. rewrite A2, A3. apply sd_new0; [lia|exact O].
Qed.
Definition nodata (i : citem) : Prop := match i with LOut f => match fr_pl f with PData _ _ => False | _ => True end | _ => True end.
Lemma always_nodata l0 l : (forall i, In i l0 -> nodata i) -> always respects_send_windows l -> always respects_send_windows (l0 ++ l).
Proof.
  induction l0 as [|i l0 IH]; intros H A; [exact A|]. cbn [app]. apply always_cons; [apply IH; [intros j Hj; apply H; right; exact Hj|exact A]|].
  pose proof (H i (or_introl eq_refl)) as W. unfold respects_send_windows. destruct i; try exact I. cbn [nodata] in W. destruct (fr_pl f); tauto.
Qed.
Lemma streams_put {P : cstream -> cstream -> Prop} s s' sid x y : cl_streams s' = put_cs (cl_streams s) sid y -> cget s sid = Some x ->
  (cs_rsts y = false -> cs_rsts x = false /\ P y x) -> (forall z, P z z) ->
  forall k z, cget s' k = Some z -> cs_rsts z = false -> exists x, cget s k = Some x /\ cs_rsts x = false /\ P z x.
Proof.
  intros E G HY HP k z GZ R. unfold cget in *. rewrite E, find_put, G in GZ. destruct (N.eqb_spec k sid) as [->|NE].
  - injection GZ as <-. destruct (HY R) as [R1 R2]. exists x. auto.
  - exists z. auto.
Qed.
Lemma streams_same {P : cstream -> cstream -> Prop} s s' : cl_streams s' = cl_streams s -> (forall z, P z z) ->
  forall k z, cget s' k = Some z -> cs_rsts z = false -> exists x, cget s k = Some x /\ cs_rsts x = false /\ P z x.
Proof. intros E HP k z GZ R. unfold cget in *. rewrite E in GZ. exists z. auto. Qed.
Lemma streams_del {P : cstream -> cstream -> Prop} s sid : (forall z, P z z) ->
  forall k z, cget (cerase sid s) k = Some z -> cs_rsts z = false -> exists x, cget s k = Some x /\ cs_rsts x = false /\ P z x.
Proof. intros HP k z GZ R. unfold cget, cerase in *. clh GZ. rewrite find_del in GZ. destruct (k =? sid); [discriminate|]. exists z. auto. Qed.
Lemma total_cons g i l : total g (i :: l) = g i + total g l. Proof. reflexivity. Qed.
Ltac wless := let i := fresh "i" in let Hi := fresh "Hi" in intros i Hi; cbn [In] in Hi; repeat (destruct Hi as [Hi|Hi]; [subst i|]); try destruct Hi;
  cbn [weightless nodata]; frs; try exact I; try tauto.
Definition peer_eq (y x : cstream) : Prop := cs_peer y = cs_peer x.
Lemma peer_refl z : peer_eq z z. Proof. reflexivity. Qed.
Ltac same_streams := first [apply (streams_same (P := peer_eq)); [reflexivity|apply peer_refl]
  |apply (streams_del (P := peer_eq)); apply peer_refl
  |eapply (streams_put (P := peer_eq)); [reflexivity|eassumption|intros ?; split; [|]|apply peer_refl]].

Lemma mv_send s s' : good s -> send_inv s -> mv s s' -> send_inv s'.
Proof.
  intros G SI H NX'. pose proof (mv_next _ _ H) as NM. assert (NX : cl_next s <= 2 ^ 31) by (eapply N.le_trans; [exact NM|exact NX']). destruct (SI NX) as [AL SC].
  assert (GEN : forall l0, cl_log s' = l0 ++ cl_log s -> (forall i, In i l0 -> weightless i) ->
     (calive s' = true -> calive s = true /\ cl_csend s' = cl_csend s /\ cl_ipeer s' = cl_ipeer s /\ cl_pmax s' = cl_pmax s /\
       (forall k y, cget s' k = Some y -> cs_rsts y = false -> exists x, cget s k = Some x /\ cs_rsts x = false /\ peer_eq y x)) ->
     always respects_send_windows (cl_log s') /\ (calive s' = true -> send_core s')).
  { intros l0 EL HW HA. split; [rewrite EL; apply (sw_always _ _ (weightless_same l0 _ HW) AL)|]. intros A'. destruct (HA A') as (A & E1 & E2 & E3 & HS).
    eapply send_same; eauto. }
  assert (DEAD : forall l0, cl_log s' = l0 ++ cl_log s -> (forall i, In i l0 -> nodata i) -> calive s' = false ->
     always respects_send_windows (cl_log s') /\ (calive s' = true -> send_core s')).
  { intros l0 EL HW HA. split; [rewrite EL; apply always_nodata; assumption|]. congruence. }
  assert (KEY : forall k x, cget s k = Some x -> N.odd k = true /\ k < cl_next s /\ k < 2 ^ 31 /\ k <> 0).
  { intros k x GX. destruct (w_key _ (proj1 G) _ _ GX) as [O L]. destruct (w_next _ (proj1 G)) as (_ & L1 & _). split; [exact O|]. split; [lia|]. split; [lia|]. intros ->. discriminate O. }
  clear SI NX. destruct H.
  - apply (GEN []); [reflexivity|wless|intros A; split; [exact A|repeat split]; same_streams].
  - apply (GEN [LRefuse app]); [reflexivity|wless|intros A; split; [exact A|repeat split]; same_streams].
  - apply (GEN [LBye code last]); [reflexivity|wless|intros A; split; [exact A|repeat split]; same_streams].
  - (* in *) destruct (fr_pl f) eqn:EF; unfold quiet_in in H0; rewrite EF in H0;
      try solve [destruct H0]; try solve [apply (GEN [LIn f]); [reflexivity|wless|intros A; split; [exact A|repeat split]; same_streams]].
    destruct H0 as (S0 & GN & OD). split; [apply (always_nodata [LIn f]); [wless|exact AL]|]. intros A. specialize (SC H). destruct SC as [sd_conn0 sd_str0 sd_new0 S4 S5].
    constructor; fields; unfold data_sent, data_sent_on, credit_received_on in *; try assumption.
    + rewrite !total_cons. cbn [weigh_in weigh_out]. unfold on_stream at 1. rewrite (proj2 (N.eqb_neq _ _) S0). exact sd_conn0.
    + intros k x GX R. change (cget s k = Some x) in GX. rewrite !total_cons. cbn [weigh_in weigh_out]. unfold on_stream at 2.
      rewrite (proj2 (N.eqb_neq (stream_of f) k)) by congruence. apply sd_str0; auto.
    + intros k L O. rewrite !total_cons. cbn [weigh_in weigh_out]. unfold on_stream at 2. destruct (w_next _ (proj1 G)) as (_ & L1 & _). clh L.
      rewrite (proj2 (N.eqb_neq (stream_of f) k)) by (intros E; rewrite E in OD; specialize (OD O); lia). apply sd_new0; auto.
  - apply (GEN [LIn f]); [reflexivity|wless|intros A; split; [exact A|repeat split]; same_streams].
  - apply (DEAD (LBye code last :: LOut (cgoaway_frame last code) :: pre)); [exact H1| |unfold calive; rewrite H2, H3; reflexivity].
    destruct H0 as [->|[(f & -> & _)|(v & ->)]]; wless.
  - apply (DEAD []); [exact H0|wless|unfold calive in *; rewrite H1, H2; exact H].
  - apply (DEAD [LSet id v]); [reflexivity|wless|unfold calive; fields; rewrite H; reflexivity].
  - apply (DEAD [LOut csettings_ack]); [reflexivity|wless|unfold calive; fields; rewrite H; reflexivity].
  - (* mark *) destruct (KEY _ _ H0) as (KO & KL & KB & KZ). destruct H2 as [->|(f & -> & ES & EK)].
    + apply (GEN ((if cs_disp x then [] else [LErr sid code]) ++ [LOut (crst_frame sid code)])); [reflexivity|destruct (cs_disp x); wless|]. intros A; split; [exact A|repeat split]. same_streams; discriminate.
    + split; [apply (always_nodata ((if cs_disp x then [] else [LErr sid code]) ++ LOut (crst_frame sid code) :: [LIn f])); [destruct (cs_disp x); wless|exact AL]|]. intros A. specialize (SC H). destruct SC as [sd_conn0 sd_str0 sd_new0 S4 S5].
      assert (T : forall g l, total (weigh_in g) (((if cs_disp x then [] else [LErr sid code]) ++ [LOut (crst_frame sid code); LIn f]) ++ l) = g f + total (weigh_in g) l) by (intros; destruct (cs_disp x); reflexivity).
      assert (T2 : forall g l, total (weigh_out g) (((if cs_disp x then [] else [LErr sid code]) ++ [LOut (crst_frame sid code); LIn f]) ++ l) = g (crst_frame sid code) + total (weigh_out g) l) by (intros; destruct (cs_disp x); reflexivity).
      assert (T3 : forall id d l, setting id d (((if cs_disp x then [] else [LErr sid code]) ++ [LOut (crst_frame sid code); LIn f]) ++ l) = setting id d l) by (intros; destruct (cs_disp x); reflexivity).
      constructor; fields; unfold data_sent, data_sent_on, credit_received_on in *; rewrite ?T, ?T2, ?T3; try assumption.
      * unfold on_stream at 1. rewrite ES, (proj2 (N.eqb_neq sid 0) KZ). exact sd_conn0.
      * intros k z GZ R. rewrite T, T2. unfold cget in *. clh GZ. rewrite find_put, H0 in GZ. destruct (N.eqb_spec k sid) as [EK0|NE]; [injection GZ as <-; discriminate R|].
        unfold on_stream at 3. rewrite ES, (proj2 (N.eqb_neq sid k)) by congruence. rewrite (on_zero k flow_size (crst_frame sid code) eq_refl). apply (sd_str0 k z); auto.
      * intros k L O. clh L. rewrite T, T2. rewrite (on_zero k flow_size (crst_frame sid code) eq_refl). unfold on_stream at 2. rewrite ES, (proj2 (N.eqb_neq sid k)) by lia. apply sd_new0; auto.
  - apply (GEN [LOut (crst_frame sid code)]); [reflexivity|wless|intros A; split; [exact A|repeat split]; same_streams].
  - destruct H2 as (B1 & B2 & B3 & B4 & B5 & B6 & B7 & B8 & B9 & B10 & _).
    apply (GEN [LErr sid code]); [reflexivity|wless|intros A; split; [exact A|repeat split]; same_streams; [congruence|exact B2]].
  - apply (GEN [LIn f]); [reflexivity|wless|intros A; split; [exact A|repeat split]; same_streams; [assumption|reflexivity]].
  - destruct H3 as [->| ->]; [apply (GEN [LIn f])|apply (GEN [LOut (crst_frame (stream_of f) STREAM_CLOSED); LIn f])]; (reflexivity || wless || (intros A; split; [exact A|repeat split]; same_streams)).
  - destruct (csend_wu_cases 0 (cl_cproc s) s) as [EW|(EW & ? & ?)]; rewrite EW in *; [apply (GEN [])|apply (GEN [LOut (cwu_frame 0 (cl_cproc s))])]; (reflexivity || wless || (intros A; split; [exact A|repeat split]; same_streams)).
  - apply (GEN [LOut (cwu_frame sid (cs_proc x))]); [reflexivity|wless|intros A; split; [exact A|repeat split]; same_streams; [assumption|reflexivity]].
  - (* wu0 *) assert (CF : credit f = inc) by (unfold credit; rewrite H; reflexivity). split; [apply (always_nodata [LIn f]); [wless|exact AL]|]. intros A. specialize (SC H0). destruct SC as [sd_conn0 sd_str0 sd_new0 S4 S5].
    constructor; fields; unfold data_sent, data_sent_on, credit_received_on in *; try assumption.
    + rewrite !total_cons. cbn [weigh_in weigh_out]. unfold on_stream at 1. rewrite H1. change (0 =? 0) with true. cbv iota. rewrite CF. clear - sd_conn0. lia.
    + intros k x GX R. change (cget s k = Some x) in GX. destruct (KEY _ _ GX) as (_ & _ & _ & KZ). rewrite !total_cons. cbn [weigh_in weigh_out]. unfold on_stream at 2.
      rewrite H1, (proj2 (N.eqb_neq 0 k)) by congruence. apply sd_str0; auto.
    + intros k L O. rewrite !total_cons. cbn [weigh_in weigh_out]. unfold on_stream at 2. rewrite H1, (proj2 (N.eqb_neq 0 k)) by (intros <-; discriminate O). apply sd_new0; auto.
  - (* wu *) assert (CF : credit f = inc) by (unfold credit; rewrite H; reflexivity). destruct (KEY _ _ H2) as (KO & KL & KB & KZ). split; [apply (always_nodata [LIn f]); [wless|exact AL]|]. intros A. specialize (SC H0). destruct SC as [sd_conn0 sd_str0 sd_new0 S4 S5].
    constructor; fields; unfold data_sent, data_sent_on, credit_received_on in *; try assumption.
    + rewrite !total_cons. cbn [weigh_in weigh_out]. unfold on_stream at 1. rewrite (proj2 (N.eqb_neq _ _) H1). exact sd_conn0.
    + intros k z GZ R. rewrite !total_cons. cbn [weigh_in weigh_out]. unfold cget in *. clh GZ. rewrite find_put, H2 in GZ. unfold on_stream at 2. destruct (N.eqb_spec k (stream_of f)) as [EK0|NE].
      * injection GZ as <-. csh R. subst k. rewrite N.eqb_refl. cs. rewrite CF. specialize (sd_str0 _ _ H2 R). clear - sd_str0. lia.
      * rewrite (proj2 (N.eqb_neq (stream_of f) k)) by congruence. apply (sd_str0 k z); auto.
    + intros k L O. clh L. rewrite !total_cons. cbn [weigh_in weigh_out]. unfold on_stream at 2. rewrite (proj2 (N.eqb_neq (stream_of f) k)) by lia. apply sd_new0; auto.
  - destruct H0 as (B1 & B2 & B3 & B4 & B5 & B6 & B7 & B8 & B9 & B10 & _).
    apply (GEN []); [reflexivity|wless|intros A; split; [exact A|repeat split]; same_streams; [congruence|exact B2]].
  - eapply (GEN [_]); [reflexivity|wless|intros A; split; [exact A|repeat split]; same_streams; [assumption|reflexivity]].
  - apply (GEN []); [reflexivity|wless|intros A; split; [exact A|repeat split]; same_streams].
  - apply (GEN []); [reflexivity|wless|intros A; split; [exact A|repeat split]; same_streams].
  - (* open *) set (l0 := rev _ ++ _) in *.
    assert (WL : forall i, In i l0 -> weightless i).
    { intros i Hi. unfold l0 in Hi. apply in_app_iff in Hi as [Hi|[<-|[]]]; [|exact I]. apply open_plain in Hi. unfold plain in Hi. unfold weightless. destruct i; try tauto. destruct (fr_pl f); tauto. }
    split; [exact (sw_always _ _ (weightless_same l0 _ WL) AL)|]. intros A. specialize (SC H). destruct SC as [sd_conn0 sd_str0 sd_new0 S4 S5].
    destruct (weightless_same l0 (cl_log s) WL) as [A1 A2 A3 A4 A5 _]. constructor; fields; rewrite ?A1, ?A3, ?A4, ?A5; try assumption.
    + intros k z GZ R. unfold cget in *. clh GZ. rewrite find_cons in GZ. rewrite A2, A3. destruct (N.eqb_spec k (cl_next s)) as [EK0|NE]; [|apply (sd_str0 k z); auto].
      injection GZ as <-. subst k. destruct (sd_new0 (cl_next s) (N.le_refl _) (proj1 (w_next _ (proj1 G)))) as [-> ->].
      unfold opened. cbv zeta. destruct (negb (no_bytes (q_body r)) || q_wtrail r); cs; reflexivity.
    + intros k L O. clh L. rewrite A2, A3. apply sd_new0; [lia|exact O].
  - (* chunk *) destruct (KEY _ _ H0) as (KO & KL & KB & KZ). specialize (SC H). destruct SC as [sd_conn0 sd_str0 sd_new0 S4 S5].
    assert (LN : length (firstn n (skipn (cs_off x) (q_body (cs_req x)))) = n) by (rewrite firstn_length, skipn_length; lia).
    assert (FS : flow_size (cdata_frame sid (q_body (cs_req x)) (cs_off x) n fin) = N.of_nat n) by (unfold flow_size, cdata_frame; cbn [fr_pl]; rewrite LN; apply N.add_0_r).
    assert (SO : stream_of (cdata_frame sid (q_body (cs_req x)) (cs_off x) n fin) = sid) by (apply stream_mk, KB).
    pose proof (sd_str0 _ _ H0 H1) as SS. split.
    + apply (always_cons _ _ _ AL). unfold respects_send_windows. change (fr_pl (cdata_frame sid (q_body (cs_req x)) (cs_off x) n fin)) with (PData (firstn n (skipn (cs_off x) (q_body (cs_req x)))) 0).
      cbv iota. rewrite SO, FS. unfold data_sent, data_sent_on, credit_received_on in *. rewrite !total_cons. cbn [weigh_out]. unfold on_stream at 2. rewrite SO, N.eqb_refl, FS, <- S4.
      split; [lia|split; lia].
    + intros _. constructor; fields; unfold data_sent, data_sent_on, credit_received_on in *; try assumption.
      * rewrite !total_cons. cbn [weigh_in weigh_out]. rewrite FS. lia.
      * intros k z GZ R. rewrite !total_cons. cbn [weigh_in weigh_out]. unfold on_stream at 1. rewrite SO. unfold cget in *. clh GZ. rewrite find_put, H0 in GZ. destruct (N.eqb_spec k sid) as [EK0|NE].
        { injection GZ as <-. subst k. rewrite N.eqb_refl, FS. assert (PE : cs_peer (sent_chunk n fin x) = (cs_peer x - Z.of_nat n)%Z) by (unfold sent_chunk; destruct fin; reflexivity). rewrite PE. lia. }
        { rewrite (proj2 (N.eqb_neq sid k)) by congruence. apply (sd_str0 k z); auto. }
      * intros k L O. clh L. rewrite !total_cons. cbn [weigh_in weigh_out]. unfold on_stream at 1. rewrite SO, (proj2 (N.eqb_neq sid k)) by lia. apply sd_new0; auto.
  - apply (GEN [LOut (ctrailer_frame sid block)]); [reflexivity|wless|intros A; split; [exact A|repeat split]; same_streams; [assumption|reflexivity]].
  - (* set *) setc. split; [fields; rewrite EL; apply (always_nodata [LSet id v]); [wless|exact AL]|]. intros A. specialize (SC H). destruct SC as [sd_conn0 sd_str0 sd_new0 S4 S5].
    constructor; fields; rewrite ?EL, ?ECS, ?EIP, ?ENX, ?EMX; unfold data_sent, data_sent_on, credit_received_on in *; try assumption.
    + intros k z GZ. unfold cget in GZ. clh GZ. rewrite EST in GZ. apply (sd_str0 k z GZ).
    + cbn [setting]. rewrite (proj2 (N.eqb_neq id 4)) by assumption. exact S4.
    + cbn [setting]. destruct (N.eqb_spec id 5) as [->|N5]; [|exact S5]. unfold validate_setting in H0. cbn [N.eqb] in H0.
      change (5 =? 2) with false in H0. change (5 =? 4) with false in H0. change (5 =? 5) with true in H0. cbv iota in H0. destruct ((v <? MIN_MAX_FRAME_SIZE) || (MAX_FRAME_SIZE_LIMIT <? v)) eqn:E; [discriminate|].
      apply orb_false_iff in E as [E1 E2]. apply N.ltb_ge in E1, E2. unfold clamp_peer_max_frame_size, DEFAULT_MAX_FRAME_SIZE. unfold MIN_MAX_FRAME_SIZE in E1. lia.
  - (* set4 *) split; [apply (always_nodata [LSet 4 v]); [wless|exact AL]|]. intros A. specialize (SC H). destruct SC as [sd_conn0 sd_str0 sd_new0 S4 S5].
    constructor; fields; unfold data_sent, data_sent_on, credit_received_on in *; try assumption.
    + intros k z GZ R. rewrite !total_cons. cbn [weigh_in weigh_out]. unfold cget in GZ. clh GZ. rewrite find_shift in GZ. destruct (find_cs (cl_streams s) k) as [x|] eqn:E; [|discriminate].
      cbn [option_map] in GZ. injection GZ as <-. destruct (KEY _ _ E) as (KO & _). unfold cshift in *. cbn [fst snd] in *. rewrite KO in *. cbn [snd] in *. csh R. cs. specialize (sd_str0 k x E R). lia.
    + reflexivity.
  - apply (GEN [LOut f]); [reflexivity| |intros A; split; [exact A|repeat split]; same_streams]. intros i [<-|[]]. cbn [weightless]. destruct H1 as [->|(o & ->)]; exact I.
  - apply (GEN []); [reflexivity|wless|intros A; split; [exact A|repeat split]; same_streams].
  - apply (GEN [LIn f]); [reflexivity|wless|intros A; split; [exact A|repeat split]; same_streams].
  - destruct (parse_same _ _ _ _ H2) as (B1 & B2 & B3 & B4 & B5 & B6 & B7 & B8 & B9 & B10 & _).
    apply (GEN [LBlock sid fs]); [reflexivity|wless|intros A; split; [exact A|repeat split]; same_streams; [assumption|exact B2]].
  - apply (DEAD []); [reflexivity|wless|reflexivity].
  - apply (GEN []); [reflexivity|wless|intros A; split; [exact A|repeat split]; same_streams].
Qed.

(** ** Receiving *)
Definition rless (i : citem) : Prop :=
  match i with
  | LOut f => match fr_pl f with PWindow _ => False | _ => True end
  | LIn f => match fr_pl f with PData _ _ => False | _ => True end
  | _ => True
  end.
Definition nocredit (i : citem) : Prop := match i with LOut f => match fr_pl f with PWindow _ => False | _ => True end | _ => True end.
Record same_recv (l l' : list citem) : Prop := mk_sr {
  sr_data : data_received l' = data_received l; sr_on : forall k, data_received_on k l' = data_received_on k l;
  sr_credit : forall k, credit_sent_on k l' = credit_sent_on k l }.
Lemma rless_same l0 l : (forall i, In i l0 -> rless i) -> same_recv l (l0 ++ l).
Proof.
  induction l0 as [|i l0 IH]; intros H; [constructor; auto|]. cbn [app]. destruct IH as [A1 A2 A3]; [intros j Hj; apply H; right; exact Hj|].
  pose proof (H i (or_introl eq_refl)) as W. constructor; unfold data_received, data_received_on, credit_sent_on in *.
  - rewrite total_cons, A1. destruct i; cbn [weigh_in]; try reflexivity. rewrite weightless_out by exact W. reflexivity.
  - intros k. rewrite total_cons, A2. destruct i; cbn [weigh_in]; try reflexivity. rewrite on_zero by (apply weightless_out; exact W). reflexivity.
  - intros k. rewrite total_cons, A3. destruct i; cbn [weigh_out]; try reflexivity. rewrite on_zero by (apply weightless_in; exact W). reflexivity.
Qed.
Lemma earned_nocredit l0 l : (forall i, In i l0 -> nocredit i) -> credits_earned l -> credits_earned (l0 ++ l).
Proof.
  intros H [E1 E2]. unfold credits_earned, credit_sent_on, data_received, data_received_on in *.
  assert (Z : forall k, total (weigh_out (on_stream k credit)) l0 = 0).
  { intros k. induction l0 as [|i l0 IH]; [reflexivity|]. rewrite total_cons, IH by (intros j Hj; apply H; right; exact Hj). pose proof (H i (or_introl eq_refl)) as W.
    destruct i; cbn [weigh_out]; try reflexivity. rewrite on_zero by (apply weightless_in; exact W). reflexivity. }
  split; [|intros k NZ; specialize (E2 k NZ)]; rewrite !total_app, Z; lia.
Qed.
Record recv_core (s : client) : Prop := mk_recv {
  rc_conn : credit_sent_on 0 (cl_log s) + cl_cproc s <= data_received (cl_log s);
  rc_str : forall k x, cget s k = Some x -> cs_rsts x = false -> data_received_on k (cl_log s) = credit_sent_on k (cl_log s) + cs_proc x;
  rc_new : forall k, cl_next s <= k -> N.odd k = true -> data_received_on k (cl_log s) = 0 /\ credit_sent_on k (cl_log s) = 0 }.
Definition recv_inv (s : client) : Prop := cl_next s <= 2 ^ 31 -> credits_earned (cl_log s) /\ (calive s = true -> recv_core s).
Definition proc_eq (y x : cstream) : Prop := cs_proc y = cs_proc x.
Lemma proc_refl z : proc_eq z z. Proof. reflexivity. Qed.
Ltac rless := let i := fresh "i" in let Hi := fresh "Hi" in intros i Hi; cbn [In] in Hi; repeat (destruct Hi as [Hi|Hi]; [subst i|]); try destruct Hi;
  cbn [rless nocredit]; frs; try exact I; try tauto.
Ltac same_streamr := first [apply (streams_same (P := proc_eq)); [reflexivity|apply proc_refl]
  |apply (streams_del (P := proc_eq)); apply proc_refl
  |eapply (streams_put (P := proc_eq)); [reflexivity|eassumption|intros ?; split; [|]|apply proc_refl]].
Lemma weigh_data k d pad f : fr_pl f = PData d pad -> flow_size f = clen d + pad /\ on_stream k flow_size f = (if stream_of f =? k then clen d + pad else 0).
Proof. intros E. unfold on_stream, flow_size. rewrite E. split; reflexivity. Qed.

Lemma mv_recv s s' : good s -> recv_inv s -> mv s s' -> recv_inv s'.
Proof.
  intros G SI H NX'. pose proof (mv_next _ _ H) as NM. assert (NX : cl_next s <= 2 ^ 31) by (eapply N.le_trans; [exact NM|exact NX']). destruct (SI NX) as [AL SC].
  assert (GEN : forall l0, cl_log s' = l0 ++ cl_log s -> (forall i, In i l0 -> rless i) ->
     (calive s' = true -> calive s = true /\ cl_cproc s' = cl_cproc s /\
       (forall k y, cget s' k = Some y -> cs_rsts y = false -> exists x, cget s k = Some x /\ cs_rsts x = false /\ proc_eq y x)) ->
     credits_earned (cl_log s') /\ (calive s' = true -> recv_core s')).
  { intros l0 EL HW HA. destruct (rless_same l0 (cl_log s) HW) as [A1 A2 A3]. rewrite <- EL in *. split.
    - destruct AL as [E1 E2]. split; [rewrite A1, A3; exact E1|]. intros k. rewrite A2, A3. apply E2.
    - intros A'. destruct (HA A') as (A & E1 & HS). destruct (SC A) as [C1 C2 C3]. constructor.
      + rewrite A1, A3, E1. exact C1.
      + intros k y GY R. destruct (HS k y GY R) as (x & GX & RX & ->). rewrite A2, A3. auto.
      + intros k L O. rewrite A2, A3. apply C3; [lia|exact O]. }
  assert (DEAD : forall l0, cl_log s' = l0 ++ cl_log s -> (forall i, In i l0 -> nocredit i) -> calive s' = false ->
     credits_earned (cl_log s') /\ (calive s' = true -> recv_core s')).
  { intros l0 EL HW HA. split; [rewrite EL; apply earned_nocredit; assumption|]. congruence. }
  assert (KEY : forall k x, cget s k = Some x -> N.odd k = true /\ k < cl_next s /\ k < 2 ^ 31 /\ k <> 0).
  { intros k x GX. destruct (w_key _ (proj1 G) _ _ GX) as [O L]. destruct (w_next _ (proj1 G)) as (_ & L1 & _). split; [exact O|]. split; [lia|]. split; [lia|]. intros ->. discriminate O. }
  clear SI NX. destruct H.
  - apply (GEN []); [reflexivity|rless|intros A; split; [exact A|split; [reflexivity|]]; same_streamr].
  - apply (GEN [LRefuse app]); [reflexivity|rless|intros A; split; [exact A|split; [reflexivity|]]; same_streamr].
  - apply (GEN [LBye code last]); [reflexivity|rless|intros A; split; [exact A|split; [reflexivity|]]; same_streamr].
  - apply (GEN [LIn f]); [reflexivity| |intros A; split; [exact A|split; [reflexivity|]]; same_streamr]. intros i [<-|[]]. cbn [rless]. unfold quiet_in in H0. destruct (fr_pl f); tauto.
  - apply (GEN [LIn f]); [reflexivity|rless|intros A; split; [exact A|split; [reflexivity|]]; same_streamr].
  - apply (DEAD (LBye code last :: LOut (cgoaway_frame last code) :: pre)); [exact H1| |unfold calive; rewrite H2, H3; reflexivity].
    destruct H0 as [->|[(f & -> & _)|(v & ->)]]; rless.
  - apply (DEAD []); [exact H0|rless|unfold calive in *; rewrite H1, H2; exact H].
  - apply (DEAD [LSet id v]); [reflexivity|rless|unfold calive; fields; rewrite H; reflexivity].
  - apply (DEAD [LOut csettings_ack]); [reflexivity|rless|unfold calive; fields; rewrite H; reflexivity].
  - (* mark *) destruct (KEY _ _ H0) as (KO & KL & KB & KZ). destruct H2 as [->|(f & -> & ES & EK)].
    + apply (GEN ((if cs_disp x then [] else [LErr sid code]) ++ [LOut (crst_frame sid code)])); [reflexivity|destruct (cs_disp x); rless|]. intros A; split; [exact A|split; [reflexivity|]]. same_streamr; discriminate.
    + split; [apply (earned_nocredit ((if cs_disp x then [] else [LErr sid code]) ++ LOut (crst_frame sid code) :: [LIn f])); [destruct (cs_disp x); rless|exact AL]|]. intros A. destruct (SC H) as [C1 C2 C3].
      assert (T : forall g l, total (weigh_in g) (((if cs_disp x then [] else [LErr sid code]) ++ [LOut (crst_frame sid code); LIn f]) ++ l) = g f + total (weigh_in g) l) by (intros; destruct (cs_disp x); reflexivity).
      assert (T2 : forall k l, total (weigh_out (on_stream k credit)) (((if cs_disp x then [] else [LErr sid code]) ++ [LOut (crst_frame sid code); LIn f]) ++ l) = total (weigh_out (on_stream k credit)) l).
      { intros k l. rewrite <- app_assoc, total_app. cbn [Datatypes.app]. rewrite !total_cons. cbn [weigh_out]. rewrite (on_zero k credit (crst_frame sid code) eq_refl). destruct (cs_disp x); reflexivity. }
      constructor; fields; unfold data_received, data_received_on, credit_sent_on in *.
      * rewrite T, T2. clear - C1. lia.
      * intros k z GZ R. rewrite T, T2. unfold cget in *. clh GZ. rewrite find_put, H0 in GZ. destruct (N.eqb_spec k sid) as [EK0|NE]; [injection GZ as <-; discriminate R|].
        unfold on_stream at 1. rewrite ES, (proj2 (N.eqb_neq sid k)) by congruence. apply (C2 k z); auto.
      * intros k L O. clh L. rewrite T, T2. unfold on_stream at 1. rewrite ES, (proj2 (N.eqb_neq sid k)) by lia. apply C3; auto.
  - apply (GEN [LOut (crst_frame sid code)]); [reflexivity|rless|intros A; split; [exact A|split; [reflexivity|]]; same_streamr].
  - destruct H2 as (B1 & B2 & B3 & B4 & B5 & B6 & B7 & B8 & B9 & B10 & _). apply (GEN [LErr sid code]); [reflexivity|rless|intros A; split; [exact A|split; [reflexivity|]]; same_streamr; [congruence|exact B3]].
  - (* data *) destruct (KEY _ _ H1) as (KO & KL & KB & KZ). split; [apply (earned_nocredit [LIn f]); [rless|exact AL]|]. intros A. destruct (SC H0) as [C1 C2 C3].
    destruct (weigh_data 0 _ _ _ H) as [FS _]. constructor; fields; unfold data_received, data_received_on, credit_sent_on in *.
    + rewrite !total_cons. cbn [weigh_in weigh_out]. rewrite FS. clear - C1. lia.
    + intros k z GZ R. rewrite !total_cons. cbn [weigh_in weigh_out]. destruct (weigh_data k _ _ _ H) as [_ ->]. unfold cget in *. clh GZ. rewrite find_put, H1 in GZ. destruct (N.eqb_spec k (stream_of f)) as [EK0|NE].
      * injection GZ as <-. csh R. subst k. rewrite N.eqb_refl. unfold got_data. cs. rewrite (C2 _ _ H1 H2). clear. lia.
      * rewrite (proj2 (N.eqb_neq (stream_of f) k)) by congruence. apply (C2 k z); auto.
    + intros k L O. clh L. rewrite !total_cons. cbn [weigh_in weigh_out]. destruct (weigh_data k _ _ _ H) as [_ ->]. rewrite (proj2 (N.eqb_neq (stream_of f) k)) by lia. apply C3; auto.
  - (* unknown *) destruct (weigh_data 0 _ _ _ H) as [FS _].
    assert (NC : forall i, In i (out ++ [LIn f]) -> nocredit i) by (destruct H3 as [->| ->]; rless).
    split; [apply (earned_nocredit (out ++ [LIn f])); [exact NC|exact AL]|]. intros A. destruct (SC H0) as [C1 C2 C3].
    assert (T : forall g l, total (weigh_in g) ((out ++ [LIn f]) ++ l) = g f + total (weigh_in g) l) by (intros; destruct H3 as [->| ->]; reflexivity).
    assert (T2 : forall k l, total (weigh_out (on_stream k credit)) ((out ++ [LIn f]) ++ l) = total (weigh_out (on_stream k credit)) l).
    { intros k l. destruct H3 as [->| ->]; [reflexivity|]. cbn [Datatypes.app]. rewrite !total_cons. cbn [weigh_out]. rewrite (on_zero k credit (crst_frame (stream_of f) STREAM_CLOSED) eq_refl). reflexivity. }
    constructor; fields; unfold data_received, data_received_on, credit_sent_on in *.
    + rewrite T, T2, FS. clear - C1. lia.
    + intros k z GZ R. change (cget s k = Some z) in GZ. rewrite T, T2. destruct (weigh_data k _ _ _ H) as [_ ->]. rewrite (proj2 (N.eqb_neq (stream_of f) k)) by congruence. apply (C2 k z); auto.
    + intros k L O. clh L. rewrite T, T2. destruct (weigh_data k _ _ _ H) as [_ ->]. rewrite (proj2 (N.eqb_neq (stream_of f) k)) by congruence. apply C3; auto.
  - (* credit0 *) destruct (SC H) as [C1 C2 C3]. destruct (csend_wu_cases 0 (cl_cproc s) s) as [EW|(EW & ? & ?)]; rewrite EW in *.
    + split; [exact AL|]. intros _. constructor; fields; [clear - C1; lia|exact C2|exact C3].
    + assert (T : forall k, on_stream k credit (cwu_frame 0 (cl_cproc s)) = if 0 =? k then cl_cproc s else 0) by (intros; unfold on_stream, cwu_frame; rewrite stream_mk0; reflexivity).
      assert (E1 : credits_earned (LOut (cwu_frame 0 (cl_cproc s)) :: cl_log s)).
      { destruct AL as [E1 E2]. unfold credits_earned, credit_sent_on, data_received, data_received_on in *. split; [|intros k NZ; specialize (E2 k NZ)]; rewrite !total_cons; cbn [weigh_out weigh_in]; rewrite T.
        - change (0 =? 0) with true. cbv iota. clear - C1. lia.
        - rewrite (proj2 (N.eqb_neq 0 k)) by congruence. exact E2. }
      split; [exact E1|]. intros _. constructor; fields; [destruct E1 as [E1 _]; rewrite N.add_0_r; exact E1| |].
      * intros k z GZ R. change (cget s k = Some z) in GZ. destruct (KEY _ _ GZ) as (_ & _ & _ & KZ). unfold data_received_on, credit_sent_on in *. rewrite !total_cons. cbn [weigh_out weigh_in]. rewrite T, (proj2 (N.eqb_neq 0 k)) by congruence. apply (C2 k z); auto.
      * intros k L O. unfold data_received_on, credit_sent_on in *. rewrite !total_cons. cbn [weigh_out weigh_in]. rewrite T, (proj2 (N.eqb_neq 0 k)) by (intros <-; discriminate O). apply C3; auto.
  - (* credit *) destruct (KEY _ _ H0) as (KO & KL & KB & KZ). destruct (SC H) as [C1 C2 C3]. pose proof (C2 _ _ H0 H1) as CS.
    assert (T : forall k, on_stream k credit (cwu_frame sid (cs_proc x)) = if sid =? k then cs_proc x else 0) by (intros; unfold on_stream, cwu_frame; rewrite stream_mk by exact KB; reflexivity).
    unfold credits_earned, credit_sent_on, data_received, data_received_on in *. destruct AL as [E1 E2]. split; [split|].
    + fields. rewrite !total_cons. cbn [weigh_out weigh_in]. rewrite T, (proj2 (N.eqb_neq sid 0) KZ). exact E1.
    + fields. intros k NZ. rewrite !total_cons. cbn [weigh_out weigh_in]. rewrite T. destruct (N.eqb_spec sid k) as [<-|NE]; [rewrite CS; clear; lia|apply E2, NZ].
    + intros _. constructor; fields; unfold credit_sent_on, data_received, data_received_on in *.
      * rewrite !total_cons. cbn [weigh_out weigh_in]. rewrite T, (proj2 (N.eqb_neq sid 0) KZ). exact C1.
      * intros k z GZ R. rewrite !total_cons. cbn [weigh_out weigh_in]. rewrite T. unfold cget in *. clh GZ. rewrite find_put, H0 in GZ. destruct (N.eqb_spec k sid) as [EK0|NE].
        { injection GZ as <-. subst k. rewrite N.eqb_refl, CS. cs. clear. lia. }
        { rewrite (proj2 (N.eqb_neq sid k)) by congruence. apply (C2 k z); auto. }
      * intros k L O. clh L. rewrite !total_cons. cbn [weigh_out weigh_in]. rewrite T, (proj2 (N.eqb_neq sid k)) by lia. apply C3; auto.
  - apply (GEN [LIn f]); [reflexivity|rless|intros A; split; [exact A|split; [reflexivity|]]; same_streamr].
  - apply (GEN [LIn f]); [reflexivity|rless|intros A; split; [exact A|split; [reflexivity|]]; same_streamr; [assumption|reflexivity]].
  - destruct H0 as (B1 & B2 & B3 & B4 & B5 & B6 & B7 & B8 & B9 & B10 & _). apply (GEN []); [reflexivity|rless|intros A; split; [exact A|split; [reflexivity|]]; same_streamr; [congruence|exact B3]].
  - eapply (GEN [_]); [reflexivity|rless|intros A; split; [exact A|split; [reflexivity|]]; same_streamr; [assumption|reflexivity]].
  - apply (GEN []); [reflexivity|rless|intros A; split; [exact A|split; [reflexivity|]]; same_streamr].
  - apply (GEN []); [reflexivity|rless|intros A; split; [exact A|split; [reflexivity|]]; same_streamr].
  - (* open *) set (l0 := rev _ ++ _) in *.
    assert (WL : forall i, In i l0 -> rless i).
    { intros i Hi. unfold l0 in Hi. apply in_app_iff in Hi as [Hi|[<-|[]]]; [|exact I]. apply open_plain in Hi. unfold plain in Hi. unfold rless. destruct i; try tauto. destruct (fr_pl f); tauto. }
    destruct (rless_same l0 (cl_log s) WL) as [A1 A2 A3]. split; fields.
    + destruct AL as [E1 E2]. split; [rewrite A1, A3; exact E1|]. intros k. rewrite A2, A3. apply E2.
    + intros A. destruct (SC H) as [C1 C2 C3]. constructor; fields.
      * rewrite A1, A3. exact C1.
      * intros k z GZ R. rewrite A2, A3. unfold cget in *. clh GZ. rewrite find_cons in GZ. destruct (N.eqb_spec k (cl_next s)) as [EK0|NE]; [|apply (C2 k z); auto].
        injection GZ as <-. subst k. destruct (C3 (cl_next s) (N.le_refl _) (proj1 (w_next _ (proj1 G)))) as [-> ->].
        unfold opened. cbv zeta. destruct (negb (no_bytes (q_body r)) || q_wtrail r); cs; reflexivity.
      * intros k L O. clh L. rewrite A2, A3. apply C3; [lia|exact O].
  - eapply (GEN [_]); [reflexivity|rless|intros A; split; [exact A|split; [reflexivity|]]; same_streamr; [assumption|unfold sent_chunk; destruct fin; reflexivity]].
  - apply (GEN [LOut (ctrailer_frame sid block)]); [reflexivity|rless|intros A; split; [exact A|split; [reflexivity|]]; same_streamr; [assumption|reflexivity]].
  - setc. apply (GEN [LSet id v]); [fields; rewrite EL; reflexivity|rless|intros A; split; [exact H|split; [exact ECP|]]]. apply (streams_same (P := proc_eq)); [exact EST|apply proc_refl].
  - apply (GEN [LSet 4 v]); [reflexivity|rless|intros A; split; [exact H|split; [reflexivity|]]]. intros k z GZ R. unfold cget in *. clh GZ. rewrite find_shift in GZ. destruct (find_cs (cl_streams s) k) as [x|] eqn:E; [|discriminate].
    cbn [option_map] in GZ. injection GZ as <-. exists x. split; [reflexivity|]. unfold cshift in *. cbn [fst snd] in *. destruct (N.odd k); cbn [snd] in *; csh R; (split; [exact R|reflexivity]).
  - apply (GEN [LOut f]); [reflexivity| |intros A; split; [exact A|split; [reflexivity|]]; same_streamr]. intros i [<-|[]]. cbn [rless]. destruct H1 as [->|(o & ->)]; exact I.
  - apply (GEN []); [reflexivity|rless|intros A; split; [exact A|split; [reflexivity|]]; same_streamr].
  - apply (GEN [LIn f]); [reflexivity|rless|intros A; split; [exact A|split; [reflexivity|]]; same_streamr].
  - destruct (parse_same _ _ _ _ H2) as (B1 & B2 & B3 & B4 & B5 & B6 & B7 & B8 & B9 & B10 & _). apply (GEN [LBlock sid fs]); [reflexivity|rless|intros A; split; [exact A|split; [reflexivity|]]; same_streamr; [assumption|exact B3]].
  - apply (DEAD []); [reflexivity|rless|reflexivity].
  - apply (GEN []); [reflexivity|rless|intros A; split; [exact A|split; [reflexivity|]]; same_streamr].
Qed.
