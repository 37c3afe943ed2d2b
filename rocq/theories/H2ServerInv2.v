(** Per-stream invariants of the HTTP/2 server, over the elementary steps of H2ServerSteps. *)
From Coq Require Import Permutation.
From Verif Require Import Base UtilModel HpackTables HpackModel HpackSpec DynTableProofs HpackCodecProofs HpackConnProofs
  H2Model H2Spec H2Proofs H2FramerProofs H2Props H2FieldModel H2ServerModel H2ServerSpec H2ServerSteps H2ServerRefine H2ServerHandlers H2ServerInv.
Local Open Scope N_scope.

Lemma end_stream_testbit f : end_stream_of f = has_end_stream f.
Proof. apply (testbit_flag _ 0). Qed.

(** ** Requests *)
Definition ended (fs : list frame) : bool := existsb has_end_stream fs.
Lemma upto_end_app fs f : upto_end (fs ++ [f]) = if ended fs then upto_end fs else upto_end fs ++ [f].
Proof.
  induction fs as [|g fs IH]; cbn [app upto_end ended existsb]; [destruct (has_end_stream f); reflexivity|].
  destruct (has_end_stream g); cbn [orb]; [reflexivity|]. fold (ended fs). rewrite IH. destruct (ended fs); reflexivity.
Qed.
Lemma ended_app fs f : ended (fs ++ [f]) = ended fs || has_end_stream f.
Proof. unfold ended. rewrite existsb_app. cbn [existsb]. rewrite orb_false_r. reflexivity. Qed.
Lemma body_app fs gs : body_octets (fs ++ gs) = body_octets fs ++ body_octets gs.
Proof. apply flat_map_app. Qed.
Definition received_body (k : N) (l : list item) : list N := body_octets (upto_end (frames_received k l)).
Definition received_end (k : N) (l : list item) : bool := ended (frames_received k l).

(** ** A stream identifier not used yet leaves no trace *)
Definition virgin (k : N) (l : list item) : Prop :=
  frames_received k l = [] /\ count (is_request k) l = 0%nat /\ data_received_on k l = 0 /\ credit_sent_on k l = 0 /\ response_frames k l = [].
Lemma response_frame_other k f : stream_of f <> k -> response_frame k f = false.
Proof. intros H. unfold response_frame. apply N.eqb_neq in H. rewrite H. reflexivity. Qed.
Lemma virgin_in k f l : response_frame k f = false -> virgin k l -> virgin k (LIn f :: l).
Proof.
  unfold virgin, data_received_on, credit_sent_on. intros H (A & B & C & D & F). rewrite count_cons. cbn [frames_received is_request total weigh_in weigh_out response_frames].
  rewrite H. repeat split; auto. rewrite C. unfold on_stream, flow_size. unfold response_frame in H. destruct (stream_of f =? k); [|reflexivity].
  destruct (fr_pl f); try reflexivity. discriminate.
Qed.
Lemma virgin_out k f l : response_frame k f = false -> on_stream k credit f = 0 -> virgin k l -> virgin k (LOut f :: l).
Proof.
  unfold virgin, data_received_on, credit_sent_on. intros H H1 (A & B & C & D & F). rewrite count_cons. cbn [frames_received is_request total weigh_in weigh_out response_frames].
  rewrite H, H1, A. destruct (is_rst_on k f); repeat split; auto.
Qed.
Lemma virgin_plain k i l : match i with LIn _ | LOut _ => False | LReq j _ => j <> k | _ => True end -> virgin k l -> virgin k (i :: l).
Proof.
  intros H (A & B & C & D & F). unfold virgin, data_received_on, credit_sent_on in *. rewrite count_cons. destruct i as [f|f| | | | |]; try contradiction; cbn [frames_received is_request total weigh_in weigh_out response_frames];
    repeat split; auto. apply N.eqb_neq in H. rewrite H. exact B.
Qed.
Lemma virgin_refused k f g b p l : fr_pl f = PHeaders b p -> is_rst_on k g = true -> virgin k l -> virgin k (LOut g :: LIn f :: l).
Proof.
  unfold virgin, data_received_on, credit_sent_on. intros H G (A & B & C & D & F). rewrite !count_cons. cbn [frames_received is_request total weigh_in weigh_out response_frames].
  rewrite G. unfold is_rst_on in G. apply andb_true_iff in G as [G1 G2]. destruct (fr_pl g) eqn:PG; try discriminate.
  rewrite B, C, D, F. unfold on_stream, flow_size, credit, response_frame. rewrite PG, H, G1. cbn [andb]. destruct (stream_of f =? k); repeat split; auto.
Qed.
Lemma virgin_headers k sid flags pmax block l : sid < 2 ^ 31 -> sid <> k -> virgin k l -> virgin k (rev (map LOut (send_headers sid flags pmax block)) ++ l).
Proof.
  intros HS NE. assert (F : forall f, In f (send_headers sid flags pmax block) -> stream_of f <> k).
  { intros f Hf. destruct (send_headers_frames _ _ _ _ _ Hf) as [E _]. rewrite E, stream_of_mk; assumption. }
  revert F. generalize (send_headers sid flags pmax block). intros fs. induction fs as [|f fs IH] in l |- *; intros F V; [exact V|]. cbn [map rev]. rewrite <- app_assoc.
  apply IH; [intros; apply F; right; assumption|]. cbn [app]. apply virgin_out; [apply response_frame_other, F; left; reflexivity| |exact V].
  unfold on_stream. destruct (N.eqb_spec (stream_of f) k); [|reflexivity]. destruct (F f (or_introl eq_refl)); assumption.
Qed.
Lemma on_stream_zero k g f : g f = 0 -> on_stream k g f = 0.
Proof. intros H. unfold on_stream. rewrite H. destruct (_ =? _); reflexivity. Qed.
Definition virgin_inv (s : server) : Prop := alive s = true -> forall k, N.odd k = true -> sv_last s < k -> virgin k (sv_log s).
Lemma known_old s k x j : wf s -> find_st (sv_streams s) j = Some x -> N.odd k = true -> sv_last s < k -> j <> k.
Proof. intros W F O L ->. pose proof (w_odd _ W _ _ F O). lia. Qed.
Lemma virgin_step_in f s s' : wf s -> stream_id_ok f -> virgin_inv s -> instep f s s' -> virgin_inv s'.
Proof.
  unfold virgin_inv. intros W SO I H. norm_in H; fields; try solve [unfold alive; sv; discriminate].
  all: unfold alive in *; fields; intros A k O L; try specialize (I A k O).
  all: try match goal with R : get _ _ = Some _, W : wf _, O : _ = true, L : _ < ?k |- _ => pose proof (known_old _ k _ _ W R O L) as NE end.
  - unfold ignorable, alive in H. apply virgin_in; [|apply I; exact L]. unfold response_frame. destruct (fr_pl f); try apply andb_false_r; try congruence.
    destruct H as [H|(x & H & _)]; [congruence|]. pose proof (known_old _ k _ _ W H O L) as NE. apply N.eqb_neq in NE. rewrite NE. reflexivity.
  - destruct (N.eq_dec (stream_of f) k) as [E|NE].
    + eapply virgin_refused; eauto. unfold is_rst_on. rewrite stream_of_rst by exact SO. rewrite E, N.eqb_refl. reflexivity.
    + apply virgin_out; [apply response_frame_other; rewrite stream_of_rst by exact SO; exact NE|apply on_stream_zero; reflexivity|].
      apply virgin_in; auto using response_frame_other.
  - apply virgin_in; auto using response_frame_other.
  - apply virgin_in; [apply response_frame_other|apply I; lia]. lia.
  - apply virgin_in; auto using response_frame_other.
  - apply virgin_in; auto. apply response_frame_other. intros E. rewrite E in *. destruct (get s k) as [x|] eqn:G; [|specialize (H3 eq_refl); lia].
    pose proof (known_old _ k _ _ W G O L). congruence.
  - apply virgin_out; [apply response_frame_other; rewrite stream_of_rst by exact SO; exact NE|apply on_stream_zero; reflexivity|].
    apply virgin_in; auto using response_frame_other.
  - apply virgin_in; auto using response_frame_other.
  - apply virgin_out; [apply response_frame_other; rewrite stream_of_wu by exact SO; exact NE| |].
    + unfold on_stream. rewrite stream_of_wu by exact SO. apply N.eqb_neq in NE. rewrite NE. reflexivity.
    + apply virgin_in; auto using response_frame_other.
  - apply virgin_in; auto. unfold response_frame. rewrite H. apply andb_false_r.
  - apply virgin_in; auto using response_frame_other.
  - apply virgin_in; auto. unfold response_frame. rewrite H. apply andb_false_r.
Qed.
Lemma virgin_q E th sh s s' : wf s -> virgin_inv s -> qstep E th sh s s' -> virgin_inv s'.
Proof.
  unfold virgin_inv. intros W I H. norm_q H; fields; try exact I; try solve [unfold alive; sv; discriminate].
  all: unfold alive in *; fields; intros A k O L; try (rewrite ?andb_false_r in A; discriminate A); specialize (I A k O L).
  all: try match goal with R : get _ _ = Some _, W : wf _, O : _ = true, L : _ < ?k |- _ => pose proof (known_old _ k _ _ W R O L) as NE; pose proof (proj1 (w_key _ W _ _ R)) as KS end.
  all: repeat first [apply virgin_headers; [exact KS|exact NE|]|apply virgin_plain; [exact Logic.I|]|apply virgin_plain; [exact NE|]|assumption].
  all: try solve [rewrite H1 in A; discriminate A].
  all: apply virgin_out; [| |assumption].
  all: try solve [apply on_stream_zero; unfold credit; rew_pl; reflexivity].
  all: try solve [unfold response_frame; frs; rew_pl; apply andb_false_r].
  all: try solve [apply response_frame_other; unfold data_frame; rewrite stream_of_mk by exact KS; exact NE].
  unfold on_stream. destruct (N.eqb_spec (stream_of (wu_frame 0 (Z.to_N (65535 - sv_crecv s)))) k) as [C|]; [|reflexivity].
  rewrite stream_of_wu in C by lia. subst k. lia.
Qed.

(** ** Per-stream receive window *)
Definition accepting (x : stream) : Prop := st_endr x = false /\ st_rsts x = false /\ st_rstr x = false /\ st_state x <> CLOSED.
Definition swin_inv (s : server) : Prop := alive s = true -> forall k x, find_st (sv_streams s) k = Some x -> N.odd k = true -> accepting x ->
  (st_local x + Z.of_N (data_received_on k (sv_log s)) = 65535 + Z.of_N (credit_sent_on k (sv_log s)))%Z /\
  (st_local x + Z.of_N (st_proc x) = 65535)%Z /\ st_proc x < 32767.
Lemma on_other k g f : stream_of f <> k -> on_stream k g f = 0.
Proof. intros H. unfold on_stream. apply N.eqb_neq in H. rewrite H. reflexivity. Qed.
Lemma on_same g f : on_stream (stream_of f) g f = g f.
Proof. unfold on_stream. rewrite N.eqb_refl. reflexivity. Qed.
Lemma swin_in f s s' : wf s -> stream_id_ok f -> virgin_inv s -> swin_inv s -> instep f s s' -> swin_inv s'.
Proof.
  unfold swin_inv, data_received_on, credit_sent_on. intros W SO V I H. norm_in H; fields; try solve [unfold alive; sv; discriminate].
  all: unfold alive in *; fields; intros A k y G O AC; specialize (I A k); streams G; try specialize (I _ G O AC); frs.
  all: try rewrite !(on_other k _ f) by congruence; try rewrite stream_of_wu in * by exact SO.
  all: try solve [rewrite ?on_stream_zero by (unfold flow_size; rew_pl; reflexivity); exact I].
  - rewrite on_stream_zero; [exact I|]. unfold ignorable, alive in H. unfold flow_size. destruct (fr_pl f); try reflexivity. congruence.
  - rewrite on_stream_zero by (unfold flow_size; rew_pl; reflexivity). subst k. apply (I x H0 O). unfold accepting, hdr_stream in *. sth AC.
    destruct AC as (C1 & C2 & C3 & C4). apply orb_false_iff in C1 as [C1 _]. auto.
  - subst k. unfold virgin_inv, alive in V. destruct (V A _ O H3) as (_ & _ & V1 & V2 & _). unfold data_received_on, credit_sent_on in V1, V2. rewrite V1, V2.
    rewrite on_stream_zero by (unfold flow_size; rew_pl; reflexivity). repeat split; reflexivity.
  - rewrite on_stream_zero by (unfold flow_size; rew_pl; reflexivity). subst k. exact (I x H0 O AC).
  - destruct (N.eq_dec (stream_of f) k) as [E|NE]; [|rewrite on_other by exact NE; exact I].
    exfalso. subst k. destruct AC as (C1 & C2 & C3 & C4). destruct (H2 _ G) as [C|[C|[C|C]]]; congruence.
  - subst k. rewrite on_same. unfold flow_size at 1. rewrite H. specialize (I x H2 O). unfold accepting, acc_stream in *. sth AC. st.
    destruct AC as (C1 & C2 & C3 & C4). apply orb_false_iff in C1 as [C1 _]. destruct I as (J1 & J2 & J3); [auto|]. unfold len in *. clear V W. split; [lia|split; lia].
  - subst k. rewrite on_same. specialize (I x H2 O). unfold accepting, grant, acc_stream in *. sth AC. st.
    destruct AC as (C1 & C2 & C3 & C4). apply orb_false_iff in C1 as [C1 _]. destruct I as (J1 & J2 & J3); [auto|].
    replace (flow_size f) with (len d + pad) by (unfold flow_size; rewrite H; reflexivity).
    unfold on_stream at 2. rewrite stream_of_wu by exact SO. rewrite N.eqb_refl. cbn [credit wu_frame fr_pl]. split; [lia|split; lia].
  - rewrite on_other by (rewrite stream_of_wu by exact SO; congruence). exact I.
  - rewrite on_stream_zero by (unfold flow_size; rew_pl; reflexivity). subst k. exact (I x H0 O AC).
Qed.
Lemma total_credit_headers k sid flags pmax block : total (weigh_out (on_stream k credit)) (rev (map LOut (send_headers sid flags pmax block))) = 0.
Proof. apply total_out_headers0. intros f [(b & p & B)|(b & B)]; apply on_stream_zero; unfold credit; rewrite B; reflexivity. Qed.
Lemma swin_q E th sh s s' : wf s -> swin_inv s -> qstep E th sh s s' -> swin_inv s'.
Proof.
  unfold swin_inv, data_received_on, credit_sent_on. intros W I H. norm_q H; fields; try exact I; try solve [unfold alive; sv; discriminate].
  all: unfold alive in *; fields; intros A k y G O AC; try (rewrite ?andb_false_r in A; discriminate A); specialize (I A k); streams G; try specialize (I _ G O AC); frs.
  all: rewrite ?total_app, ?total_in_outs, ?total_credit_headers; frs.
  all: try (rewrite on_stream_zero by (unfold credit; rew_pl; reflexivity)).
  all: try exact I; try subst k; try exact (I _ H O AC).
  all: try solve [exfalso; destruct AC as (C1 & C2 & C3 & C4); sth C1; sth C2; sth C3; sth C4; congruence].
  - apply (I x H O). destruct AC as (C1 & C2 & C3 & C4). unfold response_ends in *. sth C1. sth C2. sth C3. repeat split; auto. destruct H0; congruence.
  - assert (AX : accepting x) by (destruct AC as (C1 & C2 & C3 & C4); unfold data_stream in *; destruct fin; repeat split; try assumption; destruct H0; congruence).
    specialize (I x H O AX). unfold data_stream. destruct fin; exact I.
  - apply (I x H O). destruct AC as (C1 & C2 & C3 & C4). repeat split; auto. destruct H0; congruence.
  - rewrite on_other; [exact I|]. rewrite stream_of_wu by lia. intros <-. discriminate O.
  - exact (I x H0 O AC).
Qed.

(** ** Requests *)
Definition good_request (E : env) (l : list item) : Prop :=
  match l with
  | LReq k r :: before => e_method_known E (rq_method r) = true /\ e_uri_has_path E (rq_uri r) = true /\ N.odd k = true /\ count (is_request k) before = 0%nat /\ rq_body r = received_body k before /\ received_end k before = true
      /\ clen_ok r (Some (len (rq_body r)))
  | _ => True
  end.
Definition undelivered_inv (s : server) : Prop := alive s = true -> forall k x, find_st (sv_streams s) k = Some x -> N.odd k = true ->
  st_disp x = false -> count (is_request k) (sv_log s) = 0%nat.
Definition body_inv (s : server) : Prop := alive s = true -> forall k x, find_st (sv_streams s) k = Some x -> N.odd k = true ->
  st_rsts x = false -> st_rstr x = false -> rq_body (st_req x) = received_body k (sv_log s) /\ st_endr x = received_end k (sv_log s).
Lemma received_headers fs l k : (forall f, In f fs -> is_rst_on k f = false) -> frames_received k (rev (map LOut fs) ++ l) = frames_received k l.
Proof.
  induction fs as [|f fs IH] in l |- *; intros H; [reflexivity|]. cbn [map rev]. rewrite <- app_assoc. rewrite IH by (intros; apply H; right; assumption).
  cbn [app frames_received]. rewrite (H f) by (left; reflexivity). reflexivity.
Qed.
Lemma headers_not_rst k sid flags pmax block f : In f (send_headers sid flags pmax block) -> is_rst_on k f = false.
Proof. intros H. unfold is_rst_on. destruct (send_headers_frames _ _ _ _ _ H) as [_ [(b & -> & _)|(b & -> & _)]]; apply andb_false_r. Qed.

(** Receiving a frame [f] on stream [k]. *)
Lemma recv_body_in k f l : received_body k (LIn f :: l) =
  if response_frame k f && negb (received_end k l) then received_body k l ++ payload_octets f else received_body k l.
Proof.
  unfold received_body, received_end. cbn [frames_received]. destruct (response_frame k f); cbn [andb]; [|reflexivity].
  rewrite upto_end_app. destruct (ended _); cbn [negb]; [reflexivity|]. rewrite body_app. cbn [body_octets flat_map]. rewrite app_nil_r. reflexivity.
Qed.
Lemma recv_end_in k f l : received_end k (LIn f :: l) = received_end k l || (response_frame k f && has_end_stream f).
Proof.
  unfold received_end. cbn [frames_received]. destruct (response_frame k f); cbn [andb]; [apply ended_app|]. rewrite orb_false_r. reflexivity.
Qed.
Lemma undelivered_in f s s' : virgin_inv s -> undelivered_inv s -> instep f s s' -> undelivered_inv s'.
Proof.
  unfold undelivered_inv. intros V I H. norm_in H; fields; try solve [unfold alive; sv; discriminate].
  all: unfold alive in *; fields; intros A k y G O D; specialize (I A k); rewrite ?count_cons; cbn [is_request]; streams G; try exact (I _ G O D).
  all: try subst k; try solve [match goal with F : find_st _ _ = Some _ |- _ => exact (I _ F O D) end].
  unfold virgin_inv, alive in V. destruct (V A _ O H3) as (_ & V1 & _). exact V1.
Qed.
Lemma count_request_headers k sid flags pmax block l : count (is_request k) (rev (map LOut (send_headers sid flags pmax block)) ++ l) = count (is_request k) l.
Proof. apply count_outs. reflexivity. Qed.
Lemma undelivered_q E th sh s s' : undelivered_inv s -> qstep E th sh s s' -> undelivered_inv s'.
Proof.
  unfold undelivered_inv. intros I H. norm_q H; fields; try exact I; try solve [unfold alive; sv; discriminate].
  all: unfold alive in *; fields; intros A k y G O D; try (rewrite ?andb_false_r in A; discriminate A); specialize (I A k); rewrite ?count_request_headers, ?count_cons; cbn [is_request]; streams G; try exact (I _ G O D).
  all: try subst k; try solve [match goal with F : find_st _ _ = Some _ |- _ => exact (I _ F O D) end].
  all: try discriminate D.
  - destruct (N.eqb_spec sid k) as [C|C]; [congruence|]. exact (I _ G O D).
  - apply (I x H O). unfold data_stream in D. destruct fin; exact D.
  - congruence.
Qed.
Lemma response_frame_false k f : match fr_pl f with PData _ _ | PHeaders _ _ => False | _ => True end -> response_frame k f = false.
Proof. intros H. unfold response_frame. destruct (fr_pl f); try contradiction; apply andb_false_r. Qed.
Lemma recv_other k f l : response_frame k f = false -> received_body k (LIn f :: l) = received_body k l /\ received_end k (LIn f :: l) = received_end k l.
Proof. intros H. rewrite recv_body_in, recv_end_in, H. cbn [andb]. rewrite orb_false_r. auto. Qed.
Lemma recv_late k f l : received_end k l = true -> received_body k (LIn f :: l) = received_body k l /\ received_end k (LIn f :: l) = true.
Proof. intros H. rewrite recv_body_in, recv_end_in, H. cbn [negb orb]. rewrite andb_false_r. auto. Qed.
Lemma recv_hdr f l b p : fr_pl f = PHeaders b p -> received_body (stream_of f) (LIn f :: l) = received_body (stream_of f) l /\
  received_end (stream_of f) (LIn f :: l) = received_end (stream_of f) l || end_stream_of f.
Proof.
  intros H. rewrite recv_body_in, recv_end_in, end_stream_testbit. unfold response_frame, payload_octets. rewrite H, N.eqb_refl. cbn [andb].
  destruct (negb _); rewrite ?app_nil_r; auto.
Qed.
Lemma recv_data f l d pad : fr_pl f = PData d pad -> received_end (stream_of f) l = false ->
  received_body (stream_of f) (LIn f :: l) = received_body (stream_of f) l ++ d /\ received_end (stream_of f) (LIn f :: l) = end_stream_of f.
Proof.
  intros H E. rewrite recv_body_in, recv_end_in, end_stream_testbit, E. unfold response_frame, payload_octets. rewrite H, N.eqb_refl. auto.
Qed.
Lemma recv_out k g l : is_rst_on k g = false -> received_body k (LOut g :: l) = received_body k l /\ received_end k (LOut g :: l) = received_end k l.
Proof. intros H. unfold received_body, received_end. cbn [frames_received]. rewrite H. auto. Qed.
Lemma rst_other k g : stream_of g <> k -> is_rst_on k g = false.
Proof. intros H. unfold is_rst_on. apply N.eqb_neq in H. rewrite H. reflexivity. Qed.
Lemma rst_false k g : match fr_pl g with PRst _ => False | _ => True end -> is_rst_on k g = false.
Proof. intros H. unfold is_rst_on. destruct (fr_pl g); try contradiction; apply andb_false_r. Qed.
Ltac by_recv L := let P := fresh in let Q := fresh in destruct L as [P Q]; rewrite P, Q; clear P Q.
Lemma body_in f s s' : wf s -> stream_id_ok f -> virgin_inv s -> body_inv s -> instep f s s' -> body_inv s'.
Proof.
  unfold body_inv. intros W SO V I H. norm_in H; fields; try solve [unfold alive; sv; discriminate].
  all: unfold alive in *; fields; intros A k y G O R1 R2; specialize (I A k); streams G; try specialize (I _ G O R1 R2); try exact I.
  all: try solve [match goal with |- context [LIn ?f :: ?l] => by_recv (recv_other k f l ltac:(apply response_frame_other; congruence)); exact I end].
  all: try match goal with |- context [LOut ?g :: ?l] => by_recv (recv_out k g l ltac:(first [apply rst_false; exact Logic.I|apply rst_other; rewrite ?stream_of_rst by exact SO; congruence])) end.
  all: try solve [match goal with |- context [LIn ?f :: ?l] => by_recv (recv_other k f l ltac:(apply response_frame_other; congruence)); exact I end].
  all: try solve [match goal with |- context [LIn ?f :: ?l] => by_recv (recv_other k f l ltac:(apply response_frame_false; rew_pl; exact Logic.I)); try subst k; 
     first [exact I|match goal with F : find_st _ _ = Some _ |- _ => exact (I _ F O R1 R2) end] end].
  - destruct (response_frame k f) eqn:R; [|by_recv (recv_other k f (sv_log s) R); exact I].
    assert (EE : received_end k (sv_log s) = true).
    { destruct I as [_ <-]. unfold response_frame in R. apply andb_true_iff in R as [R RP]. apply N.eqb_eq in R. subst k.
      unfold ignorable, alive in H. destruct (fr_pl f); try discriminate; [congruence|].
      destruct H as [H|(x & HG & HX)]; [congruence|]. unfold get in HG. assert (x = y) by congruence; subst x.
      pose proof (w_st _ W _ _ HG) as WS. destruct HX as [HX|[HX|[HX|HX]]]; try congruence; [|exact (ws_hcr _ WS HX)].
      destruct (ws_closed _ WS HX) as [C|[C|[_ C]]]; congruence. }
    by_recv (recv_late k f _ EE). rewrite EE in I. exact I.
  - subst k. by_recv (recv_hdr f (sv_log s) b p H). unfold hdr_stream in *. sth R1. sth R2. st. destruct (I x H0 O R1 R2) as [I1 I2]. rewrite I1, I2. auto.
  - subst k. by_recv (recv_hdr f (sv_log s) b p H). unfold virgin_inv, alive in V. destruct (V A _ O H3) as (V1 & _).
    unfold received_body, received_end. rewrite V1. split; reflexivity.
  - destruct (N.eq_dec (stream_of f) k) as [E|NE]; [|by_recv (recv_other k f (sv_log s) (response_frame_other _ _ NE)); exact I].
    subst k. pose proof (w_st _ W _ _ G) as WS. assert (EE : st_endr y = true).
    { destruct (H2 _ G) as [C|[C|[C|C]]]; try congruence. destruct (ws_closed _ WS C) as [D|[D|[_ D]]]; congruence. }
    destruct I as [I1 I2]. rewrite EE in I2. by_recv (recv_late _ f _ (eq_sym I2)). rewrite EE. auto.
  - subst k. destruct (I x H2 O H6 H7) as [I1 I2]. rewrite H8 in I2. by_recv (recv_data f (sv_log s) d pad H (eq_sym I2)). unfold acc_stream. st. rewrite I1, H8. auto.
  - subst k. destruct (I x H2 O H6 H7) as [I1 I2]. rewrite H8 in I2. by_recv (recv_data f (sv_log s) d pad H (eq_sym I2)). unfold grant, acc_stream. st. rewrite I1, H8. auto.
Qed.
Lemma body_q E th sh s s' : wf s -> body_inv s -> qstep E th sh s s' -> body_inv s'.
Proof.
  unfold body_inv. intros W I H. norm_q H; fields; try exact I; try solve [unfold alive; sv; discriminate].
  all: unfold alive in *; fields; intros A k y G O R1 R2; try (rewrite ?andb_false_r in A; discriminate A); specialize (I A k); streams G; try specialize (I _ G O R1 R2); try exact I.
  all: unfold received_body, received_end in *; rewrite ?received_headers by (intros ff Hff; exact (headers_not_rst _ _ _ _ _ _ Hff)); cbn [frames_received].
  all: try (rewrite rst_false by (rew_pl; exact Logic.I)).
  all: try subst k; try solve [match goal with F : find_st _ _ = Some _ |- _ => exact (I _ F O R1 R2) end]; try exact I.
  all: try (rewrite rst_other by (rewrite stream_of_rst; [congruence|first [assumption|match goal with F : find_st _ _ = Some _ |- _ => exact (proj1 (w_key _ W _ _ F)) end]])).
  all: try solve [exact I|congruence|discriminate R1].
  - destruct (I x H O R1 R2) as [I1 I2]. st. rewrite H0. auto.
  - unfold data_stream in *. destruct fin; exact (I x H O R1 R2).
Qed.
Definition requests_inv (E : env) (s : server) : Prop := always (good_request E) (sv_log s).
Lemma requests_in E f s s' : requests_inv E s -> instep f s s' -> requests_inv E s'.
Proof. unfold requests_inv. intros I H. norm_in H; fields; repeat apply always_cons; try assumption; exact Logic.I. Qed.
Lemma clen_delivered r c : clen_ok r c -> opt_mismatch c (rq_body r) = false -> clen_ok r (Some (len (rq_body r))).
Proof.
  intros [H HH] M. split; [|exact HH]. intros v IV. destruct (H v IV) as (n & P & ->). exists n. split; [exact P|]. cbn [opt_mismatch] in M.
  apply negb_false_iff, N.eqb_eq in M. rewrite M. reflexivity.
Qed.
Lemma requests_q E th sh s s' : wf s -> undelivered_inv s -> body_inv s -> requests_inv E s -> qstep E th sh s s' -> requests_inv E s'.
Proof.
  unfold requests_inv. intros W U B I H. norm_q H; fields; repeat (first [apply always_cons|apply always_headers]); try assumption; try exact Logic.I; try (intros; exact Logic.I).
  cbn [good_request]. unfold undelivered_inv, body_inv in *. rewrite H7, H8. pose proof (clen_delivered _ _ (ws_clen _ (w_st _ W _ _ H)) H6) as CD.
  split; [reflexivity|]. split; [reflexivity|]. split; [exact H0|]. split; [|split; [|split; [|exact CD]]].
  - eapply U; eauto.
  - destruct (B H4 _ _ H H0 H2 H3) as [B1 _]. exact B1.
  - destruct (B H4 _ _ H H0 H2 H3) as [_ B1]. rewrite <- B1. exact H5.
Qed.
