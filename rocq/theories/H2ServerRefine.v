(** Every handler of the server is a sequence of the elementary steps of H2ServerSteps. *)
From Coq Require Import Permutation.
From Verif Require Import Base UtilModel HpackTables HpackModel HpackSpec DynTableProofs HpackCodecProofs HpackConnProofs
  H2Model H2Proofs H2FramerProofs H2FieldModel H2ServerModel H2ServerSpec H2ServerSteps.
Local Open Scope N_scope.

Section REFINE.
Variable E : env.
Variables th sh : bool.
Notation steps := (qsteps E th sh).

Lemma is_state_true a b : is_state a b = true <-> a = b.
Proof. destruct a, b; cbn; split; intros; try discriminate; auto. Qed.
Lemma is_state_false a b : is_state a b = false <-> a <> b.
Proof. destruct a, b; cbn; split; intros H; try discriminate; auto; try congruence; try (exfalso; apply H; reflexivity). Qed.

Definition settle (s : server) : server :=
  if sv_grace s && negb (sv_gal s =? 0) then
    if all_relevant_closed (sv_gal s) s then set_sv_ok false (set_sv_active false s) else s
  else if sv_grace s && (match sv_streams s with [] => true | _ => false end) && (sv_gal s =? 0) then set_sv_active false s
  else s.
Lemma settle_q s : steps s (settle s).
Proof.
  unfold settle. destruct (sv_grace s) eqn:G; cbn [andb]; [|constructor].
  destruct (sv_gal s =? 0); cbn [negb].
  - destruct (sv_streams s) eqn:ES; cbn [andb]; [|constructor]. apply qs_one. apply q_down_idle; assumption.
  - destruct (all_relevant_closed _ _); [|constructor]. apply qs_one. apply q_down_both, G.
Qed.
Lemma try_close_eq s sid x : get s sid = Some x -> is_state (st_state x) CLOSED || st_rsts x || st_rstr x = true ->
  try_close sid s = settle (erase sid s).
Proof. intros H C. unfold try_close. rewrite H, C. reflexivity. Qed.
Lemma try_close_q s sid : steps s (try_close sid s).
Proof.
  unfold try_close. destruct (get s sid) as [x|] eqn:G; [|constructor].
  destruct (is_state (st_state x) CLOSED || st_rsts x || st_rstr x) eqn:C; [|constructor].
  eapply qs_cons; [apply q_erase|]. exact (settle_q (erase sid s)).
Qed.
Lemma close_eq s sid x : get s sid = Some x -> try_close sid (upd sid (set_st_state CLOSED) s) = settle (erase sid s).
Proof.
  intros G. rewrite (try_close_eq _ sid (set_st_state CLOSED x)).
  - f_equal. apply erase_upd. congruence.
  - apply get_upd_same, G.
  - reflexivity.
Qed.
Lemma close_q s sid x : get s sid = Some x -> steps s (try_close sid (upd sid (set_st_state CLOSED) s)).
Proof. intros G. rewrite (close_eq _ _ _ G). eapply qs_cons; [apply q_erase|apply settle_q]. Qed.

Lemma rst_eq s sid code x : get s sid = Some x -> sv_active s = true \/ code = CANCEL ->
  rst_stream sid code true s =
  settle ((if (negb (st_disp x) || negb (st_ends x)) && negb (code =? NO_ERROR) then note (LErr sid code) else fun s => s)
            (erase sid (emit (rst_frame sid code) s))).
Proof.
  intros G A. unfold rst_stream.
  assert (C : negb (sv_active s) && negb (code =? CANCEL) = false).
  { destruct A as [-> | ->]; [reflexivity|]. rewrite N.eqb_refl. apply andb_false_r. }
  rewrite C. fold (rst_frame sid code).
  assert (G1 : get (emit (rst_frame sid code) s) sid = Some x) by exact G. rewrite G1.
  set (g := fun x => set_st_err code (set_st_rsts true (set_st_state CLOSED x))).
  assert (G2 : get (upd sid g (emit (rst_frame sid code) s)) sid = Some (g x)) by (apply get_upd_same, G1).
  destruct ((negb (st_disp x) || negb (st_ends x)) && negb (code =? NO_ERROR)).
  - rewrite (try_close_eq _ sid (g x)); [|exact G2|reflexivity]. f_equal.
    change (erase sid (note (LErr sid code) (upd sid g (emit (rst_frame sid code) s)))) with (note (LErr sid code) (erase sid (upd sid g (emit (rst_frame sid code) s)))).
    rewrite erase_upd; [reflexivity|congruence].
  - rewrite (try_close_eq _ sid (g x)); [|exact G2|reflexivity]. f_equal. apply erase_upd. congruence.
Qed.
Lemma rst_tail_q sid code (b : bool) s : steps (erase sid (emit (rst_frame sid code) s))
  (settle ((if b then note (LErr sid code) else fun s => s) (erase sid (emit (rst_frame sid code) s)))).
Proof. destruct b; [eapply qs_cons; [apply q_err|]|]; apply settle_q. Qed.
Lemma rst_q s sid code : sid < 2 ^ 31 -> steps s (rst_stream sid code true s).
Proof.
  intros K.
  destruct (negb (sv_active s) && negb (code =? CANCEL)) eqn:C.
  - unfold rst_stream. rewrite C. constructor.
  - assert (A : sv_active s = true \/ code = CANCEL).
    { apply andb_false_iff in C as [C|C]; apply negb_false_iff in C; [auto|right; apply N.eqb_eq, C]. }
    destruct (get s sid) as [x|] eqn:G.
    + rewrite (rst_eq s sid code x G A). eapply qs_cons; [apply (q_rst _ _ _ _ _ _ K A)|]. apply rst_tail_q.
    + unfold rst_stream. rewrite C. change (get (emit _ s) sid) with (get s sid). rewrite G.
      eapply qs_cons; [apply (q_rst E th sh s sid code K A)|]. rewrite erase_absent by exact G. constructor.
Qed.

Lemma eta_ctl s : set_sv_ctl (sv_ctl s) s = s.
Proof. destruct s; reflexivity. Qed.
Lemma goaway_q s code : steps s (goaway code s).
Proof.
  destruct (sv_active s) eqn:A.
  - apply qs_one. pose proof (q_goaway E th sh s code (sv_ctl s) A (N.le_refl _)) as H. rewrite eta_ctl in H. exact H.
  - unfold goaway. rewrite A. constructor.
Qed.

Lemma cond_wu_q s : wf s -> steps s (cond_wu s).
Proof.
  intros W. unfold cond_wu. change (65535 / 2)%Z with 32767%Z. destruct (sv_crecv s <? 32767)%Z eqn:L; [|constructor].
  apply Z.ltb_lt in L. destruct (0 <? _) eqn:P; [|constructor].
  unfold send_wu. destruct (sv_ok s) eqn:O; cbn [negb orb].
  - pose proof (w_crecv _ W O) as B. rewrite Z.mod_small in * by lia.
    assert (Z0 : Z.to_N (65535 - sv_crecv s) =? 0 = false) by (apply N.eqb_neq; lia). rewrite Z0.
    pose proof (q_wu0 E th sh s O L) as H. apply qs_one.
    replace (sv_crecv (emit (mk_frame (mk_h T_WINDOW_UPDATE 0 0) (PWindow (Z.to_N (65535 - sv_crecv s)))) s) + Z.of_N (Z.to_N (65535 - sv_crecv s)))%Z with 65535%Z; [exact H|].
    unfold emit, note. sv. lia.
  - apply qs_one. apply q_wu0_dead. exact O.
Qed.

(** ** Sending a response *)
Definition send_post (sid : N) (x : stream) (s' : server) : Prop :=
  sv_ok s' = true /\ exists y, get s' sid = Some y /\ st_resp y = st_resp x /\ st_endr y = st_endr x /\
    (can_send y \/ (st_ends y = true /\ st_state y = HALF_CLOSED_LOCAL)).

Lemma u32_le z : (0 < z)%Z -> (Z.of_N (u32 z) <= z)%Z.
Proof. intros H. unfold u32. rewrite Z2N.id by (apply Z.mod_pos_bound; lia). apply Z.mod_le; lia. Qed.

Lemma chunk_stream (x : stream) (c : N) (fin : bool) :
  (if fin then set_st_state HALF_CLOSED_LOCAL (set_st_ends true (set_st_peer (st_peer x - Z.of_N c)%Z (set_st_off (st_off x + N.to_nat c)%nat x)))
   else set_st_peer (st_peer x - Z.of_N c)%Z (set_st_off (st_off x + N.to_nat c)%nat x)) = data_stream c fin x.
Proof. reflexivity. Qed.

Lemma can_send_ends x : wf_st x -> can_send x -> st_ends x = false.
Proof. intros W [C|C]; destruct (st_ends x) eqn:EE; auto; destruct (ws_ends _ W EE); congruence. Qed.

Lemma body_loop_q : forall fuel sid body s x, wf s -> get s sid = Some x -> can_send x -> sv_ok s = true ->
  body = rs_body (st_resp x) -> (length body - st_off x < fuel)%nat ->
  exists s', steps s s' /\ send_post sid x s' /\
    (body_loop fuel sid body s = inl (s', true) \/ body_loop fuel sid body s = inr s').
Proof.
  induction fuel as [|fuel IH]; intros sid body s x W G CS OK EB HF; [lia|].
  cbn [body_loop]. rewrite G.
  destruct (st_off x <? length body)%nat eqn:LT.
  2:{ exists s. split; [constructor|]. split; [|auto]. split; [exact OK|]. exists x. auto. }
  apply Nat.ltb_lt in LT.
  assert (PEND : exists s', steps s s' /\ send_post sid x s' /\ inl (upd sid (set_st_pend true) s, true) = @inl (server * bool) server (s', true)).
  { eexists. split; [apply qs_one; eapply (q_pend _ _ _ _ sid x true G)|]. split; [|reflexivity].
    split. { rewrite (upd_some _ _ _ _ G). exact OK. }
    exists (set_st_pend true x). rewrite (get_upd_same _ _ _ _ G). split; [reflexivity|]. st. split; [reflexivity|]. split; [reflexivity|]. left. exact CS. }
  destruct ((st_peer x <=? 0)%Z || (sv_csend s <=? 0)%Z) eqn:WN.
  { destruct PEND as (s' & A & B & C). exists s'. auto. }
  apply orb_false_iff in WN as [WN1 WN2]. apply Z.leb_gt in WN1, WN2.
  match goal with |- context [N.min ?a ?b] => set (chunk := N.min (N.min (N.of_nat (length body - st_off x)) (N.min (sv_pmax s) (u32 (st_peer x))))
                             (N.min (N.min (sv_pmax s) (u32 (sv_csend s))) (sv_pmax s))) end.
  destruct ((chunk =? 0) && (0 <? N.of_nat (length body - st_off x))) eqn:CZ.
  { destruct PEND as (s' & A & B & C). exists s'. auto. }
  assert (C0 : 0 < chunk).
  { apply andb_false_iff in CZ as [CZ|CZ]; [apply N.eqb_neq in CZ; lia|apply N.ltb_ge in CZ; lia]. }
  assert (C1 : chunk <= N.of_nat (length body - st_off x) /\ chunk <= sv_pmax s /\ chunk <= u32 (st_peer x) /\ chunk <= u32 (sv_csend s)) by (unfold chunk; lia).
  clearbody chunk. destruct C1 as (C1 & C2 & C3 & C4).
  pose proof (u32_le _ WN1) as U1. pose proof (u32_le _ WN2) as U2.
  set (fin := (st_off x + N.to_nat chunk =? length body)%nat && negb (st_trail x)).
  (* the state after the frame *)
  assert (Q : qstep E th sh s (upd sid (data_stream chunk fin) (set_sv_csend (sv_csend s - Z.of_N chunk)%Z (emit (data_frame sid (rs_body (st_resp x)) (st_off x) (N.to_nat chunk) fin) s)))).
  { eapply q_data; eauto; rewrite <- ?EB; try lia. }
  set (s1 := upd sid (data_stream chunk fin) _) in Q.
  assert (G1 : get s1 sid = Some (data_stream chunk fin x)) by (unfold s1; apply get_upd_same; exact G).
  assert (W1 : wf s1) by (eapply qstep_wf; eauto).
  assert (O1 : sv_ok s1 = true) by (unfold s1; rewrite (upd_some _ _ x) by exact G; exact OK).
  assert (EQ : (if fin then upd sid (fun x => set_st_state HALF_CLOSED_LOCAL (set_st_ends true x)) else fun s => s)
    (emit (data_frame sid body (st_off x) (N.to_nat chunk) fin)
      (set_sv_csend (sv_csend (upd sid (fun x0 => set_st_peer (st_peer x0 - Z.of_N chunk)%Z (set_st_off (st_off x + N.to_nat chunk)%nat x0)) s) - Z.of_N chunk)%Z
        (upd sid (fun x0 => set_st_peer (st_peer x0 - Z.of_N chunk)%Z (set_st_off (st_off x + N.to_nat chunk)%nat x0)) s))) = s1).
  { unfold s1. rewrite (upd_some _ _ _ _ G). rewrite <- EB. destruct fin.
    - rewrite (upd_some _ sid (set_st_peer (st_peer x - Z.of_N chunk)%Z (set_st_off (st_off x + N.to_nat chunk)%nat x))).
      2:{ unfold get, emit, note. sv. eapply find_put_same, G. }
      rewrite (upd_some _ sid x) by exact G. unfold emit, note. sv. rewrite put_put. reflexivity.
    - rewrite (upd_some _ sid x) by exact G. reflexivity. }
  assert (OKE : sv_ok (emit (data_frame sid body (st_off x) (N.to_nat chunk) fin)
      (set_sv_csend (sv_csend (upd sid (fun x0 => set_st_peer (st_peer x0 - Z.of_N chunk)%Z (set_st_off (st_off x + N.to_nat chunk)%nat x0)) s) - Z.of_N chunk)%Z
        (upd sid (fun x0 => set_st_peer (st_peer x0 - Z.of_N chunk)%Z (set_st_off (st_off x + N.to_nat chunk)%nat x0)) s))) = true).
  { rewrite (upd_some _ _ _ _ G). exact OK. }
  fold fin. cbv zeta. rewrite OKE. cbn [negb].
  match goal with |- context [if fin then upd sid ?g ?t else ?t] =>
    replace (if fin then upd sid g t else t) with ((if fin then upd sid g else fun s => s) t) by (destruct fin; reflexivity) end.
  rewrite EQ, G1. clear EQ OKE.
  destruct (st_ends (data_stream chunk fin x) && negb (st_trail (data_stream chunk fin x))) eqn:DONE.
  - exists s1. split; [apply qs_one, Q|]. split; [|auto]. split; [exact O1|]. exists (data_stream chunk fin x).
    split; [exact G1|]. unfold data_stream. destruct fin; st; auto.
  - destruct fin eqn:FIN.
    { exfalso. unfold data_stream in DONE. sth DONE. unfold fin in FIN. apply andb_true_iff in FIN as [_ T]. cbn [andb] in DONE. congruence. }
    destruct (IH sid body s1 (data_stream chunk false x)) as (s' & A & (P1 & y & P2 & P3 & P4 & P5) & C); auto.
    + cbn in HF |- *. unfold data_stream. st. lia.
    + exists s'. split; [eapply qs_cons; [exact Q|exact A]|]. split; [|exact C]. split; [exact P1|]. exists y. auto.
Qed.

Lemma pending_loop_q : forall fuel sid body s x, wf s -> get s sid = Some x -> can_send x -> sv_ok s = true ->
  body = rs_body (st_resp x) -> (length body - st_off x < fuel)%nat ->
  exists s', steps s s' /\ send_post sid x s' /\
    (pending_loop fuel sid body s = inl s' \/ pending_loop fuel sid body s = inr s').
Proof.
  induction fuel as [|fuel IH]; intros sid body s x W G CS OK EB HF; [lia|].
  cbn [pending_loop]. rewrite G.
  assert (STAY : exists s', steps s s' /\ send_post sid x s' /\ @inr server server s = inr s').
  { exists s. split; [constructor|]. split; [|auto]. split; [exact OK|]. exists x. auto. }
  destruct (st_off x <? length body)%nat eqn:LT.
  2:{ destruct STAY as (s' & A & B & C). exists s'. auto. }
  apply Nat.ltb_lt in LT.
  assert (PEND : exists s', steps s s' /\ send_post sid x s' /\ @inl server server (upd sid (set_st_pend true) s) = inl s').
  { eexists. split; [apply qs_one; eapply (q_pend _ _ _ _ sid x true G)|]. split; [|reflexivity].
    split. { rewrite (upd_some _ _ _ _ G). exact OK. }
    exists (set_st_pend true x). rewrite (get_upd_same _ _ _ _ G). split; [reflexivity|]. st. split; [reflexivity|]. split; [reflexivity|]. left. exact CS. }
  destruct ((st_peer x <=? 0)%Z || (sv_csend s <=? 0)%Z) eqn:WN.
  { destruct PEND as (s' & A & B & C). exists s'. auto. }
  apply orb_false_iff in WN as [WN1 WN2]. apply Z.leb_gt in WN1, WN2.
  set (maxc := N.min (N.min (u32 (st_peer x)) (u32 (sv_csend s))) (sv_pmax s)).
  destruct (maxc =? 0). { destruct PEND as (s' & A & B & C). exists s'. auto. }
  set (rem := N.of_nat (length body - st_off x) mod 2 ^ 32).
  set (chunk := N.min rem maxc).
  destruct ((chunk =? 0) && (0 <? rem)). { destruct PEND as (s' & A & B & C). exists s'. auto. }
  destruct (chunk =? 0) eqn:CZ. { destruct STAY as (s' & A & B & C). exists s'. auto. }
  assert (C0 : 0 < chunk) by (apply N.eqb_neq in CZ; lia).
  assert (C1 : chunk <= N.of_nat (length body - st_off x) /\ chunk <= sv_pmax s /\ chunk <= u32 (st_peer x) /\ chunk <= u32 (sv_csend s)).
  { assert (rem <= N.of_nat (length body - st_off x)) by (unfold rem; apply N.mod_le; discriminate).
    assert (chunk <= rem /\ chunk <= maxc) by (unfold chunk; lia). assert (maxc <= sv_pmax s /\ maxc <= u32 (st_peer x) /\ maxc <= u32 (sv_csend s)) by (unfold maxc; lia). lia. }
  clearbody chunk. destruct C1 as (C1 & C2 & C3 & C4).
  pose proof (u32_le _ WN1) as U1. pose proof (u32_le _ WN2) as U2.
  pose proof (can_send_ends _ (w_st _ W _ _ G) CS) as NE. rewrite NE. cbn [negb]. rewrite andb_true_r.
  set (fin := (st_off x + N.to_nat chunk =? length body)%nat && negb (st_trail x)).
  assert (Q : qstep E th sh s (upd sid (data_stream chunk fin) (set_sv_csend (sv_csend s - Z.of_N chunk)%Z (emit (data_frame sid (rs_body (st_resp x)) (st_off x) (N.to_nat chunk) fin) s)))).
  { eapply q_data; eauto; rewrite <- ?EB; try lia. }
  set (s1 := upd sid (data_stream chunk fin) _) in Q.
  assert (G1 : get s1 sid = Some (data_stream chunk fin x)) by (unfold s1; apply get_upd_same; exact G).
  assert (W1 : wf s1) by (eapply qstep_wf; eauto).
  assert (O1 : sv_ok s1 = true) by (unfold s1; rewrite (upd_some _ _ x) by exact G; exact OK).
  set (t1 := emit (data_frame sid body (st_off x) (N.to_nat chunk) fin) (upd sid (set_st_off (st_off x + N.to_nat chunk)%nat) s)).
  cbv zeta.
  assert (T1 : get t1 sid = Some (set_st_off (st_off x + N.to_nat chunk)%nat x)).
  { unfold t1. change (get (emit ?f ?a) sid) with (get a sid). apply get_upd_same, G. }
  assert (TO : sv_ok t1 = true). { unfold t1. rewrite (upd_some _ _ _ _ G). exact OK. }
  rewrite TO. cbn [negb].
  set (t2 := upd sid (fun x0 => set_st_peer (st_peer x0 - Z.of_N chunk)%Z x0) t1).
  assert (T2 : t2 = set_sv_streams (put_st (sv_streams s) sid (set_st_peer (st_peer x - Z.of_N chunk)%Z (set_st_off (st_off x + N.to_nat chunk)%nat x))) (emit (data_frame sid body (st_off x) (N.to_nat chunk) fin) s)).
  { unfold t2. rewrite (upd_some _ _ _ _ T1). unfold t1. rewrite (upd_some _ _ _ _ G). unfold emit, note. sv. rewrite put_put. reflexivity. }
  rewrite T2. clear T2 t2.
  destruct fin eqn:FIN.
  - eexists. split; [|split; [|right; reflexivity]].
    + eapply qs_cons; [exact Q|]. apply qs_one.
      match goal with |- qstep _ _ _ _ ?t => replace t with (upd sid (set_st_pend false) s1); [eapply q_pend; exact G1|] end.
      rewrite (upd_some _ _ _ _ G1).
      rewrite (upd_some _ sid (set_st_peer (st_peer x - Z.of_N chunk)%Z (set_st_off (st_off x + N.to_nat chunk)%nat x))).
      2:{ unfold get, emit, note. sv. eapply find_put_same, G. }
      unfold s1. rewrite (upd_some _ sid x) by exact G. unfold emit, note. sv. rewrite !put_put, <- EB. reflexivity.
    + assert (G3 : get (set_sv_csend (sv_csend (set_sv_streams (put_st (sv_streams s) sid (set_st_peer (st_peer x - Z.of_N chunk)%Z (set_st_off (st_off x + N.to_nat chunk)%nat x))) (emit (data_frame sid body (st_off x) (N.to_nat chunk) true) s)) - Z.of_N chunk)%Z (set_sv_streams (put_st (sv_streams s) sid (set_st_peer (st_peer x - Z.of_N chunk)%Z (set_st_off (st_off x + N.to_nat chunk)%nat x))) (emit (data_frame sid body (st_off x) (N.to_nat chunk) true) s))) sid = Some (set_st_peer (st_peer x - Z.of_N chunk)%Z (set_st_off (st_off x + N.to_nat chunk)%nat x))).
      { unfold get, emit, note. sv. eapply find_put_same, G. }
      split. { rewrite (upd_some _ _ _ _ G3). exact OK. }
      eexists. split; [apply (get_upd_same _ _ _ _ G3)|]. st. auto.
  - match goal with |- exists s', _ /\ _ /\ (pending_loop _ _ _ ?t = _ \/ _) => replace t with s1 end.
    2:{ unfold s1. rewrite (upd_some _ sid x) by exact G. rewrite <- EB. reflexivity. }
    destruct (IH sid body s1 (data_stream chunk false x)) as (s' & A & (P1 & y & P2 & P3 & P4 & P5) & C); auto.
    + cbn in HF |- *. unfold data_stream. st. lia.
    + exists s'. split; [eapply qs_cons; [exact Q|exact A]|]. split; [|exact C]. split; [exact P1|]. exists y. auto.
Qed.

Lemma finish_send_q s sid x : wf s -> get s sid = Some x -> steps s (finish_send sid s).
Proof.
  intros W G. unfold finish_send. rewrite G. destruct (st_ends x); [|constructor].
  destruct (is_state (st_state x) HALF_CLOSED_LOCAL && st_endr x); [eapply close_q, G|apply try_close_q].
Qed.

Lemma send_trailers_q s sid x : wf s -> get s sid = Some x -> sv_ok s = true -> can_send x \/ st_ends x = true -> steps s (send_trailers sid s).
Proof.
  intros W G OK CS. unfold send_trailers. rewrite G.
  destruct ((st_off x =? length (rs_body (st_resp x)))%nat && st_trail x && negb (st_ends x)) eqn:C; [|eapply finish_send_q; eauto].
  apply andb_true_iff in C as [C NE]. apply andb_true_iff in C as [C1 C2]. apply Nat.eqb_eq in C1. apply negb_true_iff in NE.
  destruct CS as [CS|CS]; [|congruence].
  assert (K : forall s1 block, (trailer_fields x = [] -> block = []) -> steps s s1 -> wf s1 -> get s1 sid = Some x -> sv_ok s1 = true ->
     steps s (let s2 := emit (mk_frame (mk_h T_HEADERS (N.lor FLAG_END_HEADERS FLAG_END_STREAM) sid) (PHeaders block None)) s1 in
        if sv_ok s2 then finish_send sid (upd sid (fun x => set_st_trail false (set_st_ends true (set_st_state HALF_CLOSED_LOCAL x))) s2) else s2)).
  { intros s1 block TB S1 W1 G1 O1. cbv zeta. change (sv_ok (emit ?f s1)) with (sv_ok s1). rewrite O1.
    pose proof (q_trailers E th sh s1 sid x block G1 CS O1 C1 C2 TB) as Q. eapply qs_app; [exact S1|]. eapply qs_cons; [exact Q|].
    eapply finish_send_q; [eapply qstep_wf; eauto|]. apply get_upd_same. exact G1. }
  destruct (trailer_fields x) as [|f0 fs0] eqn:EF.
  - apply (K s []); auto. constructor.
  - destruct (encode_total (sv_enc s) (f0 :: fs0) (w_enc _ W)) as (e & out & okb & EE & HT). rewrite EE.
    pose proof (q_enc E th sh s _ _ _ _ EE) as Q.
    destruct okb.
    + apply (K (set_sv_enc e s) out); auto; [congruence|apply qs_one, Q|eapply qstep_wf; eauto].
    + eapply qs_cons; [exact Q|]. apply rst_q. apply (w_key _ W _ _ G).
Qed.

Lemma alive_parts s : alive s = true -> sv_ok s = true /\ sv_active s = true.
Proof. apply alive_ok. Qed.

Lemma send_post_state sid x s : send_post sid x s -> exists y, get s sid = Some y /\ (can_send y \/ st_ends y = true).
Proof. intros (_ & y & G & _ & _ & [C|[C _]]); exists y; auto. Qed.

Lemma try_send_pending_q s sid x : wf s -> get s sid = Some x -> steps s (try_send_pending sid s).
Proof.
  intros W G. unfold try_send_pending. rewrite G. destruct (alive s) eqn:A; cbn [negb]; [|constructor].
  destruct (alive_parts _ A) as [OK _].
  destruct (negb (is_state (st_state x) OPEN) && negb (is_state (st_state x) HALF_CLOSED_REMOTE)) eqn:C; [constructor|].
  assert (CS : can_send x).
  { apply andb_false_iff in C as [C|C]; apply negb_false_iff, is_state_true in C; [left|right]; exact C. }
  destruct (st_pend x && negb (st_off x =? length (rs_body (st_resp x)))%nat); [|eapply send_trailers_q; eauto].
  destruct (pending_loop_q (S (length (rs_body (st_resp x)))) sid (rs_body (st_resp x)) s x W G CS OK eq_refl) as (s1 & S1 & P1 & [R|R]); [lia| |].
  - rewrite R. exact S1.
  - rewrite R. pose proof (qsteps_wf _ _ _ _ _ W S1) as W1. destruct P1 as (O1 & y & G1 & R1 & R2 & R3). rewrite G1.
    eapply qs_app; [exact S1|].
    assert (CY : can_send y \/ st_ends y = true) by tauto.
    destruct (st_off y =? length (rs_body (st_resp x)))%nat; [|eapply send_trailers_q; eauto].
    pose proof (q_pend E th sh s1 sid y false G1) as Q. eapply qs_cons; [exact Q|].
    eapply send_trailers_q; [eapply qstep_wf; eauto|apply get_upd_same, G1| |exact CY].
    rewrite (upd_some _ _ _ _ G1). exact O1.
Qed.

Lemma send_response_body_q s sid x r : wf (upd sid (set_st_trail (has_trailer_header r)) s) -> get s sid = Some x -> can_send x -> sv_ok s = true -> st_resp x = r -> st_off x = 0%nat ->
  exists s' y, steps (upd sid (set_st_trail (has_trailer_header r)) s) s' /\ ((exists b, send_response_body sid r s = (s', b)) \/
    (get s' sid = Some y /\ send_response_body sid r s = (upd sid (set_st_state CLOSED) s', true))).
Proof.
  intros W0 G CS OK ER EO. unfold send_response_body.
  set (s0 := upd sid (set_st_trail (has_trailer_header r)) s) in *.
  assert (G0 : get s0 sid = Some (set_st_trail (has_trailer_header r) x)) by (apply get_upd_same, G).
  assert (O0 : sv_ok s0 = true) by (unfold s0; rewrite (upd_some _ _ _ _ G); exact OK).
  destruct (body_loop_q (S (length (rs_body r))) sid (rs_body r) s0 _ W0 G0 CS O0) as (s1 & S1 & P1 & R).
  { st. rewrite ER. reflexivity. } { st. lia. }
  destruct R as [R|R]; rewrite R.
  { exists s1, x. split; [exact S1|]. left. eauto. }
  pose proof (qsteps_wf _ _ _ _ _ W0 S1) as W1.
  destruct P1 as (O1 & y & G1 & R1 & R2 & R3). rewrite G1.
  set (full := (st_off y =? length (rs_body r))%nat).
  pose proof (q_pend E th sh s1 sid y (negb full) G1) as Q2.
  set (s2 := upd sid (set_st_pend (negb full)) s1) in *.
  assert (W2 : wf s2) by (eapply qstep_wf; eauto).
  assert (G2 : get s2 sid = Some (set_st_pend (negb full) y)) by (apply get_upd_same, G1).
  assert (S2 : steps s0 s2) by (eapply qs_snoc; eauto).
  destruct (full && st_trail y && negb (st_ends y)).
  - pose proof (try_send_pending_q s2 sid _ W2 G2) as S3.
    destruct (get (try_send_pending sid s2) sid) as [z|] eqn:G3.
    + exists (try_send_pending sid s2), z. split; [eapply qs_app; eauto|].
      destruct (st_ends z && st_endr z); [right|left]; eauto.
    + exists (try_send_pending sid s2), x. split; [eapply qs_app; eauto|]. left. eauto.
  - exists s2, (set_st_pend (negb full) y). split; [exact S2|]. destruct (st_ends y && st_endr y); [right|left]; eauto.
Qed.

Lemma header_block_ok sid fl block s : sv_ok s = true -> send_header_block sid fl block s = (emits (send_headers sid fl (sv_pmax s) block) s, true).
Proof. intros O. unfold send_header_block. destruct (send_headers sid fl (sv_pmax s) block); [reflexivity|]. rewrite O. reflexivity. Qed.
Lemma header_block_dead sid fl block s : sv_ok s = false -> exists f rest, send_headers sid fl (sv_pmax s) block = f :: rest /\
  send_header_block sid fl block s = (emit f s, false).
Proof.
  intros O. unfold send_header_block. unfold send_headers. cbn [header_frames].
  do 2 eexists. split; [reflexivity|]. rewrite O. reflexivity.
Qed.

Lemma emit_upd sid g f s x : get s sid = Some x -> emit f (upd sid g s) = upd sid g (emit f s).
Proof. intros G. rewrite (upd_some _ _ _ _ G). rewrite (upd_some (emit f s) sid x g G). reflexivity. Qed.
Lemma rst_upd s sid c x g : get s sid = Some x -> sv_active s = true -> st_disp (g x) = st_disp x -> st_ends (g x) = st_ends x ->
  rst_stream sid c true (upd sid g s) = rst_stream sid c true s.
Proof.
  intros G A D EN. assert (A' : sv_active (upd sid g s) = true) by (rewrite (upd_some _ _ _ _ G); exact A).
  rewrite (rst_eq s sid c x G (or_introl A)), (rst_eq (upd sid g s) sid c (g x) (get_upd_same _ _ _ _ G) (or_introl A')).
  rewrite D, EN, (emit_upd _ _ _ _ _ G), erase_upd; [reflexivity|]. change (get (emit ?f s) sid) with (get s sid). congruence.
Qed.
Lemma rst_inactive s sid c b : sv_active s = false -> c <> CANCEL -> rst_stream sid c b s = s.
Proof. intros A N. unfold rst_stream. rewrite A. apply N.eqb_neq in N. rewrite N. reflexivity. Qed.
Lemma set_enc_upd sid g e s x : get s sid = Some x -> set_sv_enc e (upd sid g s) = upd sid g (set_sv_enc e s).
Proof. intros G. rewrite (upd_some _ _ _ _ G). rewrite (upd_some (set_sv_enc e s) sid x g G). reflexivity. Qed.

Lemma resp_values_code n vs c code : resp_values n vs c = inl code -> code = PROTOCOL_ERROR.
Proof.
  revert c. induction vs as [|v vs IH]; intros c; cbn [resp_values]; [discriminate|].
  destruct (negb _); [intros H; injection H as <-; reflexivity|].
  match goal with |- context [match ?m with inl _ => _ | inr _ => _ end] => destruct m as [c1|c1] eqn:EM end.
  - intros H; injection H as <-. destruct (beq n _); [|discriminate].
    destruct (parse_content_length v); [|injection EM as <-; reflexivity].
    destruct c; [|discriminate]. destruct (negb _); [injection EM as <-; reflexivity|discriminate].
  - destruct (resp_values n vs c1) as [c2|[? ?]] eqn:ER; [|discriminate]. intros H; injection H as <-. eapply IH; eauto.
Qed.
Lemma resp_fields_code hs c code : resp_fields hs c = inl code -> code = PROTOCOL_ERROR.
Proof.
  revert c. induction hs as [|[n vs] hs IH]; intros c; cbn [resp_fields]; [discriminate|].
  destruct (_ || _); [intros H; injection H as <-; reflexivity|].
  destruct (resp_values _ vs c) as [c2|[? ?]] eqn:ER; [intros H; injection H as <-; eapply resp_values_code; eauto|].
  destruct (resp_fields hs _) as [c3|[? ?]] eqn:EF; [|discriminate]. intros H; injection H as <-. eapply IH; eauto.
Qed.

Lemma respond_q s sid r : wf s -> steps s (fst (send_response sid r (note (LCmd (CRespond sid r)) s))).
Proof.
  intros W. unfold send_response. set (s0 := note (LCmd (CRespond sid r)) s).
  change (get s0 sid) with (get s sid). destruct (get s sid) as [x|] eqn:G.
  2:{ cbn [fst]. apply qs_one. apply q_cmd. }
  pose proof (w_key _ W _ _ G) as [KS _].
  assert (G0 : get s0 sid = Some x) by exact G.
  assert (RST : forall c g, c <> CANCEL -> st_disp (g x) = st_disp x -> st_ends (g x) = st_ends x -> sv_active s = true -> steps s (rst_stream sid c true (upd sid g s0))).
  { intros c g NC D1 D2 AC. rewrite (rst_upd s0 sid c x g G0 AC D1 D2). eapply qs_cons; [apply q_cmd|]. apply rst_q, KS. }
  assert (QR : sv_active s = false -> qstep E th sh s (upd sid (fun x0 => set_st_off 0%nat (set_st_resp r x0)) s0)) by (intros; eapply q_respond; eauto).
  set (g1 := fun x0 : stream => set_st_off 0%nat (set_st_resp r x0)) in *.
  set (s1 := upd sid g1 s0) in *.
  assert (AC1 : sv_active s1 = sv_active s) by (unfold s1; rewrite (upd_some _ _ _ _ G0); reflexivity).
  assert (G1 : get s1 sid = Some (g1 x)) by (apply get_upd_same; exact G).
  assert (F1 : forall c, c <> CANCEL -> steps s (rst_stream sid c true s1)).
  { intros c NC. destruct (sv_active s) eqn:AC; [apply RST; auto|]. rewrite rst_inactive by auto. apply qs_one, QR. auto. }
  destruct (is_state (st_state x) IDLE || is_state (st_state x) RESERVED_LOCAL) eqn:B1; [cbn [fst]; apply F1; discriminate|].
  destruct (is_state (st_state x) CLOSED || is_state (st_state x) HALF_CLOSED_LOCAL) eqn:B2.
  { cbn [fst]; apply qs_one. eapply q_respond; eauto. apply orb_true_iff in B2 as [B2|B2]; apply is_state_true in B2; auto. }
  assert (CS : can_send x).
  { apply orb_false_iff in B1 as [B1 B1']. apply orb_false_iff in B2 as [B2 B2']. apply is_state_false in B1, B1', B2, B2'.
    pose proof (ws_rr _ (w_st _ W _ _ G)). unfold can_send. destruct (st_state x); auto; congruence. }
  destruct (resp_fields (rs_headers r) None) as [code|[fs clen]] eqn:RF; [cbn [fst]; apply F1; apply resp_fields_code in RF; subst code; discriminate|].
  set (g2 := fun x0 => set_st_sent (map fst (rs_headers r) ++ st_sent x0) x0).
  set (s2 := upd sid g2 s1) in *.
  assert (S2 : s2 = upd sid (fun x0 => g2 (g1 x0)) s0) by (unfold s2, s1; apply (upd_upd _ _ _ _ _ G0)).
  assert (AC2 : sv_active s2 = sv_active s) by (unfold s2; rewrite (upd_some _ _ _ _ G1); exact AC1).
  assert (G2 : get s2 sid = Some (g2 (g1 x))) by (unfold s2; apply get_upd_same; exact G1).
  assert (QS : sv_active s = false -> steps s s2).
  { intros AF. eapply qs_cons; [apply QR, AF|]. apply qs_one. apply (q_sent E th sh s1 sid (g1 x) (map fst (rs_headers r)) G1). }
  assert (F2 : forall c, c <> CANCEL -> steps s (rst_stream sid c true s2)).
  { intros c NC. destruct (sv_active s) eqn:AC; [rewrite S2; apply RST; auto|]. rewrite rst_inactive by auto. auto. }
  match goal with |- context [if ?b then (rst_stream _ PROTOCOL_ERROR _ _, _) else _] => destruct b end; [cbn [fst]; apply F2; discriminate|].
  destruct (MAX_BODY_SIZE <? len (rs_body r)); [cbn [fst]; apply F2; discriminate|].
  assert (ENC : sv_enc s2 = sv_enc s).
  { rewrite S2, (upd_some _ _ _ _ G0). reflexivity. }
  set (all := mk_field _ _ _ :: fs). destruct (encode_total (sv_enc s) all (w_enc _ W)) as (e & block & okb & EE & HT). rewrite ENC, EE.
  destruct okb; [|cbn [fst]; apply qs_one; exact (q_encfail E th sh s sid r x all e block G CS EE)].
  destruct ((0 <? sv_pmhls (set_sv_enc e s2)) && (sv_pmhls (set_sv_enc e s2) <? len block)).
  { cbn [fst]. destruct (sv_active s) eqn:AC.
    - rewrite S2, (set_enc_upd _ _ _ _ _ G0). rewrite (rst_upd (set_sv_enc e s0) sid INTERNAL_ERROR x _ G0 AC); [|reflexivity|reflexivity].
      eapply qs_cons; [apply (q_cmd E th sh s (CRespond sid r))|]. fold s0. eapply qs_cons; [exact (q_enc E th sh s0 all e block true EE)|]. apply rst_q, KS.
    - rewrite rst_inactive; [|exact AC2|discriminate]. eapply qs_snoc; [apply QS; reflexivity|]. eapply q_enc. rewrite ENC. exact EE. }
  change (set_sv_enc e s2) with (started sid r e s).
  set (s3 := started sid r e s).
  assert (S3eq : s3 = set_sv_enc e s2) by reflexivity.
  assert (SAME : sv_ok s3 = sv_ok s /\ sv_pmax s3 = sv_pmax s).
  { rewrite S3eq, S2, (upd_some _ _ _ _ G0). split; reflexivity. }
  destruct SAME as [SO SP].
  assert (W3 : wf s3) by (apply (wf_started s sid x r e W G CS HT)).
  assert (G3 : get s3 sid = Some (set_st_sent (map fst (rs_headers r) ++ st_sent (g1 x)) (g1 x))).
  { rewrite S3eq. exact G2. }
  destruct (sv_ok s) eqn:OK.
  2:{ destruct (header_block_dead sid (if match rs_body r with [] => false | _ :: _ => true end then 0 else FLAG_END_STREAM) block s3 SO) as (f & rest & EH & ->).
      cbn [negb fst]. apply qs_one. eapply q_start_dead; eauto. rewrite SP in EH.
      destruct (rs_body r); exact EH. }
  rewrite (header_block_ok _ _ _ _ SO). cbn [negb]. rewrite SP.
  destruct (rs_body r) as [|b0 br] eqn:EB.
  - pose proof (q_start_nobody E th sh s sid r x _ e block G CS OK EB EE) as Q.
    fold s3 in Q. cbv beta iota zeta.
    set (s4 := upd sid response_ends (emits (send_headers sid FLAG_END_STREAM (sv_pmax s) block) s3)) in Q.
    change (upd sid (fun x0 => set_st_state (match st_state x0 with OPEN => HALF_CLOSED_LOCAL | HALF_CLOSED_REMOTE => CLOSED | st => st end) (set_st_ends true x0))
       (emits (send_headers sid FLAG_END_STREAM (sv_pmax s) block) s3)) with s4.
    assert (GE : get (emits (send_headers sid FLAG_END_STREAM (sv_pmax s) block) s3) sid = get s3 sid) by (rewrite emits_fields; reflexivity).
    assert (G4 : exists y, get s4 sid = Some y). { eexists. unfold s4. apply get_upd_same. rewrite GE. exact G3. }
    destruct G4 as [y G4]. rewrite G4. cbn [fst]. eapply qs_cons; [exact Q|].
    destruct (is_state (st_state y) CLOSED); [apply try_close_q|constructor].
  - assert (NB : rs_body r <> []) by (rewrite EB; discriminate). cbv beta iota zeta.
    pose proof (q_start_body E th sh s sid r x _ e block G CS OK NB EE) as Q. fold s3 in Q.
    set (s4 := emits (send_headers sid 0 (sv_pmax s) block) s3) in *.
    assert (G4 : get s4 sid = get s3 sid) by (unfold s4; rewrite emits_fields; reflexivity). rewrite G3 in G4.
    assert (O4 : sv_ok s4 = true) by (unfold s4; rewrite emits_fields; exact SO).
    assert (W4 : wf (upd sid (set_st_trail (has_trailer_header r)) s4)) by (eapply (qstep_wf E th sh s); [exact W|exact Q]).
    destruct (send_response_body_q s4 sid _ r W4 G4) as (s5 & y & S5 & [[b R]|[G5 R]]); auto; rewrite R.
    + destruct b; cbn [negb fst]; [|eapply qs_cons; eauto].
      destruct (get s5 sid) as [z|]; cbn [fst]; [|eapply qs_cons; eauto].
      eapply qs_cons; [exact Q|]. eapply qs_app; [exact S5|]. destruct (is_state (st_state z) CLOSED); [apply try_close_q|constructor].
    + cbn [negb]. rewrite (get_upd_same _ _ _ _ G5). st. change (is_state CLOSED CLOSED) with true. cbn [fst].
      eapply qs_cons; [exact Q|]. eapply qs_app; [exact S5|]. eapply close_q, G5.
Qed.

Lemma push_q s assoc prom p : prom < 2 ^ 31 -> wf s -> steps s (fst (send_push assoc prom p (note (LCmd (CPush assoc prom p)) s))).
Proof.
  intros PB W. assert (Q0 : steps s (note (LCmd (CPush assoc prom p)) s)) by (apply qs_one, q_cmd).
  eapply qs_app; [exact Q0|]. assert (W0 : wf (note (LCmd (CPush assoc prom p)) s)) by (apply wf_emit, W).
  clear Q0 W. set (s0 := note _ s) in *. clearbody s0. clear s. rename s0 into s. rename W0 into W. unfold send_push.
  destruct (alive s) eqn:A; cbn [negb]; [|constructor].
  destruct (sv_ppush s) eqn:PP; cbn [negb]; [|constructor].
  destruct ((prom =? 0) || odd_id prom) eqn:PO; [constructor|]. apply orb_false_iff in PO as [PZ PO]. apply N.eqb_neq in PZ.
  destruct (sv_pmcs s <=? active_pushed s) eqn:LIM; [constructor|]. apply N.leb_gt in LIM.
  destruct (get s assoc) as [a|] eqn:GA; [|constructor].
  destruct (negb (is_state (st_state a) OPEN) && negb (is_state (st_state a) HALF_CLOSED_REMOTE)) eqn:C; [constructor|].
  assert (CS : can_send a).
  { apply andb_false_iff in C as [C|C]; apply negb_false_iff, is_state_true in C; [left|right]; exact C. }
  destruct (get s prom) eqn:GP; [constructor|].
  set (x := set_st_parent _ _).
  assert (EQ : forall e, erase prom (set_sv_enc e (set_sv_streams ((prom, x) :: sv_streams s) s)) = set_sv_enc e s).
  { intros e. unfold erase. sv. rewrite del_cons_same by exact GP. reflexivity. }
  assert (EQ0 : erase prom (set_sv_streams ((prom, x) :: sv_streams s) s) = s).
  { unfold erase. sv. rewrite del_cons_same by exact GP. destruct s; reflexivity. }
  destruct (pr_method p) as [m|]; [|cbn [fst]; rewrite EQ0; constructor].
  destruct (is_nil (pr_scheme p) || is_nil (promised_authority p)); [cbn [fst]; rewrite EQ0; constructor|].
  set (fs := mk_field _ _ _ :: _).
  change (sv_enc (set_sv_streams ((prom, x) :: sv_streams s) s)) with (sv_enc s).
  destruct (encode_total (sv_enc s) fs (w_enc _ W)) as (e & block & okb & EE & HT). rewrite EE.
  destruct okb; [|cbn [fst]; rewrite EQ; apply qs_one; eapply q_enc, EE].
  destruct (alive_parts _ A) as [OK _].
  change (sv_ok (emit _ _)) with (sv_ok s). rewrite OK. cbn [negb fst].
  apply qs_one. eapply q_push; eauto.
Qed.

Lemma cleanup_q : forall order s, wf s -> steps s (cleanup order s).
Proof.
  induction order as [|sid r IH]; intros s W; cbn [cleanup]; [constructor|].
  match goal with |- steps s (cleanup r ?t) => set (t0 := t) end.
  assert (S : steps s t0).
  { unfold t0. destruct (get s sid) as [x|] eqn:G; [|constructor].
    destruct (is_state (st_state x) CLOSED); [constructor|].
    match goal with |- context [if ?b then _ else _] => destruct b end; [|constructor].
    eapply qs_snoc; [apply rst_q, (w_key _ W _ _ G)|apply q_erase]. }
  eapply qs_app; [exact S|]. apply IH. eapply qsteps_wf; eauto.
Qed.

Lemma run_cmd_q s c : cmd_ids_ok c -> wf s -> steps s (run_cmd c s).
Proof.
  intros K W. unfold run_cmd. destruct c as [sid r|a b p|sid code|order]; cbn [cmd_ids_ok] in K.
  - apply respond_q, W.
  - apply push_q; [apply K|exact W].
  - eapply qs_cons; [apply (q_cmd E th sh s (CReset sid code))|apply rst_q, K].
  - eapply qs_cons; [apply (q_cmd E th sh s (CCleanup order))|apply cleanup_q]. apply wf_emit, W.
Qed.
Lemma run_cmds_q : forall cs s, Forall cmd_ids_ok cs -> wf s -> steps s (run_cmds cs s).
Proof.
  induction cs as [|c cs IH]; intros s K W; [constructor|]. inversion K; subst. unfold run_cmds. cbn [fold_left].
  pose proof (run_cmd_q s c H1 W) as S. eapply qs_app; [exact S|]. apply IH; [assumption|]. eapply qsteps_wf; eauto.
Qed.
End REFINE.
