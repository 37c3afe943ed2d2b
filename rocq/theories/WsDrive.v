(** Driving the WebSocket parser with octets that arrive in chunks. *)
From Verif Require Import Base H2Spec H2Proofs WsSpec WsModel WsProofs WsParser WsParser2 WsSession.
Local Open Scope N_scope.

Section DRIVE.
Variable server : bool.
Variable has_close : bool.
Variable max : N.
Variable masks : nat -> list N.
Variable thr : wevent -> bool.
Hypothesis masks4 : forall i, length (masks i) = 4%nat.
Notation drive_n := (ws_drive_n server has_close max masks thr).
Notation onm := (on_message server has_close max masks thr).
Notation msize := (message_size server max masks).
Notation Rep := WsSession.Rep.

(** ** More octets do not change a verdict. *)
Definition full (s : ws) : N := w_exp s + w_parsed s + (if w_masked s then 4 else 0).
Definition Same (r r' : ws * N) : Prop := fst r' = fst r /\ 0 < snd r' /\ (w_ok (fst r) = true -> snd r' = snd r /\ snd r = full (fst r)).
Lemma fail_dead c reason s : w_ok s = true -> is_sendable_close_code c = true -> is_utf8 reason = true -> bytes_ok reason -> (length reason <= 123)%nat -> w_ok (fail server masks c reason s) = false.
Proof. intros A B C D E. destruct (fail_spec server masks masks4 c reason s A B C D E) as (b & F & _). exact F. Qed.
Ltac lit := first [reflexivity | apply Nat.leb_le; reflexivity | apply str_ok].
Lemma fail_same c reason size size' s : w_ok s = true -> is_sendable_close_code c = true -> is_utf8 reason = true -> bytes_ok reason -> (length reason <= 123)%nat -> 0 < size' ->
  Same (fail_at server masks c reason size s) (fail_at server masks c reason size' s).
Proof. intros A B C D E P. split; [reflexivity|]. split; [exact P|]. cbn [fail_at fst]. intros X. rewrite fail_dead in X by assumption. discriminate. Qed.
Lemma whole_same size size' s : size <= size' -> 0 < snd (whole size s) -> Same (whole size s) (whole size' s).
Proof.
  intros L P. unfold whole in *. fold (full s) in *. cbv zeta in *. destruct (N.ltb_spec size (full s)); [cbn in P; lia|]. destruct (N.ltb_spec size' (full s)); [lia|].
  split; [reflexivity|]. split; [exact P|]. intros _. split; reflexivity.
Qed.
Lemma finish_same size size' ind num control n s : w_ok s = true -> size <= size' -> 0 < size -> 0 < snd (finish server max masks size ind num control n s) ->
  Same (finish server max masks size ind num control n s) (finish server max masks size' ind num control n s).
Proof.
  intros OK L Z P. unfold finish in *. cbv zeta in *.
  destruct ((ind =? 126) && (n <? 126)); [apply fail_same; try lit; [exact OK|lia]|].
  destruct ((ind =? 127) && (n <=? 65535)); [apply fail_same; try lit; [exact OK|lia]|].
  destruct (negb control && (0 <? max) && (max <? n)); [apply fail_same; try lit; [exact OK|lia]|]. apply whole_same; assumption.
Qed.
Lemma second_same b0 b1 t more s : w_ok s = true -> w_exp s = 0 -> 0 < snd (second server max masks (b0 :: b1 :: t) s) ->
  Same (second server max masks (b0 :: b1 :: t) s) (second server max masks (b0 :: b1 :: t ++ more) s).
Proof.
  intros OK EZ. rewrite !second_eq by exact EZ. cbv zeta. intros P.
  assert (SZ : N.of_nat (length (b0 :: b1 :: t)) <= N.of_nat (length (b0 :: b1 :: t ++ more))) by (cbn [length]; rewrite app_length; lia).
  assert (PZ : 0 < N.of_nat (length (b0 :: b1 :: t))) by reflexivity. assert (PZ' : 0 < N.of_nat (length (b0 :: b1 :: t ++ more))) by reflexivity.
  destruct ((8 <=? N.land (w_fro s) 15) && (125 <? N.land b1 127)); [apply fail_same; try lit; [exact OK]|].
  destruct (num_of (N.land b1 127) =? 0)%nat eqn:NM; [apply finish_same; assumption|].
  destruct (8 <=? N.land (w_fro s) 15); [apply fail_same; try lit; [exact OK]|].
  apply Nat.eqb_neq in NM. set (num := num_of (N.land b1 127)) in *.
  destruct (N.ltb_spec (N.of_nat (length (b0 :: b1 :: t))) (N.of_nat num + 2)) as [SH|SH]; [cbn in P; lia|].
  replace (N.of_nat (length (b0 :: b1 :: t ++ more)) <? N.of_nat num + 2) with false by (symmetry; apply N.ltb_ge; lia). cbn [length] in SH.
  replace (nth 0 (t ++ more) 0) with (nth 0 t 0) by (symmetry; apply app_nth1; lia).
  destruct ((N.land b1 127 =? 127) && negb (N.land (nth 0 t 0) 128 =? 0)); [apply fail_same; try lit; [exact OK]|].
  rewrite !sum_length_val in * by (rewrite ?app_length; lia). rewrite firstn_app. replace (num - length t)%nat with 0%nat by lia. cbn [firstn]. rewrite app_nil_r.
  apply finish_same; assumption.
Qed.
Lemma message_size_same buf more s : Fresh s -> 0 < snd (msize buf s) -> Same (msize buf s) (msize (buf ++ more) s).
Proof.
  intros (OK & PZ & EZ). rewrite !message_size_eq. rewrite OK, PZ. cbn [negb]. change (0 =? 0) with true. cbv iota zeta. intros P.
  destruct (N.ltb_spec (N.of_nat (length buf)) 2) as [SH|SH]; [cbn in P; lia|].
  destruct buf as [|b0 [|b1 t]]; try (cbn [length] in SH; lia). cbn [nth app] in *.
  replace (N.of_nat (length (b0 :: b1 :: t ++ more)) <? 2) with false by (symmetry; apply N.ltb_ge; cbn [length]; lia).
  assert (PZ' : 0 < N.of_nat (length (b0 :: b1 :: t ++ more))) by reflexivity.
  destruct (negb (is_valid_frame_opcode (N.land b0 15))); [apply fail_same; try lit; [exact OK]|].
  destruct (negb (N.land b0 112 =? 0)); [apply fail_same; try lit; [exact OK]|].
  destruct ((8 <=? N.land b0 15) && (N.land b0 128 =? 0)); [apply fail_same; try lit; [exact OK]|].
  destruct (server && negb (negb (N.land b1 128 =? 0))); [apply fail_same; try lit; [exact OK]|].
  destruct (negb server && negb (N.land b1 128 =? 0)); [apply fail_same; try lit; [exact OK]|].
  apply second_same; assumption.
Qed.
Lemma payload_at_more buf more s : full s <= N.of_nat (length buf) -> payload_at (buf ++ more) s = payload_at buf s.
Proof.
  intros L. unfold payload_at, full in *. set (k := N.to_nat (w_parsed s)). assert (KL : (k <= length buf)%nat) by lia.
  rewrite (skipn_app k). replace (k - length buf)%nat with 0%nat by lia. change (skipn 0 more) with more.
  assert (LS : length (skipn k buf) = (length buf - k)%nat) by apply skipn_length.
  destruct (w_masked s).
  - rewrite (firstn_app 4). replace (4 - length (skipn k buf))%nat with 0%nat by lia. change (firstn 0 more) with (@nil N). rewrite app_nil_r.
    rewrite (skipn_app 4). replace (4 - length (skipn k buf))%nat with 0%nat by lia. change (skipn 0 more) with more.
    rewrite (firstn_app (N.to_nat (w_exp s))). replace (N.to_nat (w_exp s) - length (skipn 4 (skipn k buf)))%nat with 0%nat by (rewrite skipn_length; lia). change (firstn 0 more) with (@nil N). rewrite app_nil_r. reflexivity.
  - rewrite (firstn_app (N.to_nat (w_exp s))). replace (N.to_nat (w_exp s) - length (skipn k buf))%nat with 0%nat by lia. change (firstn 0 more) with (@nil N). rewrite app_nil_r. reflexivity.
Qed.
Lemma on_message_more buf more s : w_ok s = false \/ full s <= N.of_nat (length buf) -> onm (buf ++ more) s = onm buf s.
Proof.
  intros H. destruct (w_ok s) eqn:OK; [|unfold on_message; rewrite OK; reflexivity]. destruct H as [H|H]; [discriminate|].
  rewrite !on_message_eq by exact OK. rewrite payload_at_more by exact H. reflexivity.
Qed.
Lemma on_message_dead buf s : w_ok s = false -> onm buf s = s.
Proof. intros H. unfold on_message. rewrite H. reflexivity. Qed.
Lemma drive_dead fuel buf s : w_ok s = false -> drive_n fuel s buf = (s, buf).
Proof. intros H. destruct fuel; cbn [ws_drive_n]; [reflexivity|]. unfold message_size. rewrite H. reflexivity. Qed.

(** ** One round of the loop *)
Inductive Round (st : progress) (buf : list N) (s : ws) : ws * N -> Prop :=
| rd_more s' : core_eq s s' -> Resumes server max masks buf s s' -> Incomplete server max buf -> (w_parsed s' = 0 -> s' = s) -> Round st buf s (s', 0)
| rd_step f w t s1 n st' evs l : n <> 0 -> n = N.of_nat (length w) -> buf = w ++ t -> Wire f w -> ValidFrame server f -> FrameStep max st f st' evs -> Forall (fun e => thr e = false) evs ->
    Chronicle server evs l -> w_log (onm buf s1) = rev l ++ w_log s -> Fresh (onm buf s1) -> Rep st' (onm buf s1) -> w_ok s1 = true -> Round st buf s (s1, n)
| rd_end s1 n l : n <> 0 -> (w_ok s1 = true -> n <= N.of_nat (length buf)) -> Ends server has_close max thr st buf false l -> w_log (onm buf s1) = rev l ++ w_log s -> w_ok (onm buf s1) = false -> Round st buf s (s1, n).
Lemma round buf s st : bytes_ok buf -> Fresh s -> Rep st s -> Round st buf s (msize buf s).
Proof.
  intros B F R. destruct (message_size_fresh server max masks buf s B F) as [s' C RS I Z|s0 code x n C HO SC U L P EN|s' f w t n C EB W V FT FR PA EN P].
  - apply rd_more; assumption.
  - destruct F as (OK & _). assert (OK0 : w_ok s0 = true) by (rewrite (proj1 C); exact OK).
    destruct HO as [code HO].
    destruct (fail_spec server masks masks4 code (str x) s0 OK0 SC U (str_ok x) L) as (b & F1 & F2 & F3 & F4).
    apply (rd_end _ _ _ _ _ [WOut b; WErr]); [lia|intros X; rewrite F1 in X; discriminate|eapply en_failed; [apply HO|exact F3|exact F4]| |]; rewrite on_message_dead by exact F1; [|exact F1].
    cbn. rewrite F2. destruct C as (_ & _ & _ & _ & ->). reflexivity.
  - subst buf. destruct F as (OK & _). assert (OKS : w_ok s' = true) by (rewrite (proj1 C); exact OK). destruct C as (C1 & C2 & C3 & C4 & C5).
    assert (R' : Rep st s') by (destruct st as [[op d]|]; cbn in *; rewrite C2, C3; exact R).
    pose proof (on_message_spec server has_close max masks thr masks4 st f w t s' R' OKS W V FT FR PA) as OM. remember (onm (w ++ t) s') as s2 eqn:ES2. destruct OM as [st' evs l s2 A1 A2 A3 A4 A5 A6|l s2 A1 A2 A3]; subst s2.
    + eapply (rd_step _ _ _ f w t s' n st' evs l); try eassumption; [lia|reflexivity|]. rewrite A4, C5. reflexivity.
    + eapply (rd_end _ _ _ _ _ l); [lia|intros _; rewrite EN, app_length; lia|exact A1|rewrite A2, C5; reflexivity|exact A3].
Qed.

(** ** The whole run *)
Lemma ends_more st rest more l : Ends server has_close max thr st rest false l -> Ends server has_close max thr st (rest ++ more) false l.
Proof.
  assert (OM : forall c, Offence server max st rest c -> Offence server max st (rest ++ more) c).
  { intros c O. destruct O; subst rest; rewrite <- ?app_assoc; cbn [app].
    - eapply of_opcode; eauto. - eapply of_rsv; eauto. - eapply of_fragmented_control; eauto. - eapply of_mask; eauto. - eapply of_long_control; eauto.
    - apply (of_length16 _ _ _ _ b0 b1 ext (t ++ more)); try assumption; rewrite <- app_assoc; reflexivity. - apply (of_length64 _ _ _ _ b0 b1 ext (t ++ more)); try assumption; rewrite <- app_assoc; reflexivity.
    - apply (of_too_big _ _ _ _ b0 b1 ext (t ++ more) n); try assumption; rewrite <- app_assoc; reflexivity.
    - eapply of_interleaved; eauto. - eapply of_orphan; eauto. - eapply of_total; eauto. - eapply of_text; eauto. - eapply of_text_fragments; eauto. - eapply of_close_code; eauto. - eapply of_close_reason; eauto. }
  assert (CM : forall p, ClosesWith server rest p -> ClosesWith server (rest ++ more) p) by (intros p (f & w & t & -> & X); exists f, w, (t ++ more); rewrite <- app_assoc; split; [reflexivity|exact X]).
  intros E. remember false as b eqn:EB. destruct E; subst; try discriminate.
  - eapply en_failed; eauto.
  - apply en_close_handled; auto.
  - eapply en_close_echoed; eauto.
  - rewrite <- app_assoc. eapply en_thrown; eauto.
Qed.
Definition Resting (st : progress) (pend : list N) (s0 s : ws) : Prop :=
  Fresh s0 /\ Rep st s0 /\ core_eq s0 s /\ Resumes server max masks pend s0 s /\ Incomplete server max pend /\ msize pend s0 = (s, 0).
Definition Told (st : progress) (octets : list N) (st' : progress) (rest : list N) (l : list logitem) : Prop :=
  exists fs ws evs, octets = concat ws ++ rest /\ Forall2 Wire fs ws /\ Conversation server max st fs st' evs /\ Forall (fun e => thr e = false) evs /\ Chronicle server evs l.
Lemma chronicle_app e1 e2 l1 l2 : Chronicle server e1 l1 -> Chronicle server e2 l2 -> Chronicle server (e1 ++ e2) (l1 ++ l2).
Proof. induction 1; intros H2; cbn [app]; [exact H2|apply ch_ping; auto|apply ch_other; auto]. Qed.
Lemma conversation_app st fs st1 e1 gs st2 e2 : Conversation server max st fs st1 e1 -> Conversation server max st1 gs st2 e2 -> Conversation server max st (fs ++ gs) st2 (e1 ++ e2).
Proof. induction 1; intros H2; cbn [app]; [exact H2|]. rewrite <- app_assoc. econstructor; eauto. Qed.
Lemma told_nil st rest : Told st rest st rest [].
Proof. exists [], [], []. repeat split; constructor. Qed.
Lemma told_app st a st1 r1 l1 more st2 r2 l2 : Told st a st1 r1 l1 -> Told st1 (r1 ++ more) st2 r2 l2 -> Told st (a ++ more) st2 r2 (l1 ++ l2).
Proof.
  intros (fs & ws & evs & E & F & C & T & L) (fs' & ws' & evs' & E' & F' & C' & T' & L'). exists (fs ++ fs'), (ws ++ ws'), (evs ++ evs'). subst a.
  rewrite concat_app, <- !app_assoc, E'. split; [reflexivity|]. split; [apply Forall2_app; assumption|]. split; [eapply conversation_app; eassumption|]. split; [apply Forall_app; auto|apply chronicle_app; assumption].
Qed.
Lemma told_more st a st1 r1 l1 more : Told st a st1 r1 l1 -> Told st (a ++ more) st1 (r1 ++ more) l1.
Proof. intros T. rewrite <- (app_nil_r l1). eapply told_app; [exact T|apply told_nil]. Qed.
Inductive Driven (st : progress) (buf : list N) (s : ws) : ws * list N -> Prop :=
| dr_rest st' rest l s0 s' : Told st buf st' rest l -> Resting st' rest s0 s' -> w_log s' = rev l ++ w_log s -> (w_parsed s' = 0 -> s' = s0) -> Driven st buf s (s', rest)
| dr_end st' rest l l' s' r : Told st buf st' rest l -> Ends server has_close max thr st' rest false l' -> w_log s' = rev (l ++ l') ++ w_log s -> w_ok s' = false -> Driven st buf s (s', r).
Lemma wire_nonempty f w : Wire f w -> w <> [].
Proof. destruct 1; discriminate. Qed.
Lemma drive_spec fuel : forall buf s st, (length buf < fuel)%nat -> bytes_ok buf -> Fresh s -> Rep st s -> Driven st buf s (drive_n fuel s buf).
Proof.
  induction fuel as [|k IH]; intros buf s st L B F R; [lia|]. cbn [ws_drive_n]. pose proof (round buf s st B F R) as RD. destruct (msize buf s) as [s1 n] eqn:MS.
  inversion RD as [s' C RS I Z|f w t ? ? st' evs l N0 EN EB W V FS TH CH LG FR RP OK1|? ? l N0 NL E LG D]; subst.
  - change (0 =? 0) with true. cbv iota. apply (dr_rest _ _ _ st buf [] s); [apply told_nil| |cbn; apply C|exact Z]. repeat split; try assumption; try apply F; try apply C; apply I.
  - apply N.eqb_neq in N0. rewrite N0. rewrite Nat2N.id, skipn_length_app. set (s2 := onm (w ++ t) s1) in *.
    assert (LT : (length t < k)%nat) by (pose proof (wire_nonempty f w W); rewrite app_length in L; destruct w; [congruence|cbn [length] in L; lia]).
    assert (BT : bytes_ok t) by (apply bytes_ok_app in B; tauto).
    assert (T1 : Told st w st' [] l) by (exists [f], [w], evs; cbn [concat]; rewrite !app_nil_r; split; [reflexivity|split; [repeat constructor; exact W|split; [|split; [exact TH|exact CH]]]]; rewrite <- (app_nil_r evs); econstructor; [exact V|exact FS|constructor]).
    destruct (IH t s2 st' LT BT FR RP) as [st2 rest l2 s0 s3 T2 RS LG2 Z2|st2 rest l2 l2' s3 r T2 E2 LG2 D2].
    + apply (dr_rest _ _ _ st2 rest (l ++ l2) s0); [apply (told_app st w st' [] l t); assumption|exact RS|rewrite LG2, LG, rev_app_distr, app_assoc; reflexivity|exact Z2].
    + apply (dr_end _ _ _ st2 rest (l ++ l2) l2'); [apply (told_app st w st' [] l t); assumption|exact E2| |exact D2]. rewrite LG2, LG, <- (app_assoc l), (rev_app_distr l), app_assoc. reflexivity.
  - apply N.eqb_neq in N0. rewrite N0. rewrite drive_dead by exact D. apply (dr_end _ _ _ st buf [] l); [apply told_nil|exact E|exact LG|exact D].
Qed.
(** Arriving in pieces makes no difference. *)
Lemma drive_split fuel : forall a more s st, (length a < fuel)%nat -> bytes_ok a -> Fresh s -> Rep st s ->
  forall fuel', (length (a ++ more) < fuel')%nat -> forall s' r, drive_n fuel s a = (s', r) ->
  exists fuel2, (w_ok s' = true -> length (r ++ more) < fuel2)%nat /\ fst (drive_n fuel' s (a ++ more)) = fst (drive_n fuel2 s' (r ++ more)) /\ (w_ok s' = true -> drive_n fuel' s (a ++ more) = drive_n fuel2 s' (r ++ more)).
Proof.
  induction fuel as [|k IH]; intros a more s st L B F R fuel' L' s' r E; [lia|]. destruct fuel' as [|k']; [lia|]. cbn [ws_drive_n] in E |- *.
  pose proof (round a s st B F R) as RD. pose proof (message_size_same a more s F) as SM. destruct (msize a s) as [s1 n] eqn:MS.
  inversion RD as [s1' C RS I Z|f w t ? ? st' evs l N0 EN EB W V FS TH CH LG FR RP OK1|? ? l N0 NL E0 LG D]; subst.
  - change (0 =? 0) with true in E. cbv iota in E. injection E as <- <-. exists (S k'). split; [intros; exact L'|]. cbn [ws_drive_n]. rewrite RS. split; reflexivity.
  - cbn [fst snd] in SM. destruct SM as (SM1 & SM2 & SM3); [cbn; apply N.eqb_neq in N0; lia|]. specialize (SM3 OK1). destruct SM3 as [SM3 SM4].
    destruct (msize ((w ++ t) ++ more) s) as [s1' n'] eqn:MS'. cbn [fst snd] in SM1, SM2, SM3, SM4. subst s1' n'. apply N.eqb_neq in N0. rewrite N0 in *.
    rewrite on_message_more by (right; rewrite <- SM4, app_length; lia). rewrite Nat2N.id, skipn_length_app in E. rewrite Nat2N.id, <- app_assoc, skipn_length_app.
    apply (IH t more (onm (w ++ t) s1) st'); try assumption.
    + pose proof (wire_nonempty f w W). rewrite app_length in L. destruct w; [congruence|cbn [length] in L; lia].
    + apply bytes_ok_app in B; tauto.
    + rewrite <- app_assoc, app_length in L'. pose proof (wire_nonempty f w W). destruct w; [congruence|]. cbn [length] in L'. lia.
  - cbn [fst snd] in SM. destruct SM as (SM1 & SM2 & SM3); [cbn; apply N.eqb_neq in N0; lia|]. destruct (msize (a ++ more) s) as [s1' n'] eqn:MS'. cbn [fst snd] in SM1, SM2, SM3. subst s1'.
    apply N.eqb_neq in N0. rewrite N0 in E. assert (N0' : n' <> 0) by lia. apply N.eqb_neq in N0'. rewrite N0'.
    rewrite drive_dead in E by exact D. injection E as <- <-. 
    assert (ON : onm (a ++ more) s1 = onm a s1).
    { apply on_message_more. destruct (w_ok s1) eqn:OK1; [right|left; reflexivity]. destruct (SM3 eq_refl) as [_ X]. rewrite <- X. apply NL. reflexivity. }
    rewrite ON, !drive_dead by exact D. exists 0%nat. split; [congruence|]. split; [reflexivity|congruence].
Qed.

Lemma drive_fuel k : forall k' buf s st, (length buf < k)%nat -> (length buf < k')%nat -> bytes_ok buf -> Fresh s -> Rep st s -> drive_n k s buf = drive_n k' s buf.
Proof.
  induction k as [|k IH]; intros k' buf s st L L' B F R; [lia|]. destruct k' as [|k']; [lia|]. cbn [ws_drive_n].
  pose proof (round buf s st B F R) as RD. destruct (msize buf s) as [s1 n].
  inversion RD as [s1' C RS I Z|f w t ? ? st' evs l N0 EN EB W V FS TH CH LG FR RP OK1|? ? l N0 NL E0 LG D]; subst; [reflexivity| |].
  - apply N.eqb_neq in N0. rewrite N0. rewrite Nat2N.id, skipn_length_app. pose proof (wire_nonempty f w W). rewrite app_length in *. destruct w; [congruence|]. cbn [length] in *.
    apply (IH _ _ _ st'); try assumption; try lia. apply bytes_ok_app in B; tauto.
  - rewrite !drive_dead by exact D. reflexivity.
Qed.
Lemma drive_resume k pend more s0 s : Resumes server max masks pend s0 s -> drive_n (S k) s (pend ++ more) = drive_n (S k) s0 (pend ++ more).
Proof. intros RS. cbn [ws_drive_n]. rewrite RS. reflexivity. Qed.
Notation feed := (ws_feed server has_close max masks thr).
Notation drive := (ws_drive server has_close max masks thr).
Lemma feed_dead chunks : forall s pend, w_ok s = false -> fst (feed s pend chunks) = s.
Proof. induction chunks as [|c cs IH]; intros s pend D; [reflexivity|]. cbn [ws_feed]. unfold ws_drive. rewrite drive_dead by exact D. apply IH, D. Qed.
Lemma feed_drive chunks : forall st pend s0 s, Resting st pend s0 s -> bytes_ok pend -> Forall bytes_ok chunks ->
  fst (feed s pend chunks) = fst (drive s0 (pend ++ concat chunks)).
Proof.
  induction chunks as [|c cs IH]; intros st pend s0 s RT BP BC; pose proof RT as (F & R & C & RS & I & MZ).
  - cbn [ws_feed concat fst]. rewrite app_nil_r. unfold ws_drive. cbn [ws_drive_n]. rewrite MZ. reflexivity.
  - inversion BC as [|? ? Bc BC']; subst. cbn [ws_feed concat]. unfold ws_drive at 1. rewrite (drive_resume _ pend c s0 s RS).
    assert (BPC : bytes_ok (pend ++ c)) by (apply bytes_ok_app; auto).
    pose proof (drive_spec (S (length (pend ++ c))) (pend ++ c) s0 st ltac:(lia) BPC F R) as DR.
    destruct (drive_n (S (length (pend ++ c))) s0 (pend ++ c)) as [s' r] eqn:ED.
    destruct (drive_split (S (length (pend ++ c))) (pend ++ c) (concat cs) s0 st ltac:(lia) BPC F R (S (length ((pend ++ c) ++ concat cs))) ltac:(lia) s' r ED) as (fuel2 & L2 & E2 & _).
    rewrite app_assoc. unfold ws_drive. rewrite E2.
    inversion DR as [st' rest l s0' ? T RT' LG Z|st' rest l l' ? ? T E LG D]; subst.
    + assert (BR : bytes_ok r) by (destruct T as (fs & ws & evs & ET & _); rewrite ET in BPC; apply bytes_ok_app in BPC; tauto).
      rewrite (IH st' r s0' s' RT' BR BC'). pose proof RT' as (F' & R' & C' & RS' & I' & MZ'). 
      assert (OK' : w_ok s' = true) by (rewrite (proj1 C'); apply F'). specialize (L2 OK'). destruct fuel2 as [|k2]; [lia|]. rewrite (drive_resume _ r (concat cs) s0' s' RS').
      unfold ws_drive. f_equal. apply (drive_fuel _ _ _ _ st'); try assumption; try lia. apply bytes_ok_app. split; [exact BR|]. clear -BC'. induction BC'; cbn [concat]; [constructor|apply bytes_ok_app; auto].
    + rewrite feed_dead by exact D. rewrite drive_dead by exact D. reflexivity.
Qed.
Lemma resting_init : Resting None [] ws_init ws_init.
Proof.
  split; [repeat split|]. split; [split; reflexivity|]. split; [apply core_refl|]. split; [intros more; reflexivity|]. split; [|reflexivity].
  apply incomplete_short. cbn. lia.
Qed.
Lemma feed_spec chunks : Forall bytes_ok chunks -> exists st rest l l',
  Told None (concat chunks) st rest l /\ Ends server has_close max thr st rest (w_ok (fst (feed ws_init [] chunks))) l' /\ rev (w_log (fst (feed ws_init [] chunks))) = l ++ l'.
Proof.
  intros B. rewrite (feed_drive chunks None [] ws_init ws_init resting_init (Forall_nil _) B). cbn [app].
  assert (BC : bytes_ok (concat chunks)) by (clear -B; induction B; cbn [concat]; [constructor|apply bytes_ok_app; auto]).
  pose proof (drive_spec (S (length (concat chunks))) (concat chunks) ws_init None ltac:(lia) BC) as DR. specialize (DR ltac:(repeat split) ltac:(split; reflexivity)). unfold ws_drive.
  destruct DR as [st' rest l s0' s' T RT' LG Z|st' rest l l' s' r T E LG D]; cbn [fst].
  - exists st', rest, l, []. split; [exact T|]. pose proof RT' as (F' & R' & C' & RS' & I' & MZ'). rewrite (proj1 C'), (proj1 F'). split; [apply en_running; exact I'|].
    rewrite LG. cbn. rewrite app_nil_r, rev_involutive, app_nil_r. reflexivity.
  - exists st', rest, l, l'. split; [exact T|]. rewrite D. split; [exact E|]. rewrite LG. cbn. rewrite app_nil_r, rev_involutive. reflexivity.
Qed.
End DRIVE.
