(** C105-C110: multipart bodies. *)
From Verif Require Import Base UtilModel Http1Model UtilSpec CookieSpec H2FieldSpec Http1Spec Http1Proofs RecvModel RecvSpec RecvInv RecvFrame CookieModel HdrModel HdrProofs MpModel MpSpec MpAuto MpRefine MpRefine2 MpDoc MpSafe MpReader.
Local Open Scope nat_scope.

(** C105 *)
Theorem document_read bd ps text pieces : BoundaryText bd -> Document bd ps text -> concat pieces = text ->
  exists s, feeds (stored_boundary bd) (set_boundary bd) pieces = Some s /\ m_state s = MEnd /\ flat (m_evs s) = document_tokens ps.
Proof.
  intros HB HD HC. pose proof (feeds_run bd pieces HB) as HR. destruct (run_document bd ps text HB HD) as (a & HA & E). rewrite HC, E in HR. destruct HR as (s & E1 & E2 & E3). exists s. repeat split; auto. congruence.
Qed.
Theorem document_prefix_read bd ps t rest pieces : BoundaryText bd -> Document bd ps (t ++ rest) -> concat pieces = t ->
  exists s, feeds (stored_boundary bd) (set_boundary bd) pieces = Some s /\ m_state s <> MError /\ exists more, document_tokens ps = flat (m_evs s) ++ more.
Proof.
  intros HB HD HC. destruct (run_document bd ps _ HB HD) as (a & HA & E). rewrite a_run_app in E. pose proof (feeds_run bd pieces HB) as HR. rewrite HC in HR.
  destruct (a_run (stored_boundary bd) a_init [] t) as [a1 ts1| | |] eqn:E1; try discriminate E. destruct HR as (s & F1 & F2 & F3). exists s. split; [exact F1|]. rewrite a_run_toks in E. destruct (a_run (stored_boundary bd) a1 [] rest) as [a2 ts2| | |] eqn:E2; try discriminate E.
  injection E as E E'. split; [|exists ts2; rewrite F3; congruence]. rewrite F2. intros HX. destruct rest as [|c rest].
  - cbn [a_run] in E2. injection E2 as <- <-. congruence.
  - cbn [a_run] in E2. unfold a_step in E2. rewrite HX in E2. discriminate E2.
Qed.
Theorem cutting_is_invisible bd ps t rest p1 p2 : BoundaryText bd -> Document bd ps (t ++ rest) -> concat p1 = t -> concat p2 = t ->
  exists s1 s2, feeds (stored_boundary bd) (set_boundary bd) p1 = Some s1 /\ feeds (stored_boundary bd) (set_boundary bd) p2 = Some s2 /\ m_state s1 = m_state s2 /\ flat (m_evs s1) = flat (m_evs s2).
Proof.
  intros HB HD H1 H2. destruct (run_document bd ps _ HB HD) as (a & HA & E). rewrite a_run_app in E. pose proof (feeds_run bd p1 HB) as HR1. pose proof (feeds_run bd p2 HB) as HR2. rewrite H1 in HR1. rewrite H2 in HR2.
  destruct (a_run (stored_boundary bd) a_init [] t) as [a1 ts1| | |] eqn:E1; try discriminate E. destruct HR1 as (s1 & F1 & F2 & F3). destruct HR2 as (s2 & G1 & G2 & G3). exists s1, s2. repeat split; auto; congruence.
Qed.

(** C106 *)
Definition SamePart (p q : part) : Prop := p_body q = p_body p /\ forall n, values_of n (fields_of (p_headers q)) = values_of n (fields_of (p_headers p)).
Definition PlainPart (bd : list N) (p : part) : Prop :=
  HeaderMap (p_headers p) /\ Forall (fun f => hd 0%N (snd f) <> 32%N) (fields_of (p_headers p)) /\
  length (values_of (str "Content-Type") (fields_of (p_headers p))) <= 1 /\ ~ Contains (delimiter bd) (p_body p).
Definition body_total (ps : list part) : N := fold_right (fun p a => N.of_nat (length (p_body p)) + a)%N 0%N ps.
Lemma valid_text bd : valid_boundary bd = true -> BoundaryText bd.
Proof.
  unfold valid_boundary. rewrite !andb_true_iff. intros (((H1 & H2) & _) & H3). apply Nat.leb_le in H2. unfold MAX_BOUNDARY_LENGTH in H2. apply negb_true_iff, Nat.eqb_neq in H1. split; [lia|].
  rewrite forallb_forall in H3. apply Forall_forall. intros c HC. specialize (H3 c HC). unfold boundary_char in H3. rewrite !orb_true_iff, !andb_true_iff in H3. destruct H3 as [[[H3|H3]|H3]|H3]; try lia.
  apply existsb_exists in H3 as (d & HD & E). apply N.eqb_eq in E. subst d. cbn in HD. repeat destruct HD as [HD|HD]; try lia.
Qed.
Lemma line_end_app a c b : Forall (fun x => x <> 13 /\ x <> 10)%N a -> ((c =? 13) || (c =? 10))%N = true -> line_end (a ++ c :: b) = Some (length a).
Proof.
  intros HA HC. induction HA as [|x a [H1 H2] _ IH]; cbn [app line_end length]; [now rewrite HC|]. assert (E : ((x =? 13) || (x =? 10))%N = false) by (apply orb_false_iff; split; apply N.eqb_neq; auto). rewrite E, IH. reflexivity.
Qed.
Definition dpart_of (p : part) : dpart := (fields_of (p_headers p), p_body p).
Lemma lines_app fs gs x y : MLines fs x -> MLines gs y -> MLines (fs ++ gs) (x ++ y).
Proof. induction 1 as [|f fs a b HL _ IH]; intros HY; [exact HY|]. cbn [app]. rewrite <- app_assoc. constructor; auto. Qed.
Lemma part_lines p : part_ok p = true -> Forall (fun f => hd 0%N (snd f) <> 32%N) (fields_of (p_headers p)) ->
  MLines (fields_of (p_headers p)) (flat_map (fun e => flat_map (fun v => fst e ++ str ": " ++ v ++ endl) (snd e)) (p_headers p)).
Proof.
  unfold part_ok. induction (p_headers p) as [|[k vs] h IH]; intros HO HF; [constructor|]. cbn [forallb flat_map fst snd] in *. apply andb_true_iff in HO as [HO1 HO2]. apply andb_true_iff in HO1 as [HK HV].
  change (fields_of ((k, vs) :: h)) with (map (fun v => (k, v)) vs ++ fields_of h) in *. apply Forall_app in HF as [HF1 HF2]. apply lines_app; [|now apply IH]. clear IH HO2 HF2.
  unfold mp_name_ok in HK. rewrite !andb_true_iff in HK. destruct HK as ((HK1 & _) & HK3). apply negb_true_iff, Nat.eqb_neq in HK1.
  induction vs as [|v vs IH]; [constructor|]. cbn [map flat_map forallb] in *. apply andb_true_iff in HV as [HV1 HV2]. inversion HF1; subst. constructor; [|now apply IH]. cbn [fst snd] in *.
  split; [cbn [fst]; intros E; rewrite E in HK1; cbn in HK1; lia|]. split; [apply Forall_forall; intros c HC; apply name_char_iff; rewrite forallb_forall in HK3; auto|]. split.
  - unfold mp_value_ok in HV1. apply andb_true_iff in HV1 as [_ HV1]. intros HI. rewrite forallb_forall in HV1. specialize (HV1 _ HI). discriminate HV1.
  - split; [assumption|]. exists 1. reflexivity.
Qed.
Lemma put_parts bd : forall ps, ps <> [] -> Forall (fun p => part_ok p = true /\ Forall (fun f => hd 0%N (snd f) <> 32%N) (fields_of (p_headers p)) /\ ~ Contains (delimiter bd) (p_body p)) ps ->
  exists r, flat_map (put_part bd) ps ++ str "--" ++ bd ++ str "--" = str "--" ++ bd ++ r /\ Parts bd (map dpart_of ps) r.
Proof.
  induction ps as [|p ps IH]; intros HN HF; [congruence|]. inversion HF as [|? ? (HO & HS & HD) HF']; subst. cbn [flat_map map]. pose proof (part_lines p HO HS) as HL. set (h := flat_map _ (p_headers p)) in HL.
  destruct ps as [|q ps].
  - exists (crlf ++ h ++ crlf ++ p_body p ++ delimiter bd ++ str "--"). split; [|now constructor]. cbn [flat_map]. unfold put_part, delimiter. fold h. rewrite <- !app_assoc. reflexivity.
  - destruct (IH ltac:(discriminate) HF') as (r & E & HP). exists (crlf ++ h ++ crlf ++ p_body p ++ delimiter bd ++ r). split; [|now apply (parts_more bd (fields_of (p_headers p)) (p_body p))].
    rewrite <- app_assoc, E. unfold put_part, delimiter. fold h. rewrite <- !app_assoc. reflexivity.
Qed.
Lemma set_same k v : forall h, find_header k h = Some [v] -> set_value k v h = h.
Proof.
  unfold find_header. induction h as [|[k' vs] h IH]; cbn [find set_value fst]; [discriminate|]. destruct (iequals k' k); cbn [snd]; [intros E; injection E as ->; reflexivity|]. intros E. now rewrite IH.
Qed.
Lemma rparts_same bd p : PlainPart bd p -> SamePart p (rparts (dpart_of p)).
Proof.
  intros (HM & _ & HC & _). unfold SamePart, rparts, dpart_of. cbn [p_body p_headers fst snd]. split; [reflexivity|]. assert (HB : Forall (fun f => bytes_ok (fst f) /\ bytes_ok (snd f)) (fields_of (p_headers p))).
  { clear HC. destruct HM as [HM _]. induction HM as [|[k vs] h (H1 & _ & H2) _ IH]; [constructor|]. change (fields_of ((k, vs) :: h)) with (map (fun v => (k, v)) vs ++ fields_of h). apply Forall_app. split; [|exact IH]. apply Forall_forall. intros f HF. apply in_map_iff in HF as (v & <- & HV). cbn [fst snd] in *. split; [exact H1|]. rewrite Forall_forall in H2. auto. }
  destruct (add_all_values (fields_of (p_headers p)) [] HB) as [HM' HV]. { split; [constructor|constructor]. }
  assert (HE : content_type_once (add_all (fields_of (p_headers p)) []) = add_all (fields_of (p_headers p)) []).
  { unfold content_type_once. pose proof (find_header_values (str "Content-Type") (add_all (fields_of (p_headers p)) []) ltac:(repeat constructor) HM') as HF. destruct (find_header (str "Content-Type") _) as [vs|] eqn:EF; [|reflexivity]. destruct HF as [HF1 HF2].
    rewrite HV in HF1. change (fields_of []) with (@nil field) in HF1. cbn [values_of filter map app] in HF1. change (values_of (str "Content-Type") []) with (@nil (list N)) in HF1. cbn [app] in HF1. rewrite HF1 in HC.
    destruct vs as [|v [|v2 vs]]; [congruence| |cbn [length] in HC; lia]. now apply set_same. }
  rewrite HE. intros n. rewrite HV. reflexivity.
Qed.
Lemma total_of ps : total (map dpart_of ps) = body_total ps.
Proof. induction ps as [|p ps IH]; [reflexivity|]. cbn [map total body_total fold_right dpart_of snd]. fold (total (map dpart_of ps)). fold (body_total ps). rewrite IH. reflexivity. Qed.
Lemma small_fields p : part_ok p = true -> SmallFields (fields_of (p_headers p)).
Proof.
  unfold part_ok. induction (p_headers p) as [|[k vs] h IH]; intros HO; [constructor|]. cbn [forallb fst snd] in HO. apply andb_true_iff in HO as [HO1 HO2]. apply andb_true_iff in HO1 as [HK HV]. unfold SmallFields. change (fields_of ((k, vs) :: h)) with (map (fun v => (k, v)) vs ++ fields_of h).
  apply Forall_app. split; [|now apply IH]. apply Forall_forall. intros f HF. apply in_map_iff in HF as (v & <- & HI). cbn [fst snd]. rewrite forallb_forall in HV. specialize (HV v HI). unfold mp_name_ok in HK. unfold mp_value_ok in HV. rewrite !andb_true_iff in *. destruct HK as ((_ & HK) & _). destruct HV as (HV & _).
  apply N.leb_le in HK, HV. split; [exact HK|exact HV].
Qed.
Theorem put_then_read bd ps text : put_multipart bd ps = Some text -> ps <> [] -> Forall (PlainPart bd) ps -> (N.of_nat (length ps) <= 1000)%N -> (body_total ps <= 104857600)%N ->
  exists qs, as_multipart text = Some (bd, qs) /\ Forall2 SamePart ps qs.
Proof.
  intros HP HN HF HC HT. unfold put_multipart in HP. destruct (valid_boundary bd && forallb part_ok ps) eqn:EV; [|discriminate HP]. assert (HP' : flat_map (put_part bd) ps ++ str "--" ++ bd ++ str "--" = text) by congruence. clear HP. rename HP' into HP. apply andb_true_iff in EV as [EV EO]. pose proof (valid_text bd EV) as HB. rewrite forallb_forall in EO.
  destruct (put_parts bd ps HN) as (r & Er & HPs). { apply Forall_forall. intros p HI. rewrite Forall_forall in HF. destruct (HF p HI) as (_ & F2 & _ & F4). auto. }
  assert (HD : Document bd (map dpart_of ps) text) by (exists r; split; [rewrite <- HP; exact Er|exact HPs]). assert (HR : exists r', r = crlf ++ r') by (destruct HPs; eauto). destruct HR as (r' & HR).
  assert (HL : line_end text = Some (2 + length bd)). { rewrite <- HP, Er, HR, app_assoc. change (crlf ++ r') with (13%N :: 10%N :: r'). rewrite line_end_app; [now rewrite app_length| |reflexivity]. apply Forall_app. split; [repeat constructor; discriminate|]. destruct HB as [_ HB]. eapply Forall_impl; [|exact HB]. intros c [H1 _]. lia. }
  unfold as_multipart. rewrite HL. destruct HB as [HB1 HB2]. assert (E2 : (2 + length bd <=? 2) = false) by (apply Nat.leb_gt; lia). rewrite E2. assert (HB : BoundaryText bd) by (split; auto).
  assert (E3 : firstn (2 + length bd - 2) (skipn 2 text) = bd). { rewrite <- HP, Er. change (skipn 2 (str "--" ++ bd ++ r)) with (bd ++ r). replace (2 + length bd - 2) with (length bd) by lia. rewrite firstn_app, Nat.sub_diag, firstn_all, firstn_O. apply app_nil_r. }
  cbn zeta. rewrite E3. destruct (document_read bd (map dpart_of ps) text [text] HB HD (app_nil_r _)) as (s & F1 & F2 & F3). cbn [feeds] in F1. destruct (feed (stored_boundary bd) (set_boundary bd) text) as [s1| | |] eqn:EF; try discriminate F1. injection F1 as ->.
  pose proof (feed_whole bd text s HB EF F2) as HW. rewrite (events_toks (m_evs s) FIdle _ _ HW) by (split; [cbv; discriminate|split; reflexivity]). rewrite F3.
  destruct (document_toks (map dpart_of ps)) with (r := mkR [] [] [] 0 0 []) as (rr & G1 & G2). { apply Forall_forall. intros d HI. apply in_map_iff in HI as (p & <- & HI). apply small_fields. auto. } { cbn [r_count]. rewrite map_length. lia. } { cbn [r_total]. rewrite total_of. exact HT. }
  rewrite G1, F2, G2. cbn [r_parts app]. exists (map rparts (map dpart_of ps)). split; [reflexivity|]. rewrite map_map. clear - HF. induction HF as [|p ps HP _ IH]; cbn [map]; constructor; auto. eapply rparts_same. exact HP.
Qed.
Lemma sum_len {A} (f : A -> list N) (g : A -> nat) l : (forall x, length (f x) = g x) -> length (flat_map f l) = list_sum (map g l).
Proof. intros H. induction l as [|x l IH]; [reflexivity|]. cbn [flat_map map]. rewrite app_length, H, IH. reflexivity. Qed.
Theorem length_announced bd ps text : put_multipart bd ps = Some text -> length text = content_length_of bd ps.
Proof.
  unfold put_multipart. destruct (valid_boundary bd && forallb part_ok ps); [|discriminate]. intros E. assert (E' : flat_map (put_part bd) ps ++ str "--" ++ bd ++ str "--" = text) by congruence. rewrite <- E'. clear E E'. unfold content_length_of. rewrite app_length. f_equal.
  - apply sum_len. intros p. unfold put_part, part_size. rewrite !app_length. rewrite (sum_len _ (fun e => list_sum (map (fun v => length (fst e) + length v + 3 + 1) (snd e)))); [change (length endl) with 2; change (length (str "--")) with 2; lia|].
    intros e. apply sum_len. intros v. rewrite !app_length. change (length endl) with 2. change (length (str ": ")) with 2. lia.
  - rewrite (app_length (str "--")), app_length. change (length (str "--")) with 2. lia.
Qed.
