(** C107-C110: what the multipart reader refuses and what it never returns; the boundary parameter. *)
From Verif Require Import Base UtilModel Http1Model UtilSpec CookieSpec H2FieldSpec Http1Spec Http1Proofs UtilProofs RecvModel RecvSpec RecvInv RecvFrame CookieModel HdrModel HdrSpec HdrProofs HdrProps MpModel MpSpec MpAuto MpRefine MpRefine2 MpDoc MpSafe MpReader MpProps.
Local Open Scope nat_scope.

(** C107: one call, any bytes (Body::as<Multipart>) *)
Theorem one_feed_in_bounds bd x : exists s, feed (stored_boundary bd) (set_boundary bd) x = Fed s \/ (feed (stored_boundary bd) (set_boundary bd) x = FThrow s /\ m_state s = MError).
Proof. apply feed_in_bounds; [constructor|]. assert (HE : m_evs (set_boundary bd) = []) by (unfold set_boundary; destruct ((length bd =? 0) || (MAX_BOUNDARY_LENGTH <? length bd)); [reflexivity|]; destruct (existsb _ bd); reflexivity). rewrite HE. intros []. Qed.
(** feeding on after the end was announced can leave the buffer *)
Definition AlwaysInBounds : Prop := forall bd x y s, BoundaryText bd -> feed (stored_boundary bd) (set_boundary bd) x = Fed s -> feed (stored_boundary bd) s y <> FOob.
Definition after_end1 : list N := str "--b" ++ crlf ++ str "xxxxx" ++ crlf ++ str "--" ++ crlf.
Theorem always_in_bounds_refuted : ~ AlwaysInBounds.
Proof.
  intros H. assert (HB : BoundaryText (str "b")) by (split; [cbn; lia|repeat constructor; discriminate]).
  destruct (feed (stored_boundary (str "b")) (set_boundary (str "b")) after_end1) as [s| | |] eqn:E; try (vm_compute in E; discriminate E). apply (H (str "b") after_end1 (str "--b") s HB E). vm_compute in E. injection E as <-. vm_compute. reflexivity.
Qed.

(** C108 *)
Definition sized_fields (h : headers_map) : Prop := Forall (fun e => (N.of_nat (length (fst e)) <= 1024)%N /\ Forall (fun v => N.of_nat (length v) <= 8192)%N (snd e)) h.
Definition body_total_of (ps : list part) : N := body_total ps.
Definition RInv (r : rd) : Prop :=
  sized_fields (r_headers r) /\ (len (r_name r) <= 1024)%N /\ (len (r_value r) <= 8192)%N /\ Forall (fun p => sized_fields (p_headers p)) (r_parts r) /\ (body_total (r_parts r) <= r_total r)%N /\ (r_total r <= 104857600)%N /\ (r_count r <= 1000)%N.
Lemma sized_add k v h : (len k <= 1024)%N -> (len v <= 8192)%N -> sized_fields h -> sized_fields (add_value k v h).
Proof.
  intros HK HV. induction 1 as [|[k' vs] h [H1 H2] HF IH]; cbn [add_value]; [constructor; [split; [exact HK|constructor; [exact HV|constructor]]|constructor]|]. destruct (iequals k' k); constructor; auto. cbn [fst snd] in *. split; [exact H1|]. apply Forall_app. split; [exact H2|constructor; [exact HV|constructor]].
Qed.
Lemma sized_set k v h : (len k <= 1024)%N -> (len v <= 8192)%N -> sized_fields h -> sized_fields (set_value k v h).
Proof.
  intros HK HV. induction 1 as [|[k' vs] h [H1 H2] HF IH]; cbn [set_value]; [constructor; [split; [exact HK|constructor; [exact HV|constructor]]|constructor]|]. destruct (iequals k' k); constructor; auto. cbn [fst snd] in *. split; [exact H1|constructor; [exact HV|constructor]].
Qed.
Lemma sized_once h : sized_fields h -> sized_fields (content_type_once h).
Proof.
  intros H. unfold content_type_once. destruct (find_header (str "Content-Type") h) as [vs|] eqn:E; [|exact H]. apply sized_set; [cbv; discriminate| |exact H].
  unfold find_header in E. destruct (find _ h) as [e|] eqn:EF; [|discriminate E]. apply find_some in EF as [EF _]. unfold sized_fields in H. rewrite Forall_forall in H. destruct (H e EF) as [_ H2]. injection E as <-. destruct (snd e) as [|v l]; [cbv; discriminate|]. inversion H2; subst. assumption.
Qed.
Lemma total_app a b : body_total (a ++ b) = (body_total a + body_total b)%N.
Proof. induction a as [|p a IH]; [reflexivity|]. cbn [app body_total fold_right]. fold (body_total (a ++ b)). fold (body_total a). rewrite IH. lia. Qed.
Lemma append_spec ps d : Forall (fun p => sized_fields (p_headers p)) ps -> Forall (fun p => sized_fields (p_headers p)) (append_body ps d) /\ (body_total (append_body ps d) <= body_total ps + len d)%N /\ length (append_body ps d) = length ps.
Proof.
  intros H. unfold append_body. destruct (rev ps) as [|p l] eqn:E; [split; [exact H|split; [lia|reflexivity]]|]. assert (EP : ps = rev l ++ [p]) by (rewrite <- (rev_involutive ps), E; reflexivity). rewrite EP in *. apply Forall_app in H as [H1 H2]. inversion H2; subst.
  split; [apply Forall_app; split; [exact H1|constructor; [assumption|constructor]]|]. rewrite !total_app. cbn [body_total fold_right p_body]. rewrite !app_length. cbn [length]. unfold len. split; [lia|reflexivity].
Qed.
Lemma event_inv r e r' : RInv r -> on_event r e = Some r' -> RInv r'.
Proof.
  intros (I1 & I2 & I3 & I4 & I5 & I6 & I7) E. assert (I0 : sized_fields []) by constructor. assert (L0 : (len [] <= 1024)%N) by (cbv; discriminate). assert (L1 : (len [] <= 8192)%N) by (cbv; discriminate). destruct e; cbn [on_event] in E.
  - destruct (MAX_PARTS_COUNT <? r_count r + 1)%N eqn:EM; [discriminate E|]. injection E as <-. apply N.ltb_ge in EM. unfold MAX_PARTS_COUNT in EM. unfold RInv. cbn [r_headers r_name r_value r_count r_total r_parts]. repeat (split; [assumption|]). exact EM.
  - destruct (MAX_HEADER_NAME_LENGTH <? len b)%N eqn:EM; [discriminate E|]. injection E as <-. apply N.ltb_ge in EM. unfold RInv. cbn [r_headers r_name r_value r_count r_total r_parts]. repeat (split; [assumption|]). assumption.
  - destruct (MAX_HEADER_VALUE_LENGTH <? len b)%N eqn:EM; [discriminate E|]. injection E as <-. apply N.ltb_ge in EM. unfold RInv. cbn [r_headers r_name r_value r_count r_total r_parts]. repeat (split; [assumption|]). assumption.
  - injection E as <-. unfold RInv. cbn [r_headers r_name r_value r_count r_total r_parts]. split; [now apply sized_add|]. repeat (split; [assumption|]). assumption.
  - injection E as <-. fold (content_type_once (r_headers r)). unfold RInv. cbn [r_headers r_name r_value r_count r_total r_parts]. repeat (split; [assumption|]). split; [apply Forall_app; split; [exact I4|constructor; [now apply sized_once|constructor]]|]. rewrite total_app. cbn [body_total fold_right p_body length]. split; [lia|]. auto.
  - destruct (MAX_TOTAL_SIZE <? r_total r + len b)%N eqn:EM; [discriminate E|]. injection E as <-. apply N.ltb_ge in EM. unfold MAX_TOTAL_SIZE in EM. destruct (append_spec (r_parts r) b I4) as (A1 & A2 & _). unfold RInv. cbn [r_headers r_name r_value r_count r_total r_parts]. repeat (split; [assumption|]). split; [lia|]. split; [lia|assumption].
  - injection E as <-. unfold RInv. repeat (split; [assumption|]). assumption.
  - injection E as <-. unfold RInv. repeat (split; [assumption|]). assumption.
Qed.
Lemma events_inv es : forall r r', RInv r -> on_events r es = Some r' -> RInv r'.
Proof. induction es as [|e es IH]; intros r r' HI E; cbn [on_events] in E; [injection E as <-; exact HI|]. destruct (on_event r e) as [r1|] eqn:E1; [|discriminate E]. eapply IH; [eapply event_inv; eassumption|exact E]. Qed.

(** a part is opened before its headers end *)
Definition opened (es : list mev) : nat := length (filter (fun e => match e with EBegin => true | _ => false end) es).
Definition headed (es : list mev) : nat := length (filter (fun e => match e with EHeadersEnd => true | _ => false end) es).
Lemma opened_app a b : opened (a ++ b) = opened a + opened b. Proof. unfold opened. now rewrite filter_app, app_length. Qed.
Lemma headed_app a b : headed (a ++ b) = headed a + headed b. Proof. unfold headed. now rewrite filter_app, app_length. Qed.
Definition in_header (st : pst) : nat := match st with MFieldStart | MField | MValueStart | MValue | MValueAlmost | MHeadersAlmost => 1 | _ => 0 end.
Definition Bal (s : mp) : Prop := headed (m_evs s) + in_header (m_state s) <= opened (m_evs s).
Lemma cut_bal s mk mark buf i e : (forall b, opened [mk b] = 0 /\ headed [mk b] = 0) -> opened (m_evs (cut s mk mark buf i e)) = opened (m_evs s) /\ headed (m_evs (cut s mk mark buf i e)) = headed (m_evs s).
Proof. intros H. unfold cut. destruct mark as [m|]; auto. destruct ((m =? i) && negb e); auto. msg. rewrite opened_app, headed_app. destruct (H (sub_ buf m i)) as [-> ->]. lia. Qed.
Ltac bal := unfold Bal in *; msg; rewrite ?opened_app, ?headed_app; cbn [opened headed filter length in_header app] in *; try lia.
Lemma tail_bal t prev i c s' i' : Bal t -> part_tail t prev i c = Go s' i' -> Bal s'.
Proof. intros H. unfold part_tail. destruct (0 <? m_index t); [destruct (length (m_look t) <=? m_index t - 1)|destruct (0 <? prev); [destruct (length (m_look t) <? prev)|]]; intros E; try discriminate E; injection E as <- <-; bal. Qed.
Ltac bal_ E := first [discriminate E | eapply tail_bal; [|exact E]; bal | injection E; intros; subst; bal].
Lemma data_bal b buf s i s' i' : Bal s -> m_state s = MData -> part_data b buf s i = Go s' i' -> Bal s'.
Proof.
  intros HD HS. unfold part_data. destruct (if m_index s =? 0 then skip_ (S (length buf)) b buf i else Some i) as [i1|] eqn:ES; [|discriminate].
  destruct ((m_index s =? 0) && (i1 =? length buf)); [intros E; injection E as <- <-; exact HD|]. destruct (nth_error buf i1) as [c|] eqn:EC; [|discriminate]. cbn zeta.
  assert (HB : headed (m_evs s) <= opened (m_evs s)) by (unfold Bal in HD; rewrite HS in HD; cbn [in_header] in HD; lia).
  destruct (m_index s <? length b). { destruct (nth_error b (m_index s)) as [x|]; [|discriminate]. destruct (x =? c)%N; intros E; [|rewrite HS in E; bal_ E]. destruct ((m_index s =? 0) && negb (range_ok (m_data s) i1)); [discriminate E|]. destruct (m_index s =? 0).
    - destruct (cut_same s EData (m_data s) buf i1 false) as (C1 & _). destruct (cut_bal s EData (m_data s) buf i1 false ltac:(intros; split; reflexivity)) as (D1 & D2). eapply tail_bal; [|exact E]. unfold Bal. msg. rewrite C1, D1, D2, HS. cbn [in_header]. lia.
    - rewrite HS in E. bal_ E. }
  intros E. rewrite ?HS in E. repeat pos1 E; bal_ E.
Qed.
Lemma turn_bal b buf s i : Bal s -> match turn_ b buf s i with Go s' _ => Bal s' | Leave s' => headed (m_evs s') <= opened (m_evs s') | _ => True end.
Proof.
  intros HB. unfold turn_. destruct (nth_error buf i) as [c|]; [|exact I]. assert (HW : headed (m_evs s) <= opened (m_evs s)) by (unfold Bal in HB; lia).
  assert (HF : forall t, m_evs t = m_evs s -> match first_boundary b t i c with Go s' _ => Bal s' | Leave s' => headed (m_evs s') <= opened (m_evs s') | _ => True end).
  { intros t T. unfold first_boundary. destruct (m_index t =? length b - 2); [destruct (c =? 13)%N; bal; rewrite T; lia|]. destruct (m_index t - 1 =? length b - 2); [destruct (c =? 10)%N; bal; rewrite T; lia|]. destruct (nth_error b (m_index t + 2)) as [x|]; [|exact I]. destruct (c =? x)%N; bal; rewrite T; lia. }
  assert (HN : forall t, m_evs t = m_evs s -> headed (m_evs s) + 1 <= opened (m_evs s) -> match header_field buf t i c with Go s' _ => Bal s' | Leave s' => headed (m_evs s') <= opened (m_evs s') | _ => True end).
  { intros t T T2. unfold header_field. destruct (c =? 13)%N; [bal; rewrite T; lia|]. cbn zeta. msg. destruct (c =? 58)%N.
    - destruct (S (m_index t) =? 1); [bal; rewrite T; lia|]. destruct (negb (range_ok (m_field t) i)); [exact I|]. match goal with |- context [cut ?x EField ?p ?q ?r ?w] => destruct (cut_bal x EField p q r w ltac:(intros; split; reflexivity)) as (D1 & D2) end. unfold Bal. msg. rewrite D1, D2, T. cbn [in_header]. lia.
    - destruct (field_char c); bal; rewrite T; lia. }
  assert (HV : forall t, m_state t = MValue -> m_evs t = m_evs s -> headed (m_evs s) + 1 <= opened (m_evs s) -> match header_value buf t i c with Go s' _ => Bal s' | Leave s' => headed (m_evs s') <= opened (m_evs s') | _ => True end).
  { intros t T0 T T2. unfold header_value. destruct (c =? 13)%N; [|unfold Bal; rewrite T0, T; cbn [in_header]; lia]. destruct (negb (range_ok (m_value t) i)); [exact I|]. destruct (cut_bal t EValue (m_value t) buf i true ltac:(intros; split; reflexivity)) as (D1 & D2). bal. rewrite D1, D2, T. lia. }
  pose proof HB as HB'. unfold Bal in HB'. destruct (m_state s) eqn:ES; cbn [in_header] in HB'.
  - apply HF. reflexivity.
  - apply HF. reflexivity.
  - apply HN; auto.
  - apply HN; auto.
  - destruct (c =? 32)%N; [exact HB|]. apply HV; auto.
  - apply HV; auto.
  - destruct (c =? 10)%N; bal.
  - destruct (c =? 10)%N; bal.
  - match goal with |- context [part_data b buf ?t i] => set (t0 := t) end. assert (HT : Bal t0) by (unfold t0; bal). destruct (part_data b buf t0 i) as [s' i'|s'|s'|] eqn:E; auto; [eapply data_bal; [exact HT|reflexivity|exact E]|].
    exfalso. revert E. unfold part_data, part_tail. clear. cbn zeta. intros E. repeat (pos1 E; try discriminate E).
  - destruct (part_data b buf s i) as [s' i'|s'|s'|] eqn:E; auto; [eapply data_bal; [exact HB|exact ES|exact E]|]. exfalso. revert E. unfold part_data, part_tail. clear. cbn zeta. intros E. repeat (pos1 E; try discriminate E).
  - exact HW.
  - exact HW.
Qed.
Lemma at_end_bal s buf : opened (m_evs (at_end s buf)) = opened (m_evs s) /\ headed (m_evs (at_end s buf)) = headed (m_evs s).
Proof.
  unfold at_end. cbn zeta. msg. repeat match goal with |- context [cut ?x EData ?p ?q ?r ?w] => let D1 := fresh in let D2 := fresh in destruct (cut_bal x EData p q r w ltac:(intros; split; reflexivity)) as (D1 & D2); rewrite D1, D2; clear D1 D2; msg
  | |- context [cut ?x EValue ?p ?q ?r ?w] => let D1 := fresh in let D2 := fresh in destruct (cut_bal x EValue p q r w ltac:(intros; split; reflexivity)) as (D1 & D2); rewrite D1, D2; clear D1 D2; msg
  | |- context [cut ?x EField ?p ?q ?r ?w] => let D1 := fresh in let D2 := fresh in destruct (cut_bal x EField p q r w ltac:(intros; split; reflexivity)) as (D1 & D2); rewrite D1, D2; clear D1 D2; msg end. auto.
Qed.
Lemma loop_bal b buf s0 : forall fuel s i s', Bal s -> feed_loop fuel b buf s0 s i = Fed s' -> headed (m_evs s') <= opened (m_evs s').
Proof.
  induction fuel as [|fuel IH]; intros s i s' HB E; [discriminate E|]. cbn [feed_loop] in E. destruct (i <? length buf).
  - pose proof (turn_bal b buf s i HB) as HT. destruct (turn_ b buf s i) as [t j|t|t|]; try discriminate E; [eapply IH; eassumption|]. injection E as <-. exact HT.
  - destruct (range_ok (m_field s) (length buf) && range_ok (m_value s) (length buf) && range_ok (m_data s) (length buf)); [|discriminate E]. injection E as <-. destruct (at_end_bal s buf) as [-> ->]. unfold Bal in HB. lia.
Qed.
Lemma set_boundary_evs bd : m_evs (set_boundary bd) = [].
Proof. unfold set_boundary. destruct ((length bd =? 0) || (MAX_BOUNDARY_LENGTH <? length bd)); [reflexivity|]. destruct (existsb _ bd); reflexivity. Qed.
Lemma feed_bal bd buf s' : feed (stored_boundary bd) (set_boundary bd) buf = Fed s' -> headed (m_evs s') <= opened (m_evs s').
Proof.
  intros E. destruct (pst_eq_error (m_state (set_boundary bd))) as [HE|HE]. { rewrite feed_error in E by exact HE. injection E as <-. rewrite set_boundary_evs. auto. }
  assert (HS : m_state (set_boundary bd) = MStart). { unfold set_boundary in *. destruct ((length bd =? 0) || (MAX_BOUNDARY_LENGTH <? length bd)); [contradiction HE; reflexivity|]. destruct (existsb _ bd); [contradiction HE; reflexivity|reflexivity]. }
  unfold feed in E. rewrite HS in E. destruct buf as [|c buf]; [injection E as <-; rewrite set_boundary_evs; auto|]. eapply loop_bal; [|exact E]. unfold Bal. rewrite HS, set_boundary_evs. auto.
Qed.
Lemma events_count es : forall r r', on_events r es = Some r' -> length (r_parts r') = length (r_parts r) + headed es /\ (r_count r' = r_count r + N.of_nat (opened es))%N.
Proof.
  induction es as [|e es IH]; intros r r' E; cbn [on_events] in E; [injection E as <-; cbn; lia|]. destruct (on_event r e) as [r1|] eqn:E1; [|discriminate E]. apply IH in E as [E2 E3]. rewrite E2, E3. change (e :: es) with ([e] ++ es). rewrite opened_app, headed_app. clear - E1. destruct e; cbn [on_event] in E1; try discriminate E1.
  - destruct (MAX_PARTS_COUNT <? r_count r + 1)%N; [discriminate E1|]. injection E1 as <-. cbn [r_parts r_count opened headed filter length]. lia.
  - destruct (MAX_HEADER_NAME_LENGTH <? len b)%N; [discriminate E1|]. injection E1 as <-. cbn [r_parts r_count opened headed filter length]. lia.
  - destruct (MAX_HEADER_VALUE_LENGTH <? len b)%N; [discriminate E1|]. injection E1 as <-. cbn [r_parts r_count opened headed filter length]. lia.
  - injection E1 as <-. cbn [r_parts r_count opened headed filter length]. lia.
  - injection E1 as <-. cbn [r_parts r_count opened headed filter length]. rewrite app_length. cbn [length]. lia.
  - destruct (MAX_TOTAL_SIZE <? r_total r + len b)%N; [discriminate E1|]. injection E1 as <-. cbn [r_parts r_count opened headed filter length]. assert (HL : length (append_body (r_parts r) b) = length (r_parts r)).
    { unfold append_body. destruct (rev (r_parts r)) as [|p l] eqn:ER; [reflexivity|]. rewrite <- (rev_length (r_parts r)), ER, app_length, rev_length. cbn [length]. lia. } rewrite HL. lia.
  - injection E1 as <-. cbn [opened headed filter length]. lia.
  - injection E1 as <-. cbn [opened headed filter length]. lia.
Qed.
Theorem as_multipart_limits body bd ps : as_multipart body = Some (bd, ps) ->
  BoundaryText bd /\ (N.of_nat (length ps) <= 1000)%N /\ (body_total ps <= 104857600)%N /\
  Forall (fun p => Forall (fun f => N.of_nat (length (fst f)) <= 1024 /\ N.of_nat (length (snd f)) <= 8192)%N (fields_of (p_headers p))) ps.
Proof.
  unfold as_multipart. destruct (line_end body) as [pos|]; [|discriminate]. destruct (pos <=? 2); [discriminate|]. cbn zeta. set (b0 := firstn (pos - 2) (skipn 2 body)).
  destruct (feed (stored_boundary b0) (set_boundary b0) body) as [s| | |] eqn:EF; try discriminate. destruct (on_events (mkR [] [] [] 0 0 []) (m_evs s)) as [r|] eqn:EO; [|discriminate]. destruct (pst_eq_error (m_state s)) as [HE|HE]; [rewrite HE; discriminate|].
  intros E. assert (E' : Some (b0, r_parts r) = Some (bd, ps)) by (destruct (m_state s); auto; congruence). injection E' as <- <-. clear E.
  split. { destruct (set_boundary_cases b0) as [H|[H _]]; [|exact H]. rewrite feed_error in EF by exact H. injection EF as <-. contradiction. }
  assert (HI : RInv r). { eapply events_inv; [|exact EO]. unfold RInv. cbn [r_headers r_name r_value r_count r_total r_parts body_total fold_right]. repeat split; try constructor; try (cbv; discriminate). }
  destruct HI as (_ & _ & _ & I4 & I5 & I6 & I7). destruct (events_count _ _ _ EO) as [C1 C2]. cbn [r_parts r_count length] in C1, C2. pose proof (feed_bal b0 body s EF). split; [lia|]. split; [lia|].
  eapply Forall_impl; [|exact I4]. intros p HP. apply Forall_forall. intros f HF. unfold fields_of in HF. apply in_flat_map in HF as (e & HI & HF). apply in_map_iff in HF as (v & <- & HV). unfold sized_fields in HP. rewrite Forall_forall in HP. destruct (HP e HI) as [H1 H2]. rewrite Forall_forall in H2. cbn [fst snd]. split; [exact H1|auto].
Qed.

(** C109: what is not the first delimiter line, and what is not a header name, is an error that stays *)
Theorem error_stays bd s pieces : m_state s = MError -> feeds (stored_boundary bd) s pieces = Some s.
Proof. apply feeds_error. Qed.
Lemma start_state bd x : BoundaryText bd -> length x < length (stored_boundary bd) -> forall k a tt, k <= length x -> a_run (stored_boundary bd) a_init [] (firstn k x) = ANext a tt ->
  u_state a = MStart /\ k = 0 \/ u_state a = MStartBoundary /\ u_n a = k /\ 0 < k.
Proof.
  intros HB HX. destruct (good_boundary bd HB) as [HL _]. induction k as [|k IH]; intros a tt HK EA. { cbn in EA. injection EA as <- <-. left. auto. }
  rewrite firstn_S in EA by lia. rewrite a_run_app in EA. destruct (a_run (stored_boundary bd) a_init [] (firstn k x)) as [a0 t0| | |] eqn:E0; try discriminate EA. destruct (IH a0 t0 ltac:(lia) eq_refl) as [(S1 & S2)|(S1 & S2 & S3)].
  - subst k. cbn in E0. injection E0 as <- <-. cbn [a_run] in EA. unfold a_step in EA. cbn [a_init u_state] in EA. unfold a_first in EA. assert (Z1 : (0 =? length (stored_boundary bd) - 2) = false) by (apply Nat.eqb_neq; lia). assert (Z2 : (0 - 1 =? length (stored_boundary bd) - 2) = false) by (apply Nat.eqb_neq; lia). rewrite Z1, Z2 in EA.
    destruct (nth_error _ _); [|discriminate EA]. destruct (_ =? _)%N; [|discriminate EA]. injection EA as <- <-. right. cbn [u_state u_n]. auto.
  - cbn [a_run] in EA. unfold a_step in EA. rewrite S1 in EA. unfold a_first in EA. assert (Z2 : (u_n a0 - 1 =? length (stored_boundary bd) - 2) = false) by (apply Nat.eqb_neq; lia). rewrite Z2 in EA.
    destruct (u_n a0 =? length (stored_boundary bd) - 2). { destruct (_ =? _)%N; [|discriminate EA]. injection EA as <- <-. right. cbn [u_state u_n]. repeat split; auto; lia. }
    destruct (nth_error _ _); [|discriminate EA]. destruct (_ =? _)%N; [|discriminate EA]. injection EA as <- <-. right. cbn [u_state u_n]. repeat split; auto; lia.
Qed.
Theorem wrong_first_line bd text pieces : BoundaryText bd -> concat pieces = text ->
  (forall r, text <> str "--" ++ bd ++ crlf ++ r) -> (forall r, str "--" ++ bd ++ crlf <> text ++ r) ->
  exists s, feeds (stored_boundary bd) (set_boundary bd) pieces = Some s /\ m_state s = MError.
Proof.
  intros HB HC H1 H2. pose proof (feeds_run bd pieces HB) as HR. rewrite HC in HR. set (w := str "--" ++ bd ++ crlf) in *.
  (* the first octet that differs *)
  assert (HD : exists x c d r q, text = x ++ c :: r /\ w = x ++ d :: q /\ c <> d).
  { assert (H1' : forall r, text <> w ++ r) by (intros r; unfold w; rewrite <- !app_assoc; apply H1). clear - H1' H2. revert H1' H2. generalize w. clear w. induction text as [|c text IH]; intros w H1 H2; [exfalso; apply (H2 w); reflexivity|]. destruct w as [|d w]; [exfalso; apply (H1 (c :: text)); reflexivity|].
    destruct (N.eq_dec c d) as [->|HN]; [|exists [], c, d, text, w; auto]. destruct (IH w) as (x & c' & d' & r & q & -> & -> & HN). { intros r E. apply (H1 r). now rewrite E. } { intros r E. apply (H2 r). now rewrite E. } exists (d :: x), c', d', r, q. auto. }
  destruct HD as (x & c & d & r & q & ET & EW & HN). pose proof (run_start bd [] HB) as HS. fold w in HS. rewrite EW, a_run_app in HS. rewrite ET, a_run_app in HR. destruct (a_run (stored_boundary bd) a_init [] x) as [a ts| | |] eqn:EA; try discriminate HS.
  assert (HE : a_step (stored_boundary bd) a c = AErr).
  { cbn [a_run] in HS. destruct (a_step (stored_boundary bd) a d) as [a1 t1| | |] eqn:ED; try discriminate HS.
    assert (HST : u_state a = MStart \/ u_state a = MStartBoundary /\ u_n a = length x /\ 0 < length x).
    { assert (LW0 : length w = length (stored_boundary bd)) by (unfold w, stored_boundary; rewrite !app_length; cbn; lia). assert (HX0 : length x < length (stored_boundary bd)) by (rewrite <- LW0, EW, app_length; cbn [length]; lia).
      pose proof (start_state bd x HB HX0 (length x) a ts (Nat.le_refl _)) as HG. rewrite firstn_all in HG. destruct (HG EA) as [(S1 & _)|S1]; auto. }
    assert (LW : length w = length (stored_boundary bd)) by (unfold w, stored_boundary; rewrite !app_length; cbn; lia). assert (HX : length x < length w) by (rewrite EW, app_length; cbn [length]; lia).
    assert (HF : forall n, a_first (stored_boundary bd) a n d = ANext a1 t1 -> n < length (stored_boundary bd) -> a_first (stored_boundary bd) a n c = AErr).
    { intros n F1 F2. unfold a_first in *. destruct (n =? length (stored_boundary bd) - 2). { destruct (d =? 13)%N eqn:E1; [|discriminate F1]. apply N.eqb_eq in E1. assert (E2 : (c =? 13)%N = false) by (apply N.eqb_neq; congruence). now rewrite E2. }
      destruct (n - 1 =? length (stored_boundary bd) - 2). { destruct (d =? 10)%N eqn:E1; [|discriminate F1]. apply N.eqb_eq in E1. assert (E2 : (c =? 10)%N = false) by (apply N.eqb_neq; congruence). now rewrite E2. }
      destruct (nth_error (stored_boundary bd) (n + 2)) as [y|]; [|discriminate F1]. destruct (d =? y)%N eqn:E1; [|discriminate F1]. apply N.eqb_eq in E1. assert (E2 : (c =? y)%N = false) by (apply N.eqb_neq; congruence). now rewrite E2. }
    unfold a_step in *. destruct HST as [S1|(S1 & S2 & S3)]; rewrite S1 in *; apply HF; auto; lia. }
  cbn [a_run] in HR. rewrite HE in HR. exact HR.
Qed.

(** C110 *)
Lemma valid_iff bd : valid_boundary bd = true <-> ValidBoundary bd.
Proof.
  assert (HC : forall c, boundary_char c = true <-> Bchar c).
  { intros c. unfold boundary_char, Bchar. rewrite !orb_true_iff, !andb_true_iff, !N.leb_le, existsb_exists. split.
    - intros [[[H|H]|H]|(d & H & E)]; [left; lia|left; lia|left; lia|right]. apply N.eqb_eq in E. now subst.
    - intros [[H|[H|H]]|H]; auto. right. exists c. split; [exact H|apply N.eqb_refl]. }
  unfold valid_boundary, ValidBoundary, MAX_BOUNDARY_LENGTH. rewrite !andb_true_iff, !negb_true_iff, Nat.eqb_neq, Nat.leb_le, N.eqb_neq, forallb_forall, Forall_forall. split.
  - intros (((H1 & H2) & H3) & H4). split; [lia|]. split; [|exact H3]. intros c HI. apply HC. auto.
  - intros (H1 & H2 & H3). split; [split; [split; [lia|lia]|exact H3]|]. intros c HI. apply HC. auto.
Qed.
Definition FormDataType (ct : list N) : Prop := exists a m rest, Cut 59 ct a rest /\ Trimmed a m /\ SameName m (str "multipart/form-data").
Lemma form_iff ct : bytes_ok ct -> (iequals (trim_http_whitespace (before 59 ct)) (str "multipart/form-data") = true <-> FormDataType ct).
Proof.
  intros HB. assert (HT : bytes_ok (trim_http_whitespace (before 59 ct))). { pose proof (before_bytes 59 ct HB) as H. destruct (trim_spec (before 59 ct)) as (x & y & E & _). rewrite E in H. unfold bytes_ok in *. apply Forall_app in H as [_ H]. apply Forall_app in H as [H _]. exact H. }
  rewrite iequals_spec by (auto; repeat constructor). split.
  - intros E. exists (before 59 ct), (trim_http_whitespace (before 59 ct)), (after 59 ct). split; [apply cut_before|]. split; [apply trim_spec|exact E].
  - intros (a & m & rest & HC & HM & HS). apply cut_unique in HC as [-> _]. rewrite (Trimmed_det _ _ _ (trim_spec _) HM). exact HS.
Qed.
Theorem boundary_found ct bd : bytes_ok ct ->
  (parse_boundary ct = BOk bd <-> FormDataType ct /\ ValidBoundary bd /\ exists fs, AttributeList ct fs /\ First fs (str "boundary") bd).
Proof.
  intros HB. assert (HK : bytes_ok (str "boundary")) by (repeat constructor). unfold parse_boundary. pose proof (form_iff ct HB) as HF. destruct (iequals _ _); cbn [negb].
  2:{ split; [discriminate|]. intros (H & _). apply HF in H. discriminate H. }
  destruct (parse_header_attributes ct) as [d|] eqn:EP.
  - pose proof EP as EP2. apply parse_iff in EP2 as (fs & HA & _). pose proof (fun v => c91_lookup ct fs d (str "boundary") v HB HK HA EP) as HL. destruct (cookie_get d (str "boundary")) as [[|x v]|] eqn:EC.
    + split; [discriminate|]. intros (_ & HV & gs & HG & HFst). apply (c91_unambiguous ct gs fs _ _ HB HK HG HA) in HFst. apply HL in HFst. injection HFst as <-. destruct HV as [HV _]. cbn in HV. lia.
    + pose proof (valid_iff (x :: v)) as HV. destruct (valid_boundary (x :: v)).
      * split; [intros E; injection E as <-; split; [now apply HF|]; split; [now apply HV|]; exists fs; split; [exact HA|now apply HL]|]. intros (_ & _ & gs & HG & HFst). apply (c91_unambiguous ct gs fs _ _ HB HK HG HA) in HFst. apply HL in HFst. now injection HFst as <-.
      * split; [discriminate|]. intros (_ & HV2 & gs & HG & HFst). apply (c91_unambiguous ct gs fs _ _ HB HK HG HA) in HFst. apply HL in HFst. injection HFst as <-. apply HV in HV2. discriminate HV2.
    + split; [discriminate|]. intros (_ & _ & gs & HG & HFst). apply (c91_unambiguous ct gs fs _ _ HB HK HG HA) in HFst. apply HL in HFst. discriminate HFst.
  - split; [discriminate|]. intros (_ & _ & fs & HA & _). exfalso. apply (proj2 (c91_accepts ct)); eauto.
Qed.
(** absent: another type, or no boundary parameter, or an empty one *)
Theorem boundary_absent ct : bytes_ok ct ->
  (parse_boundary ct = BNone <-> ~ FormDataType ct \/ exists fs, AttributeList ct fs /\ forall v, First fs (str "boundary") v -> v = []).
Proof.
  intros HB. assert (HK : bytes_ok (str "boundary")) by (repeat constructor). unfold parse_boundary. pose proof (form_iff ct HB) as HF. destruct (iequals _ _); cbn [negb].
  2:{ split; [|reflexivity]. intros _. left. intros H. apply HF in H. discriminate H. }
  destruct (parse_header_attributes ct) as [d|] eqn:EP.
  - pose proof EP as EP2. apply parse_iff in EP2 as (fs & HA & _). pose proof (fun v => c91_lookup ct fs d (str "boundary") v HB HK HA EP) as HL. destruct (cookie_get d (str "boundary")) as [[|x v]|] eqn:EC.
    + split; [|reflexivity]. intros _. right. exists fs. split; [exact HA|]. intros v HV. apply HL in HV. now injection HV as <-.
    + split; [destruct (valid_boundary (x :: v)); discriminate|]. intros [H|(gs & HG & H)]; [exfalso; apply H; now apply HF|]. specialize (H (x :: v)). discriminate H. apply (c91_unambiguous ct gs fs _ _ HB HK HG HA). now apply HL.
    + split; [|reflexivity]. intros _. right. exists fs. split; [exact HA|]. intros v HV. apply HL in HV. discriminate HV.
  - split; [discriminate|]. intros [H|(gs & HG & H)]; [exfalso; apply H; now apply HF|]. exfalso. apply (proj2 (c91_accepts ct)); eauto.
Qed.
