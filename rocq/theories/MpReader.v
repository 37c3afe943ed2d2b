(** The reader that builds the parts, and what a single feed delivers to it. *)
From Verif Require Import Base UtilModel Http1Model UtilSpec CookieSpec H2FieldSpec Http1Spec Http1Proofs RecvModel RecvSpec RecvInv RecvFrame CookieModel MpModel MpSpec MpAuto MpRefine MpRefine2 MpSafe.
Local Open Scope nat_scope.

(** octet by octet *)
Definition content_type_once (h : headers_map) : headers_map :=
  match find_header (str "Content-Type") h with
  | Some vs => set_value (str "Content-Type") (match vs with v :: _ => v | [] => [] end) h
  | None => h
  end.
Definition on_tok (r : rd) (t : tok) : option rd :=
  match t with
  | KBegin => let n := (r_count r + 1)%N in if (MAX_PARTS_COUNT <? n)%N then None else Some (mkR [] [] [] n (r_total r) (r_parts r))
  | KName c => let d := r_name r ++ [c] in if (MAX_HEADER_NAME_LENGTH <? len d)%N then None else Some (mkR (r_headers r) d (r_value r) (r_count r) (r_total r) (r_parts r))
  | KValue c => let d := r_value r ++ [c] in if (MAX_HEADER_VALUE_LENGTH <? len d)%N then None else Some (mkR (r_headers r) (r_name r) d (r_count r) (r_total r) (r_parts r))
  | KHeaderEnd => Some (mkR (add_value (r_name r) (r_value r) (r_headers r)) [] [] (r_count r) (r_total r) (r_parts r))
  | KHeadersEnd => Some (mkR [] [] [] (r_count r) (r_total r) (r_parts r ++ [mkP (content_type_once (r_headers r)) []]))
  | KData c => let t := (r_total r + 1)%N in if (MAX_TOTAL_SIZE <? t)%N then None else Some (mkR (r_headers r) (r_name r) (r_value r) (r_count r) t (append_body (r_parts r) [c]))
  | KPartEnd | KEnd => Some r
  end.
Fixpoint on_toks (r : rd) (ts : list tok) : option rd :=
  match ts with [] => Some r | t :: l => match on_tok r t with Some r' => on_toks r' l | None => None end end.
Lemma on_toks_app ts us : forall r, on_toks r (ts ++ us) = match on_toks r ts with Some r' => on_toks r' us | None => None end.
Proof. induction ts as [|t ts IH]; intros r; [reflexivity|]. cbn [app on_toks]. destruct (on_tok r t); auto. Qed.
Lemma len_nat (d : list N) : len d = N.of_nat (length d). Proof. reflexivity. Qed.
Lemma len_snoc (d : list N) c : len (d ++ [c]) = (len d + 1)%N. Proof. unfold len. rewrite app_length. cbn [length]. lia. Qed.
Lemma len_app (d e : list N) : len (d ++ e) = (len d + len e)%N. Proof. unfold len. rewrite app_length. lia. Qed.
Lemma names_toks d : forall r, (len (r_name r) <= MAX_HEADER_NAME_LENGTH)%N ->
  on_toks r (map KName d) = if (MAX_HEADER_NAME_LENGTH <? len (r_name r ++ d))%N then None else Some (mkR (r_headers r) (r_name r ++ d) (r_value r) (r_count r) (r_total r) (r_parts r)).
Proof.
  induction d as [|c d IH]; intros r HR; cbn [map on_toks].
  - rewrite app_nil_r. assert (E : (MAX_HEADER_NAME_LENGTH <? len (r_name r))%N = false) by (apply N.ltb_ge; lia). rewrite E. destruct r; reflexivity.
  - cbn [on_tok]. destruct (MAX_HEADER_NAME_LENGTH <? len (r_name r ++ [c]))%N eqn:E.
    + assert (E2 : (MAX_HEADER_NAME_LENGTH <? len (r_name r ++ c :: d))%N = true). { apply N.ltb_lt. apply N.ltb_lt in E. rewrite len_app in *. unfold len in *. cbn [length] in *. lia. } now rewrite E2.
    + apply N.ltb_ge in E. rewrite IH by exact E. cbn [r_name r_value r_headers r_count r_total r_parts]. rewrite <- app_assoc. reflexivity.
Qed.
Lemma values_toks d : forall r, (len (r_value r) <= MAX_HEADER_VALUE_LENGTH)%N ->
  on_toks r (map KValue d) = if (MAX_HEADER_VALUE_LENGTH <? len (r_value r ++ d))%N then None else Some (mkR (r_headers r) (r_name r) (r_value r ++ d) (r_count r) (r_total r) (r_parts r)).
Proof.
  induction d as [|c d IH]; intros r HR; cbn [map on_toks].
  - rewrite app_nil_r. assert (E : (MAX_HEADER_VALUE_LENGTH <? len (r_value r))%N = false) by (apply N.ltb_ge; lia). rewrite E. destruct r; reflexivity.
  - cbn [on_tok]. destruct (MAX_HEADER_VALUE_LENGTH <? len (r_value r ++ [c]))%N eqn:E.
    + assert (E2 : (MAX_HEADER_VALUE_LENGTH <? len (r_value r ++ c :: d))%N = true). { apply N.ltb_lt. apply N.ltb_lt in E. rewrite len_app in *. unfold len in *. cbn [length] in *. lia. } now rewrite E2.
    + apply N.ltb_ge in E. rewrite IH by exact E. cbn [r_name r_value r_headers r_count r_total r_parts]. rewrite <- app_assoc. reflexivity.
Qed.
Lemma append_twice ps d e : append_body (append_body ps d) e = append_body ps (d ++ e).
Proof.
  unfold append_body at 2 3. destruct (rev ps) as [|p l] eqn:E; [unfold append_body; now rewrite E|]. unfold append_body. rewrite rev_app_distr, rev_involutive. cbn [rev app p_headers p_body]. now rewrite <- app_assoc.
Qed.
Lemma append_nil ps : append_body ps [] = ps.
Proof. unfold append_body. destruct (rev ps) as [|p l] eqn:E; [reflexivity|]. rewrite app_nil_r. destruct p as [h d]. cbn [p_headers p_body]. rewrite <- (rev_involutive ps), E. reflexivity. Qed.
Lemma data_toks d : forall r, (r_total r <= MAX_TOTAL_SIZE)%N ->
  on_toks r (map KData d) = if (MAX_TOTAL_SIZE <? r_total r + len d)%N then None else Some (mkR (r_headers r) (r_name r) (r_value r) (r_count r) (r_total r + len d) (append_body (r_parts r) d)).
Proof.
  induction d as [|c d IH]; intros r HR; cbn [map on_toks].
  - change (len []) with 0%N. rewrite N.add_0_r, append_nil. assert (E : (MAX_TOTAL_SIZE <? r_total r)%N = false) by (apply N.ltb_ge; lia). rewrite E. destruct r; reflexivity.
  - cbn [on_tok]. assert (EL : len (c :: d) = (1 + len d)%N) by (unfold len; cbn [length]; lia). destruct (MAX_TOTAL_SIZE <? r_total r + 1)%N eqn:E.
    + assert (E2 : (MAX_TOTAL_SIZE <? r_total r + len (c :: d))%N = true). { apply N.ltb_lt. apply N.ltb_lt in E. rewrite EL. lia. } now rewrite E2.
    + apply N.ltb_ge in E. rewrite IH by exact E. cbn [r_name r_value r_headers r_count r_total r_parts]. rewrite EL, append_twice, N.add_assoc. reflexivity.
Qed.

(** whole names and values *)
Inductive fmode := FIdle | FNamed | FValued.
Fixpoint frag (m : fmode) (es : list mev) : option fmode :=
  match es with
  | [] => Some m
  | e :: l => match m, e with
      | FIdle, EField _ => frag FNamed l
      | FIdle, (EValue _ | EHeaderEnd) => None
      | FIdle, _ => frag FIdle l
      | FNamed, EValue _ => frag FValued l
      | FValued, EHeaderEnd => frag FIdle l
      | _, _ => None
      end
  end.
Lemma frag_app es fs : forall m, frag m (es ++ fs) = match frag m es with Some m' => frag m' fs | None => None end.
Proof. induction es as [|e es IH]; intros m; [reflexivity|]. cbn [app frag]. destruct m, e; auto. Qed.
Definition Reads (m : fmode) (r : rd) : Prop :=
  (r_total r <= MAX_TOTAL_SIZE)%N /\ match m with FIdle => r_name r = [] /\ r_value r = [] | FNamed => r_value r = [] | FValued => True end.
Lemma events_toks es : forall m r m', frag m es = Some m' -> Reads m r -> on_events r es = on_toks r (flat es).
Proof.
  induction es as [|e es IH]; intros m r m' E HR; [reflexivity|]. destruct HR as (HT & HR). cbn [on_events flat flat_map]. fold (flat es). rewrite on_toks_app. cbn [frag] in E.
  destruct m, e; try discriminate E; cbn [on_event flat1].
  - cbn [on_toks on_tok]. destruct (MAX_PARTS_COUNT <? r_count r + 1)%N; [reflexivity|]. eapply IH; [exact E|]. repeat split; auto.
  - destruct HR as (HN & HV). rewrite names_toks by (rewrite HN; cbv; discriminate). rewrite HN. cbn [app]. destruct (MAX_HEADER_NAME_LENGTH <? len b)%N; [reflexivity|]. eapply IH; [exact E|]. split; auto.
  - cbn [on_toks on_tok]. eapply IH; [exact E|]. repeat split; auto.
  - rewrite data_toks by exact HT. destruct (MAX_TOTAL_SIZE <? r_total r + len b)%N eqn:EM; [reflexivity|]. apply N.ltb_ge in EM. eapply IH; [exact E|]. split; auto.
  - cbn [on_toks on_tok]. eapply IH; [exact E|]. split; auto.
  - cbn [on_toks on_tok]. eapply IH; [exact E|]. split; auto.
  - rewrite values_toks by (rewrite HR; cbv; discriminate). rewrite HR. cbn [app]. destruct (MAX_HEADER_VALUE_LENGTH <? len b)%N; [reflexivity|]. eapply IH; [exact E|]. split; auto.
  - cbn [on_toks on_tok]. eapply IH; [exact E|]. split; [exact HT|split; reflexivity].
Qed.

(** a document's tokens *)
Definition rparts (p : dpart) : part := mkP (content_type_once (add_all (fst p) [])) (snd p).
Definition total (ps : list dpart) : N := fold_right (fun p a => len (snd p) + a)%N 0%N ps.
Definition SmallFields (fs : list (list N * list N)) : Prop := Forall (fun f => (len (fst f) <= 1024 /\ len (snd f) <= 8192)%N) fs.
Lemma field_toks f r : (len (fst f) <= 1024)%N -> (len (snd f) <= 8192)%N -> r_name r = [] -> r_value r = [] ->
  on_toks r (field_tokens f) = Some (mkR (add_value (fst f) (snd f) (r_headers r)) [] [] (r_count r) (r_total r) (r_parts r)).
Proof.
  intros H1 H2 H3 H4. unfold field_tokens. rewrite on_toks_app, names_toks by (rewrite H3; cbv; discriminate). rewrite H3. cbn [app]. assert (E1 : (MAX_HEADER_NAME_LENGTH <? len (fst f))%N = false) by now apply N.ltb_ge. rewrite E1.
  rewrite on_toks_app, values_toks by (cbn [r_value]; rewrite H4; cbv; discriminate). cbn [r_name r_value r_headers r_count r_total r_parts]. rewrite H4. cbn [app]. assert (E2 : (MAX_HEADER_VALUE_LENGTH <? len (snd f))%N = false) by now apply N.ltb_ge. rewrite E2. reflexivity.
Qed.
Lemma fields_toks fs : SmallFields fs -> forall r, r_name r = [] -> r_value r = [] ->
  on_toks r (flat_map field_tokens fs) = Some (mkR (add_all fs (r_headers r)) [] [] (r_count r) (r_total r) (r_parts r)).
Proof.
  induction 1 as [|f fs (H1 & H2) _ IH]; intros r HN HV; cbn [flat_map]; [cbn [on_toks add_all fold_left]; destruct r as [a0 b0 c0 d0 e0 f0]; cbn [MpModel.r_name MpModel.r_value] in HN, HV; subst; reflexivity|].
  rewrite on_toks_app, field_toks by auto. rewrite IH by reflexivity. cbn [r_headers r_count r_total r_parts]. reflexivity.
Qed.
Lemma append_last ps h d : append_body (ps ++ [mkP h []]) d = ps ++ [mkP h d].
Proof. unfold append_body. rewrite rev_app_distr. cbn [rev app]. now rewrite rev_involutive. Qed.
Lemma part_toks p r : SmallFields (fst p) -> (r_count r + 1 <= 1000)%N -> (r_total r + len (snd p) <= MAX_TOTAL_SIZE)%N ->
  on_toks r (part_tokens p) = Some (mkR [] [] [] (r_count r + 1) (r_total r + len (snd p)) (r_parts r ++ [rparts p])).
Proof.
  intros HF HC HT. unfold part_tokens. cbn [app on_toks on_tok]. assert (E1 : (MAX_PARTS_COUNT <? r_count r + 1)%N = false) by now apply N.ltb_ge. rewrite E1. rewrite on_toks_app, fields_toks by auto.
  cbn [r_headers r_count r_total r_parts on_toks on_tok]. rewrite on_toks_app, data_toks by (cbn [r_total]; lia). cbn [r_headers r_count r_total r_parts r_name r_value]. assert (E2 : (MAX_TOTAL_SIZE <? r_total r + len (snd p))%N = false) by now apply N.ltb_ge. rewrite E2.
  cbn [on_toks on_tok]. rewrite append_last. reflexivity.
Qed.
Lemma document_toks ps : Forall (fun p => SmallFields (fst p)) ps -> forall r, (r_count r + N.of_nat (length ps) <= 1000)%N -> (r_total r + total ps <= MAX_TOTAL_SIZE)%N ->
  exists r', on_toks r (document_tokens ps) = Some r' /\ r_parts r' = r_parts r ++ map rparts ps.
Proof.
  induction 1 as [|p ps HF _ IH]; intros r HC HT; unfold document_tokens; cbn [flat_map].
  - exists r. cbn [app on_toks on_tok map]. now rewrite app_nil_r.
  - cbn [length total fold_right] in *. fold (total ps) in HT. rewrite <- app_assoc, on_toks_app, part_toks by (auto; lia). destruct (IH (mkR [] [] [] (r_count r + 1) (r_total r + len (snd p)) (r_parts r ++ [rparts p]))) as (r' & E & EP); cbn [r_count r_total r_parts]; [lia|lia|].
    exists r'. split; [exact E|]. rewrite EP. cbn [r_parts map]. now rewrite <- app_assoc.
Qed.

(** one feed delivers names and values whole *)
Definition FInv (s : mp) (i : nat) : Prop :=
  frag FIdle (m_evs s) = Some (match m_state s with MValueStart | MValue => FNamed | _ => FIdle end) /\
  match m_state s with
  | MField => m_value s = None /\ exists m, m_field s = Some m /\ m + m_index s = i
  | MValue => m_field s = None /\ exists m, m_value s = Some m
  | _ => m_field s = None /\ m_value s = None
  end.
Definition FD (s : mp) : Prop :=
  frag FIdle (m_evs s) = Some FIdle /\ m_field s = None /\ m_value s = None /\ (m_state s = MData \/ m_state s = MEnd \/ m_state s = MFieldStart).
Lemma fd_inv s i : FD s -> FInv s i.
Proof. intros (H1 & H2 & H3 & H4). unfold FInv. destruct H4 as [H4|[H4|H4]]; rewrite H4; auto. Qed.
Lemma frag_snoc es e : frag FIdle es = Some FIdle -> frag FIdle [e] = Some FIdle -> frag FIdle (es ++ [e]) = Some FIdle.
Proof. intros H1 H2. rewrite frag_app, H1. exact H2. Qed.
Lemma tail_fd t prev i c s' i' : FD t -> part_tail t prev i c = Go s' i' -> FD s'.
Proof.
  intros (H1 & H2 & H3 & H4). unfold part_tail. destruct (0 <? m_index t); [destruct (length (m_look t) <=? m_index t - 1)|destruct (0 <? prev); [destruct (length (m_look t) <? prev)|]]; intros E; try discriminate E; injection E as <- <-; unfold FD; msg; auto.
  split; [apply frag_snoc; auto|]. auto.
Qed.
Ltac fd_ E := first [discriminate E | eapply tail_fd; [|exact E]; unfold FD; msg; refine (conj _ (conj _ (conj _ _))); auto; repeat (apply frag_snoc; [|reflexivity]); auto
  | injection E; intros; subst; unfold FD; msg; refine (conj _ (conj _ (conj _ _))); auto; repeat (apply frag_snoc; [|reflexivity]); auto].
Lemma data_fd b buf s i s' i' : FD s -> m_state s = MData -> part_data b buf s i = Go s' i' -> FD s'.
Proof.
  intros HD HS. pose proof HD as (H1 & H2 & H3 & H4). unfold part_data. destruct (if m_index s =? 0 then skip_ (S (length buf)) b buf i else Some i) as [i1|] eqn:ES; [|discriminate].
  destruct ((m_index s =? 0) && (i1 =? length buf)); [intros E; injection E as <- <-; exact HD|]. destruct (nth_error buf i1) as [c|] eqn:EC; [|discriminate]. cbn zeta.
  destruct (m_index s <? length b). { destruct (nth_error b (m_index s)) as [x|]; [|discriminate]. destruct (x =? c)%N; intros E; [|fd_ E]. destruct ((m_index s =? 0) && negb (range_ok (m_data s) i1)); [discriminate E|]. destruct (m_index s =? 0).
    - destruct (cut_same s EData (m_data s) buf i1 false) as (C1 & C2 & C3 & C4 & C5 & C6 & C7 & C8). eapply tail_fd; [|exact E]. unfold FD. msg. rewrite C1, C5, C6. refine (conj _ (conj H2 (conj H3 H4))).
      unfold cut. destruct (m_data s) as [m|]; [|exact H1]. destruct ((m =? i1) && negb false); [exact H1|]. msg. apply frag_snoc; auto.
    - fd_ E. }
  intros E. repeat pos1 E; fd_ E.
Qed.
Lemma turn_finv b buf s i s' i' : FInv s i -> turn_ b buf s i = Go s' i' -> FInv s' i'.
Proof.
  intros HI. pose proof HI as (H1 & H2). unfold turn_. destruct (nth_error buf i) as [c|]; [|discriminate].
  assert (HN : forall t, m_state t = MField -> frag FIdle (m_evs t) = Some FIdle -> m_value t = None -> (exists m, m_field t = Some m /\ m + m_index t = i) -> header_field buf t i c = Go s' i' -> FInv s' i').
  { intros t T1 T2 T3 (m & T4 & T5). unfold header_field. destruct (c =? 13)%N; [intros E; injection E as <- <-; unfold FInv; msg; auto|]. cbn zeta. msg. destruct (c =? 58)%N.
    - destruct (S (m_index t) =? 1) eqn:EZ; [discriminate|]. apply Nat.eqb_neq in EZ. destruct (negb (range_ok (m_field t) i)); [discriminate|]. intros E. injection E as <- <-. rewrite T4. unfold cut. assert (E1 : (m =? i) = false) by (apply Nat.eqb_neq; lia). rewrite E1. cbn [andb]. unfold FInv. msg.
      rewrite frag_app, T2. cbn [frag]. auto.
    - destruct (field_char c); [|discriminate]. intros E. injection E as <- <-. unfold FInv. msg. split; [exact T2|]. split; [exact T3|]. exists m. split; [exact T4|lia]. }
  assert (HV : forall t, m_state t = MValue -> frag FIdle (m_evs t) = Some FNamed -> m_field t = None -> (exists m, m_value t = Some m) -> header_value buf t i c = Go s' i' -> FInv s' i').
  { intros t T1 T2 T3 (m & T4). unfold header_value. destruct (c =? 13)%N; [|intros E; injection E as <- <-; unfold FInv; rewrite T1; eauto]. destruct (negb (range_ok (m_value t) i)); [discriminate|]. intros E. injection E as <- <-. rewrite T4. unfold cut. rewrite andb_false_r. unfold FInv. msg.
    rewrite !frag_app, T2. cbn [frag]. auto. }
  assert (HF : forall t, frag FIdle (m_evs t) = Some FIdle -> m_field t = None /\ m_value t = None -> first_boundary b t i c = Go s' i' -> FInv s' i').
  { intros t T1 T2 E. unfold first_boundary in E. repeat pos1 E; try discriminate E; injection E as <- <-; unfold FInv; msg; split; auto. rewrite frag_app, T1. reflexivity. }
  destruct (m_state s) eqn:ES.
  - apply HF; msg; auto.
  - apply HF; msg; auto.
  - apply HN; msg; auto; [apply H2|]. exists i. split; [reflexivity|lia].
  - apply HN; auto; apply H2.
  - destruct (c =? 32)%N; [intros E; injection E as <- <-; unfold FInv; rewrite ES; auto|]. apply HV; msg; auto; [apply H2|eauto].
  - apply HV; auto; apply H2.
  - destruct (c =? 10)%N; [|discriminate]. intros E. injection E as <- <-. unfold FInv. msg. auto.
  - destruct (c =? 10)%N; [|discriminate]. intros E. injection E as <- <-. unfold FInv. msg. split; [apply frag_snoc; auto|auto].
  - intros E. apply fd_inv. eapply data_fd; [| |exact E]; [|reflexivity]. unfold FD. msg. destruct H2. auto.
  - intros E. apply fd_inv. eapply data_fd; [| |exact E]; [|exact ES]. unfold FD. destruct H2. auto.
  - discriminate.
  - discriminate.
Qed.
Lemma at_end_fd s buf : frag FIdle (m_evs s) = Some FIdle -> m_field s = None -> m_value s = None -> frag FIdle (m_evs (at_end s buf)) = Some FIdle.
Proof.
  intros H1 H2 H3. unfold at_end. cbn zeta. rewrite H2. cbn [cut]. msg. rewrite H3. cbn [cut]. msg. unfold cut. destruct (m_data s) as [m|]; [|exact H1]. destruct ((m =? length buf) && negb false); [exact H1|]. msg. apply frag_snoc; auto.
Qed.
Lemma loop_whole b buf s0 : forall fuel s i s', FInv s i -> feed_loop fuel b buf s0 s i = Fed s' -> m_state s' = MEnd -> m_state s0 <> MEnd -> frag FIdle (m_evs s') = Some FIdle.
Proof.
  induction fuel as [|fuel IH]; intros s i s' HI E HE H0; [discriminate E|]. cbn [feed_loop] in E. destruct (i <? length buf).
  - destruct (turn_ b buf s i) as [t j|t|t|] eqn:ET; try discriminate E.
    + eapply IH; [eapply turn_finv; eassumption|exact E|exact HE|exact H0].
    + injection E as <-. unfold unsaved in HE. cbn [m_state] in HE. destruct (m_state t); congruence.
  - destruct (range_ok (m_field s) (length buf) && range_ok (m_value s) (length buf) && range_ok (m_data s) (length buf)); [|discriminate E]. injection E as <-.
    assert (ES : m_state s = MEnd). { rewrite <- HE. unfold at_end. cbn zeta. unfold cut. repeat match goal with |- context [match ?o with Some _ => _ | None => _ end] => destruct o | |- context [if ?x then _ else _] => destruct x end; reflexivity. }
    destruct HI as (H1 & H2). rewrite ES in H1, H2. destruct H2. now apply at_end_fd.
Qed.
Lemma feed_whole bd buf s' : BoundaryText bd -> feed (stored_boundary bd) (set_boundary bd) buf = Fed s' -> m_state s' = MEnd -> frag FIdle (m_evs s') = Some FIdle.
Proof.
  intros HB E HE. destruct (init_rel bd [] HB) as ((H1 & _ & _ & _ & H5) & HT). cbn [a_init u_state] in H1, H5. destruct H5 as (M1 & M2 & M3). destruct buf as [|c buf]. { unfold feed in E. rewrite H1 in E. injection E as <-. congruence. }
  unfold feed in E. rewrite H1 in E. eapply loop_whole; [|exact E|exact HE|congruence]. unfold FInv. rewrite H1, M1, M2. assert (HEv : m_evs (set_boundary bd) = []).
  { unfold set_boundary. destruct ((length bd =? 0) || (MAX_BOUNDARY_LENGTH <? length bd)); [reflexivity|]. destruct (existsb _ bd); reflexivity. }
  rewrite HEv. auto.
Qed.
