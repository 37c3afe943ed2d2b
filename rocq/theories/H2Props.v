(** HTTP/2 frame layer: the property theorems (C20-C24, C30, C31). *)
From Verif Require Import Base H2Model H2Spec H2Proofs H2FramerProofs.
Local Open Scope N_scope.

(** ** C20: the nine-octet header *)
Theorem frame_header_layout h : hdr_ok h ->
  HeaderLayout (hdr_bytes h) (get_payload_length h) (h_type h) (h_flags h) (get_stream_id h) /\
  hdr_of_bytes (hdr_bytes h) = Some h.
Proof.
  intros H. split; [|apply hdr_of_bytes_id]. exists [h_l0 h; h_l1 h; h_l2 h], [h_s0 h; h_s1 h; h_s2 h; h_s3 h].
  split; [reflexivity|]. split; [reflexivity|]. split; [reflexivity|]. split; [symmetry; now apply get_payload_length_val|].
  symmetry. now apply get_stream_id_val.
Qed.

Theorem frame_header_write ty fl len sid : ty < 256 -> fl < 256 -> len < 2 ^ 24 -> sid < 2 ^ 31 ->
  let h := set_payload_length (set_stream_id (mk_hdr 0 0 0 ty fl 0 0 0 0) sid) len in
  HeaderLayout (hdr_bytes h) len ty fl sid /\ get_payload_length h = len /\ get_stream_id h = sid /\ h_s0 h < 128.
Proof.
  intros Ht Hf Hl Hs h.
  assert (Hok : hdr_ok h).
  { apply set_payload_length_ok, set_stream_id_ok. unfold hdr_ok, hdr_bytes, bytes_ok; cbn. repeat constructor; auto. }
  assert (El : get_payload_length h = len) by (apply get_set_payload_length; auto).
  assert (Es : get_stream_id h = sid) by (unfold h; rewrite get_stream_id_set_length; apply get_set_stream_id; auto).
  destruct (frame_header_layout h Hok) as [L _]. rewrite El, Es in L. split; [exact L|]. split; [exact El|]. split; [exact Es|].
  cbn [h h_s0 set_payload_length set_stream_id]. change 127 with (N.ones 7). rewrite N.land_ones. apply N.mod_lt. discriminate.
Qed.

(** Whatever identifier the caller passes, the reserved bit is written as zero and never read. *)
Theorem frame_header_reserved_bit h sid :
  h_s0 (set_stream_id h sid) < 128 /\ get_stream_id (set_stream_id h sid) = sid mod 2 ^ 31.
Proof.
  split.
  - cbn [h_s0 set_stream_id]. change 127 with (N.ones 7). rewrite N.land_ones. apply N.mod_lt. discriminate.
  - rewrite <- (get_set_stream_id h (sid mod 2 ^ 31)) by (apply N.mod_lt; discriminate).
    f_equal. unfold set_stream_id, octet. rewrite <- (N.land_ones sid 31).
    change 255 with (N.ones 8). change 127 with (N.ones 7).
    f_equal; apply N.bits_inj; intro k;
      rewrite ?N.land_spec, ?N.shiftr_spec', ?N.land_spec;
      match goal with |- context [N.testbit (N.ones 31) ?i] => destruct (N.lt_ge_cases i 31) as [L|L];
        [rewrite (N.ones_spec_low 31 i) by exact L; rewrite andb_true_r; reflexivity|] end;
      first [ rewrite (N.ones_spec_high 8 k) by lia; rewrite !andb_false_r; reflexivity
            | rewrite (N.ones_spec_high 7 k) by lia; rewrite !andb_false_r; reflexivity ].
Qed.

(** ** C22: payload parsing is exact, total and in bounds *)
Theorem payload_parse_exact h l : bytes_ok l -> l <> [] -> N.of_nat (length l) < 2 ^ 32 -> known_type (h_type h) ->
  (forall p, parse_payload h l = Some (POk p) <-> PayloadOf (h_type h) (h_flags h) l p) /\
  ((forall p, ~ PayloadOf (h_type h) (h_flags h) l p) <-> exists e, parse_payload h l = Some (PErr e)) /\
  (forall e, parse_payload h l = Some (PErr e) ->
     ProtocolMalformed (h_type h) (h_flags h) l /\ e = 1 \/ ~ ProtocolMalformed (h_type h) (h_flags h) l /\ e = 6).
Proof.
  intros Hb Hne HL Hk. destruct (parse_payload_exact h l Hb Hne HL Hk) as (r & -> & [(p & -> & HP & Hu & _)|(e & -> & Hno & He)]).
  - split; [|split].
    + intros p'. split; [intros E; injection E as <-; auto|]. intros HP'. now rewrite (Hu _ HP').
    + split; [intros H; exfalso; eapply H; eauto|]. intros [e E]. discriminate.
    + discriminate.
  - split; [|split].
    + intros p'. split; [discriminate|]. intros HP'. exfalso. eapply Hno; eauto.
    + split; eauto.
    + intros e' E. injection E as <-. tauto.
Qed.

(** An unknown frame type is ignored, whatever it carries. *)
Theorem unknown_type_ignored h l : ~ known_type (h_type h) -> parse_payload h l = None /\ parse_zero h = None.
Proof. apply parse_payload_unknown. Qed.

(** An empty payload is treated the same way as long as the flags do not announce fields in it ... *)
Theorem empty_payload_exact_partial h : known_type (h_type h) -> ~ padded (h_flags h) -> ~ priority (h_flags h) ->
  (forall p, parse_zero h = Some (POk p) <-> PayloadOf (h_type h) (h_flags h) [] p) /\
  ((forall p, ~ PayloadOf (h_type h) (h_flags h) [] p) <-> parse_zero h = Some (PErr 6)).
Proof.
  intros Hk Hp Hq. assert (Hnp : forall d n, Padded (h_flags h) [] d n <-> d = [] /\ n = 0).
  { intros d n. split; [intros X; inversion X; auto|]. intros [-> ->]. now constructor. }
  assert (Hpl : forall p, ~ PrioLayout [] p) by (intros p X; apply PrioLayout_len in X; discriminate).
  assert (Hsl : forall es, SettingsLayout [] es <-> es = []).
  { intros es. split; [|intros ->; constructor]. intros X. apply SettingsLayout_len in X. destruct es; [auto|discriminate]. }
  unfold parse_zero, T_SETTINGS, T_PING, T_HEADERS, T_DATA, T_PRIORITY, T_RST_STREAM, T_GOAWAY, T_WINDOW_UPDATE, T_PUSH_PROMISE, T_CONTINUATION.
  set (fl := h_flags h) in *. clearbody fl. unfold known_type in Hk. revert Hk. generalize (h_type h). intros t Hk.
  assert (Hc : t = 0 \/ t = 1 \/ t = 2 \/ t = 3 \/ t = 4 \/ t = 5 \/ t = 6 \/ t = 7 \/ t = 8 \/ t = 9) by lia.
  assert (OK : forall q, (forall p, PayloadOf t fl [] p <-> p = q) ->
     (forall p, Some (POk q) = Some (POk p) <-> PayloadOf t fl [] p) /\ ((forall p, ~ PayloadOf t fl [] p) <-> Some (POk q) = Some (PErr 6))).
  { intros q Hq'. split; [intros p; rewrite Hq'; split; congruence|]. split; [|discriminate]. intros H. exfalso. apply (H q), Hq'. auto. }
  assert (NO : (forall p, ~ PayloadOf t fl [] p) ->
     (forall p, Some (PErr 6) = Some (POk p) <-> PayloadOf t fl [] p) /\ ((forall p, ~ PayloadOf t fl [] p) <-> Some (PErr 6) = Some (PErr 6))).
  { intros H. split; [intros p; split; [discriminate|intros X; exfalso; eapply H; eauto]|]. tauto. }
  destruct Hc as [->|[->|[->|[->|[->|[->|[->|[->|[->| ->]]]]]]]]]; cbn.
  - apply OK. intros p. split; [intros X; inversion X; subst; match goal with Y : Padded _ _ _ _ |- _ => apply Hnp in Y as [-> ->] end; auto|].
    intros ->. constructor. now apply Hnp.
  - apply OK. intros p. split.
    + intros X. inversion X; subst; [|tauto]. match goal with Y : Padded _ _ _ _ |- _ => apply Hnp in Y as [-> ->] end. auto.
    + intros ->. econstructor; auto. apply Hnp. split; reflexivity.
  - apply NO. intros p X. inversion X; subst. eapply Hpl; eauto.
  - apply NO. intros p X. inversion X; subst. discriminate.
  - apply OK. intros p. split.
    + intros X. inversion X; subst; [|auto]. f_equal. now apply Hsl.
    + intros ->. destruct (N.testbit fl 0) eqn:E; [now apply po_settings_ack|]. apply po_settings; [unfold ack; congruence|constructor].
  - apply NO. intros p X. inversion X; subst. match goal with Y : Padded _ _ _ _ |- _ => apply Hnp in Y as [Y _]; apply app_eq_nil in Y as [-> _] end. discriminate.
  - apply NO. intros p X. inversion X; subst. discriminate.
  - apply NO. intros p X. inversion X as [| | | | | | | | |fl' lb cb dbg La Lc E1 E2 E Ep| |]. apply app_eq_nil in E as [-> _]. discriminate.
  - apply NO. intros p X. inversion X; subst. discriminate.
  - apply OK. intros p. split; [intros X; inversion X; auto|]. intros ->. constructor.
Qed.

(** ... but an empty DATA or HEADERS frame with PADDED set (no Pad Length octet: FRAME_SIZE_ERROR by
    RFC 9113 6.1/6.2) is accepted. *)
Theorem empty_padded_frame_accepted_refuted : exists h, known_type (h_type h) /\
  (forall p, ~ PayloadOf (h_type h) (h_flags h) [] p) /\ exists p, parse_zero h = Some (POk p).
Proof.
  exists (mk_hdr 0 0 0 0 8 0 0 0 1). split; [discriminate|]. split.
  - intros p X. inversion X; subst. match goal with Y : Padded _ _ _ _ |- _ => inversion Y as [|? Hp]; subst end. apply Hp. reflexivity.
  - eexists. reflexivity.
Qed.

(** DATA: the delivered octets plus the padding (with its length octet) are the whole payload. *)
Theorem data_accounts_for_payload h l d n : bytes_ok l -> l <> [] -> N.of_nat (length l) < 2 ^ 32 -> h_type h = 0 ->
  parse_payload h l = Some (POk (PData d n)) -> N.of_nat (length d) + n = N.of_nat (length l).
Proof.
  intros Hb Hne HL Ht E. destruct (payload_parse_exact h l Hb Hne HL) as [H _]; [unfold known_type; lia|].
  apply H in E. rewrite Ht in E. inversion E; subst. match goal with Y : Padded _ _ _ _ |- _ => inversion Y; subst end; [|lia].
  cbn [length]. rewrite app_length. lia.
Qed.

(** Any octets, any side protocol: the framer never reads outside a payload. *)
Theorem framer_in_bounds S on (s : S) our_max bytes : bytes_ok bytes ->
  exists r, drive S on (framer_init our_max) s bytes = Some r.
Proof. intros H. apply drive_defined; auto. unfold bounded. reflexivity. Qed.

Example payload_exact_nontrivial :
  parse_payload (mk_hdr 0 0 0 1 44 0 0 0 1) [2; 128; 0; 0; 3; 15; 130; 132; 0; 0] =
    Some (POk (PHeaders [130; 132] (Some (mk_prio 3 15 true)))) /\
  PayloadOf 1 44 [2; 128; 0; 0; 3; 15; 130; 132; 0; 0] (PHeaders [130; 132] (Some (mk_prio 3 15 true))).
Proof.
  split; [reflexivity|].
  assert (H : known_type (h_type (mk_hdr 0 0 0 1 44 0 0 0 1))) by discriminate.
  apply (payload_parse_exact (mk_hdr 0 0 0 1 44 0 0 0 1) [2; 128; 0; 0; 3; 15; 130; 132; 0; 0]); try reflexivity; try discriminate; try exact H.
  repeat constructor.
Qed.

(** ** C30: how octets are cut into reads does not matter *)
Theorem chunking_irrelevant S on (fr : framer) (s : S) chunks chunks' : concat chunks = concat chunks' ->
  feed S on fr s [] chunks = feed S on fr s [] chunks'.
Proof. intros E. rewrite !feed_chunks, E. reflexivity. Qed.

(** One octet at a time behaves like one read of everything. *)
Corollary octet_by_octet S on fr (s : S) bytes : feed S on fr s [] (map (fun b => [b]) bytes) = feed S on fr s [] [bytes].
Proof.
  apply chunking_irrelevant. cbn [concat]. rewrite app_nil_r. induction bytes; [reflexivity|]. cbn [map concat app]. now rewrite IHbytes.
Qed.

(** ** C21: every frame survives serialisation and parsing *)
Lemma delivered_with_length f : Delivered f (EvFrame (with_length f)).
Proof. eexists. split; [reflexivity|]. repeat split. Qed.

Definition fits (our_max : N) (f : frame) : Prop :=
  Sendable f /\ hdr_ok (fr_hdr f) /\ bytes_ok (payload_bytes (fr_hdr f) (fr_pl f)) /\
  N.of_nat (length (payload_bytes (fr_hdr f) (fr_pl f))) <= our_max.

(** The last CONTINUATION of a block is not empty (see [empty_continuation_poisons_refuted]). *)
Definition no_empty_last_cont (f : frame) : Prop :=
  h_type (fr_hdr f) = 9 -> end_headers (h_flags (fr_hdr f)) -> payload_bytes (fr_hdr f) (fr_pl f) <> [].

Lemma frames_delivered_gen fs : forall fr s o,
  fs_state fr = EXPECTING_FRAME_HEADER -> fs_ok fr = true -> fs_our_max fr < 2 ^ 24 ->
  (fs_cont fr = true -> o = Some (fs_cont_sid fr)) ->
  Forall (fits (fs_our_max fr)) fs -> Forall no_empty_last_cont fs -> BlockSeq o fs ->
  exists fr', drive _ (recorder (fun _ => None)) fr s (concat (map serialize fs)) = Some (fr', s ++ map (fun f => EvFrame (with_length f)) fs, []) /\
    fs_ok fr' = true /\ fs_state fr' = EXPECTING_FRAME_HEADER.
Proof.
  induction fs as [|f fs IH]; intros fr s o Est Hok Hm Ho HF HN HB; cbn [map concat].
  - exists fr. rewrite app_nil_r, drive_nil. auto.
  - inversion HF as [|? ? (HS & Hh & Hb & HL) HF']; subst. inversion HN as [|? ? Hn HN']; subst.
    assert (HCA : cont_allows fr (fr_hdr f)).
    { intros Hc. specialize (Ho Hc). subst o. inversion HB; subst. auto. }
    destruct (drive_frame _ (recorder (fun _ => None)) fr s f (concat (map serialize fs)) Est Hok HS Hh Hb HL Hm HCA) as (fr1 & -> & H1 & _).
    cbn [recorder fst snd] in *. destruct (H1 eq_refl) as (E1 & E2 & E3 & E4). clear H1.
    destruct (IH fr1 (s ++ [EvFrame (with_length f)]) (open_step o (EvFrame f))) as (fr' & -> & Hr); auto.
    + rewrite E3. auto.
    + intros Hc. pose proof (f_equal fst E4) as E5. pose proof (f_equal snd E4) as E6. clear E4. cbn [fst snd] in E5, E6.
      rewrite Hc in E5. rewrite E6. clear E6 Hc. revert E5. unfold cont_after, open_step.
      set (h := fr_hdr f) in *.
      destruct (payload_bytes h (fr_pl f)) eqn:Ep; cbn [fst snd].
      * (* empty payload *)
        intros E4. symmetry in E4. pose proof (HCA E4) as [H9 Hsid]. rewrite (Ho E4).
        rewrite H9. change (9 =? 1) with false. change (9 =? 5) with false. change (9 =? 9) with true. cbn [orb].
        destruct (N.testbit (h_flags h) 2) eqn:E; [|reflexivity]. exfalso. apply (Hn H9 E). exact Ep.
      * destruct ((h_type h =? 1) || (h_type h =? 5)); [destruct (N.testbit (h_flags h) 2); cbn [fst snd negb]; [discriminate|reflexivity]|].
        destruct (h_type h =? 9); [destruct (N.testbit (h_flags h) 2); cbn [fst snd]; [discriminate|auto]|auto].
    + rewrite E3. auto.
    + inversion HB; subst; auto.
    + exists fr'. rewrite <- app_assoc. auto.
Qed.

(** A client preface followed by frames the serializers wrote is delivered frame by frame, nothing lost,
    nothing invented, however the octets were cut into reads. *)
Theorem frames_roundtrip our_max fs chunks :
  DEFAULT_MAX_FRAME_SIZE <= our_max <= MAX_FRAME_SIZE_LIMIT ->
  Forall (fits our_max) fs -> Forall no_empty_last_cont fs -> BlockSeq None fs ->
  concat chunks = PREFACE ++ concat (map serialize fs) ->
  exists fr evs, feed _ (recorder (fun _ => None)) (framer_init our_max) [] [] chunks = Some (fr, EvPreface :: evs, []) /\
    Forall2 Delivered fs evs /\ fs_ok fr = true.
Proof.
  intros [H1 H2] HF HN HB Ec. rewrite feed_chunks, Ec. rewrite drive_unfold. cbn [fs_ok framer_init negb]. cbv zeta.
  assert (EM : fs_our_max (framer_init our_max) = our_max).
  { unfold framer_init. cbn [fs_our_max]. apply N.ltb_ge in H1. apply N.ltb_ge in H2. rewrite H1, H2. reflexivity. }
  assert (EL : length PREFACE = 24%nat) by reflexivity.
  assert (E24 : message_size (framer_init our_max) (N.of_nat (length (PREFACE ++ concat (map serialize fs)))) = 24).
  { unfold message_size. cbn [fs_state framer_init fs_preface length]. rewrite app_length, EL.
    change (N.of_nat 24 - N.of_nat 0) with 24. change (24 =? 0) with false. cbv iota. destruct (_ <? 24) eqn:E; [apply N.ltb_lt in E; lia|reflexivity]. }
  rewrite E24. change (24 =? 0) with false. cbv iota. change (N.to_nat 24) with (length PREFACE). rewrite firstn_length_app, skipn_length_app.
  unfold on_message. cbn [fs_state framer_init fs_preface app set_preface]. rewrite N.eqb_refl, beq_refl.
  unfold call. cbn [recorder app].
  match goal with |- context [drive _ _ ?fr _ _] => set (fr1 := fr) end.
  destruct (frames_delivered_gen fs fr1 [EvPreface] None) as (fr' & -> & Hok & _); auto.
  - change (fs_our_max fr1) with (fs_our_max (framer_init our_max)). rewrite EM. unfold MAX_FRAME_SIZE_LIMIT in *. change (2 ^ 24) with 16777216. lia.
  - discriminate.
  - change (fs_our_max fr1) with (fs_our_max (framer_init our_max)). rewrite EM. auto.
  - exists fr', (map (fun f => EvFrame (with_length f)) fs). split; [reflexivity|]. split; [|auto].
    clear. induction fs; cbn [map]; constructor; auto using delivered_with_length.
Qed.

(** ** C23: header blocks are not interleaved *)
Definition empty_open (e : fevent) : Prop :=
  exists f, e = EvFrame f /\ (h_type (fr_hdr f) = 1 \/ h_type (fr_hdr f) = 5) /\ ~ end_headers (h_flags (fr_hdr f)) /\ get_payload_length (fr_hdr f) = 0.

Section TRACE.
  Variable verdict : list fevent -> option N.
  Notation S := (list fevent). Notation on := (recorder verdict).

  (** Every dispatched frame respects the open block. *)
  Definition respects (evs : list fevent) : Prop := forall pre g post sid, evs = pre ++ EvFrame g :: post ->
    (forall e, In e pre -> ~ empty_open e) -> open_block pre = Some sid -> h_type (fr_hdr g) = 9 /\ get_stream_id (fr_hdr g) = sid.

  Lemma open_block_snoc evs e : open_block (evs ++ [e]) = open_step (open_block evs) e.
  Proof. unfold open_block. now rewrite fold_left_app. Qed.

  Lemma snoc_split {A} (l pre : list A) x y post : l ++ [x] = pre ++ y :: post ->
    (post = [] /\ l = pre /\ x = y) \/ exists post', post = post' ++ [x] /\ l = pre ++ y :: post'.
  Proof.
    destruct post as [|z post'] using rev_ind; intros H.
    - left. apply app_inj_tail in H as [-> ->]. auto.
    - right. change (pre ++ y :: post' ++ [z]) with (pre ++ (y :: post') ++ [z]) in H. rewrite app_assoc in H. apply app_inj_tail in H as [-> ->]. eauto.
  Qed.

  Lemma respects_snoc evs e : respects evs ->
    (forall g sid, e = EvFrame g -> (forall e, In e evs -> ~ empty_open e) -> open_block evs = Some sid -> h_type (fr_hdr g) = 9 /\ get_stream_id (fr_hdr g) = sid) ->
    respects (evs ++ [e]).
  Proof.
    intros H He pre g post sid E Hno Ho. destruct (snoc_split _ _ _ _ _ E) as [(-> & -> & ->)|(post' & -> & ->)].
    - eapply He; eauto.
    - eapply H; eauto.
  Qed.

  (** What holds between messages. *)
  Definition cont_known (fr : framer) (s : S) : Prop :=
    (forall e, In e s -> ~ empty_open e) -> forall sid, open_block s = Some sid -> fs_cont fr = true /\ fs_cont_sid fr = sid.
  Definition hdr_allowed (fr : framer) (s : S) : Prop :=
    (forall e, In e s -> ~ empty_open e) -> forall sid, open_block s = Some sid -> h_type (fs_hdr fr) = 9 /\ get_stream_id (fs_hdr fr) = sid.
  Definition inv (fr : framer) (s : S) : Prop :=
    respects s /\ (fs_ok fr = true -> cont_known fr s /\ (fs_state fr = EXPECTING_FRAME_PAYLOAD -> hdr_allowed fr s /\
       (fs_expected fr = get_payload_length (fs_hdr fr)))).

  Lemma respects_err s c k : respects s -> respects (s ++ [EvError c k]).
  Proof. intros H. apply respects_snoc; auto. discriminate. Qed.

  Lemma inv_call_err fr s c k : respects s -> fs_ok fr = false -> let '(fr', s') := call S on fr s (EvError c k) in inv fr' s'.
  Proof.
    intros H Hok. unfold call. cbn [recorder]. destruct (verdict _); (split; [now apply respects_err|]); cbn [set_err fs_ok]; [discriminate|congruence].
  Qed.

  Lemma incl_no_empty (s : S) e : (forall x, In x (s ++ [e]) -> ~ empty_open x) -> forall x, In x s -> ~ empty_open x.
  Proof. intros H x Hx. apply H, in_or_app. auto. Qed.

  Lemma inv_header fr s h : inv fr s -> fs_ok fr = true -> let '(fr', s') := on_header S on fr s h in inv fr' s'.
  Proof.
    intros [HR HI] Hok. destruct (HI Hok) as [HC _]. unfold on_header. cbv zeta. cbn [fs_cont fs_cont_sid set_hdr fs_our_max fs_expected fs_ok].
    destruct (fs_cont fr && negb ((h_type h =? T_CONTINUATION) && (get_stream_id h =? fs_cont_sid fr))) eqn:E1.
    { apply inv_call_err; auto. }
    assert (HA : (forall e, In e s -> ~ empty_open e) -> forall sid, open_block s = Some sid -> h_type h = 9 /\ get_stream_id h = sid).
    { intros Hno sid Ho. destruct (HC Hno sid Ho) as [Ec <-]. rewrite Ec in E1. cbn [andb] in E1. apply negb_false_iff, andb_true_iff in E1 as [A B].
      apply N.eqb_eq in A, B. auto. }
    assert (Bad : forall c, inv (set_err (set_hdr fr h (get_payload_length h)) c) s) by (intros c; split; [auto|discriminate]).
    clear E1. do 3 match goal with |- context [if ?b then (set_err _ _, s) else _] => destruct b; [apply Bad|] end.
    rewrite Hok. cbn [negb]. destruct (N.eqb_spec (get_payload_length h) 0) as [E0|E0].
    - unfold zero_dispatch. cbn [fs_hdr set_hdr]. destruct (parse_zero h) as [[c| |p]|] eqn:Ez.
      + unfold report. pose proof (inv_call_err (set_err (set_hdr fr h (get_payload_length h)) c) s c (get_stream_id h) HR eq_refl) as X.
        destruct (call _ _ _ _ _) as [fr' s'] eqn:Ec. destruct X as [X1 X2]. destruct (fs_ok fr') eqn:Eo; [|split; auto; congruence].
        exfalso. unfold call in Ec. cbn [recorder] in Ec. destruct (verdict _); injection Ec as <- <-; discriminate.
      + unfold parse_zero in Ez. repeat match type of Ez with context [if ?b then _ else _] => destruct b end; discriminate.
      + unfold call. cbn [recorder].
        assert (HR' : respects (s ++ [EvFrame (mk_frame h p)])).
        { apply respects_snoc; auto. intros g sid Eg Hno Ho. injection Eg as <-. cbn [fr_hdr]. eauto. }
        destruct (verdict _) as [c|]; cbn [fs_ok set_err set_hdr]; [split; [auto|discriminate]|]. rewrite Hok.
        split; [auto|]. intros _. split; [|discriminate]. intros Hno sid. rewrite open_block_snoc. unfold open_step. cbn [fr_hdr].
        cbn [fs_cont set_state set_hdr fs_cont_sid].
        destruct ((h_type h =? 1) || (h_type h =? 5)) eqn:E15.
        * destruct (N.testbit (h_flags h) 2) eqn:EH; [discriminate|]. exfalso. apply (Hno (EvFrame (mk_frame h p))).
          { apply in_or_app. right. left. auto. }
          eexists. split; [reflexivity|]. cbn [fr_hdr]. apply orb_true_iff in E15. rewrite !N.eqb_eq in E15. split; [auto|].
          split; [unfold end_headers; congruence|auto].
        * destruct (h_type h =? 9); [destruct (N.testbit (h_flags h) 2); [discriminate|]|]; apply HC; eapply incl_no_empty; eauto.
      + cbn [fs_ok set_hdr]. rewrite Hok. split; [auto|]. intros _. split; [|discriminate]. exact HC.
    - split; [auto|]. intros _. split; [exact HC|]. intros _. split; [exact HA|reflexivity].
  Qed.

  Lemma inv_payload fr s l : inv fr s -> fs_ok fr = true -> fs_state fr = EXPECTING_FRAME_PAYLOAD -> N.of_nat (length l) = fs_expected fr -> l <> [] ->
    forall fr' s' b, payload_dispatch S on fr s l = Some (fr', s', b) ->
      inv (if b then set_expected (set_state fr' EXPECTING_FRAME_HEADER) 0 else fr') s'.
  Proof.
    intros [HR HI] Hok Hst Hl Hne fr' s' b. destruct (HI Hok) as [HC HP]. destruct (HP Hst) as [HA HE]. unfold payload_dispatch. rewrite Hok. cbn [negb].
    destruct (parse_payload (fs_hdr fr) l) as [[c| |p]|] eqn:Ep; try discriminate.
    - unfold report. pose proof (inv_call_err (set_err fr c) s c (get_stream_id (fs_hdr fr)) HR eq_refl) as X.
      destruct (call _ _ _ _ _) as [fr1 s1]. intros E. injection E as <- <- <-. exact X.
    - unfold call. cbn [recorder].
      assert (HR' : respects (s ++ [EvFrame (mk_frame (fs_hdr fr) p)])).
      { apply respects_snoc; auto. intros g sid Eg Hno Ho. injection Eg as <-. cbn [fr_hdr]. apply HA; auto. }
      destruct (verdict _) as [c|]; intros E; injection E as <- <- <-; (split; [exact HR'|]).
      + discriminate.
      + intros _. split; [|discriminate]. intros Hno sid. rewrite open_block_snoc. unfold open_step. cbn [fr_hdr].
        cbn [set_expected set_hdr set_state fs_cont fs_cont_sid]. unfold after_frame. rewrite Hok. cbn [negb].
        unfold T_HEADERS, T_PUSH_PROMISE, T_CONTINUATION. rewrite flag_end_headers.
        destruct ((h_type (fs_hdr fr) =? 1) || (h_type (fs_hdr fr) =? 5)).
        * cbn [set_cont fs_cont fs_cont_sid]. destruct (N.testbit _ 2); [discriminate|]. intros E. injection E as <-. auto.
        * destruct (h_type (fs_hdr fr) =? 9).
          { destruct (N.testbit _ 2); [discriminate|]. apply HC. eapply incl_no_empty; eauto. }
          apply HC. eapply incl_no_empty; eauto.
    - intros E. injection E as <- <- <-. split; [auto|]. intros _. split; [|discriminate]. exact HC.
  Qed.

  Lemma inv_drive fr s buf fr' s' rest : inv fr s -> drive S on fr s buf = Some (fr', s', rest) -> inv fr' s'.
  Proof.
    remember (length buf) as n eqn:Hn. revert fr s buf Hn. induction n as [n IH] using lt_wf_ind. intros fr s buf -> HI H.
    rewrite drive_unfold in H. destruct (fs_ok fr) eqn:Eok; cbn [negb] in H; [|injection H as <- <- <-; auto].
    cbv zeta in H. destruct (N.eqb_spec (message_size fr (N.of_nat (length buf))) 0) as [E|E]; [injection H as <- <- <-; auto|].
    destruct (on_message S on fr s _) as [[fr1 s1]|] eqn:Em; [|discriminate].
    pose proof (message_size_le fr (N.of_nat (length buf))) as Hle.
    eapply IH; [|reflexivity| |exact H]; [rewrite skipn_length; lia|]. clear H IH.
    set (m := message_size fr (N.of_nat (length buf))) in *. unfold on_message in Em. destruct (fs_state fr) eqn:Est.
    - cbv zeta in Em. destruct HI as [HR HI]. destruct (HI Eok) as [HC _].
      assert (Bad : forall c, inv (set_err (set_preface fr (fs_preface fr ++ firstn (N.to_nat m) buf)) c) s) by (intros c; split; [auto|discriminate]).
      destruct (_ =? _); [destruct (beq _ _)|destruct (_ <? _)]; [|injection Em as <- <-; solve [auto]|injection Em as <- <-; solve [auto]|].
      + unfold call in Em. cbn [recorder] in Em. destruct (verdict _); injection Em as <- <-.
        * split; [|discriminate]. apply respects_snoc; [auto|discriminate].
        * split; [apply respects_snoc; [auto|discriminate]|]. intros _. split; [|discriminate]. intros Hno sid Ho.
          rewrite open_block_snoc in Ho. cbn [open_step] in Ho. apply HC; auto. eapply incl_no_empty; eauto.
      + injection Em as <- <-. split; [auto|]. intros _. split; [exact HC|]. cbn [fs_state set_preface]. congruence.
    - destruct (hdr_of_bytes _) as [h|].
      + injection Em as Em. pose proof (inv_header fr s h HI Eok) as X. rewrite Em in X. exact X.
      + injection Em as <- <-. destruct HI as [HR _]. split; [auto|discriminate].
    - assert (Elen : N.of_nat (length (firstn (N.to_nat m) buf)) = m) by (rewrite firstn_length; lia).
      assert (Em' : m = fs_expected fr).
      { subst m. unfold message_size in *. rewrite Est in *. destruct (_ =? 0); [lia|]. destruct (_ <? _); lia. }
      rewrite Elen in Em. rewrite Em' in Em at 1. rewrite N.eqb_refl in Em. cbn [negb] in Em. apply N.eqb_neq in E. rewrite E in Em. apply N.eqb_neq in E.
      destruct (payload_dispatch S on fr s _) as [[[fr2 s2] b]|] eqn:Ed; [|discriminate].
      pose proof (inv_payload fr s (firstn (N.to_nat m) buf) HI Eok Est) as X. rewrite Elen in X. specialize (X Em').
      assert (Hne : firstn (N.to_nat m) buf <> []) by (intros Hx; rewrite Hx in Elen; cbn [length] in Elen; lia).
      specialize (X Hne _ _ _ Ed). destruct b; injection Em as <- <-; exact X.
  Qed.
End TRACE.

(** For every octet sequence and every behaviour of the endpoint: while a field block is open, the next
    dispatched frame is a CONTINUATION on its stream - provided no block was opened by an empty HEADERS
    frame (that case is refuted below). *)
Theorem no_interleaving_partial verdict our_max bytes fr evs rest pre g post sid :
  drive _ (recorder verdict) (framer_init our_max) [] bytes = Some (fr, evs, rest) ->
  evs = pre ++ EvFrame g :: post -> (forall e, In e pre -> ~ empty_open e) ->
  open_block pre = Some sid -> h_type (fr_hdr g) = 9 /\ get_stream_id (fr_hdr g) = sid.
Proof.
  intros H. apply (inv_drive verdict) in H.
  - destruct H as [HR _]. apply HR.
  - split; [|intros _; split; [intros _ s E; discriminate|discriminate]]. intros [|? ?] ? ? ? E; discriminate.
Qed.

(** Anything else in an open block is a connection error: PROTOCOL_ERROR is reported and the framer
    stops (the connection is not ok any more). *)
Theorem interleaving_is_connection_error S on fr (s : S) h rest :
  fs_ok fr = true -> fs_state fr = EXPECTING_FRAME_HEADER -> fs_cont fr = true ->
  ~ (h_type h = 9 /\ get_stream_id h = fs_cont_sid fr) ->
  exists fr', drive S on fr s (hdr_bytes h ++ rest) = Some (fr', fst (on s (EvError PROTOCOL_ERROR (fs_cont_sid fr))), rest) /\ fs_ok fr' = false.
Proof.
  intros Hok Hst Hc Hn. rewrite drive_unfold, Hok. cbn [negb]. cbv zeta.
  assert (E9 : message_size fr (N.of_nat (length (hdr_bytes h ++ rest))) = 9).
  { unfold message_size. rewrite Hst, app_length. cbn [length hdr_bytes]. destruct (_ <? 9) eqn:E; [apply N.ltb_lt in E; lia|reflexivity]. }
  rewrite E9. change (9 =? 0) with false. cbv iota. change (N.to_nat 9) with (length (hdr_bytes h)).
  rewrite firstn_length_app, skipn_length_app. unfold on_message at 1. rewrite Hst, hdr_of_bytes_id.
  unfold on_header. cbv zeta. cbn [fs_cont fs_cont_sid set_hdr]. rewrite Hc. cbn [andb].
  replace ((h_type h =? T_CONTINUATION) && (get_stream_id h =? fs_cont_sid fr)) with false.
  2:{ symmetry. apply not_true_iff_false. rewrite andb_true_iff, !N.eqb_eq. exact Hn. }
  cbn [negb]. unfold call. destruct (on s _) as [s' r] eqn:Eo. cbn [fst]. destruct r; (eexists; split; [rewrite drive_unfold; reflexivity|reflexivity]).
Qed.

(** Refuted: an empty HEADERS frame without END_HEADERS opens a block, yet DATA is dispatched inside it. *)
Definition wire (fs : list frame) : list N := PREFACE ++ concat (map serialize fs).
Theorem empty_headers_interleaved_refuted : exists bytes fr evs rest f g sid,
  drive _ (recorder (fun _ => None)) (framer_init 16384) [] bytes = Some (fr, evs, rest) /\
  evs = [EvPreface; EvFrame f; EvFrame g] /\ open_block [EvPreface; EvFrame f] = Some sid /\ h_type (fr_hdr g) = 0 /\ fs_ok fr = true.
Proof.
  exists (wire [mk_frame (mk_h 1 0 1) (PHeaders [] None); mk_frame (mk_h 0 0 1) (PData [65] 0)]).
  do 6 eexists. split; [vm_compute; reflexivity|]. split; [reflexivity|]. split; [vm_compute; reflexivity|]. split; reflexivity.
Qed.

(** Refuted: a legal sequence HEADERS, empty CONTINUATION with END_HEADERS, PING is a connection error. *)
Theorem empty_continuation_poisons_refuted : exists fs fr evs rest,
  BlockSeq None fs /\ Forall (fits 16384) fs /\
  drive _ (recorder (fun _ => None)) (framer_init 16384) [] (wire fs) = Some (fr, evs, rest) /\ fs_ok fr = false /\ length evs = 4%nat.
Proof.
  exists [mk_frame (mk_h 1 0 1) (PHeaders [130] None); mk_frame (mk_h 9 4 1) (PCont []); mk_frame (mk_h 6 0 0) (PPing [1;2;3;4;5;6;7;8])].
  do 3 eexists. split.
  - apply bs_frame; [discriminate|]. apply bs_cont; [reflexivity|reflexivity|]. apply bs_frame; [discriminate|]. constructor.
  - split.
    + repeat (constructor; [split; [constructor; try reflexivity; discriminate|split; [repeat constructor|split; [repeat constructor|vm_compute; discriminate]]]|]). constructor.
    + split; [vm_compute; reflexivity|]. split; reflexivity.
Qed.

(** ** C31: a header block of any size is cut into legal frames *)
Lemma mk_h_sid ty fl sid : sid < 2 ^ 31 -> get_stream_id (mk_h ty fl sid) = sid.
Proof. apply get_set_stream_id. Qed.

Lemma flags_clear fl : N.testbit (N.ldiff fl 4) 2 = false.
Proof. rewrite N.ldiff_spec. change (N.testbit 4 2) with true. apply andb_false_r. Qed.
Lemma flags_set fl : N.testbit (N.lor fl 4) 2 = true.
Proof. rewrite N.lor_spec. change (N.testbit 4 2) with true. apply orb_true_r. Qed.
Lemma bit4 i : i <> 2 -> N.testbit 4 i = false.
Proof. intros H. change 4 with (2 ^ 2). apply N.pow2_bits_false. congruence. Qed.

Lemma header_frames_spec fuel : forall first sid flags maxf block, sid < 2 ^ 31 -> 0 < maxf -> (length block < fuel)%nat ->
  let fs := header_frames fuel first sid flags maxf block in
  concat (map fragment fs) = block /\
  Forall (fun f => get_stream_id (fr_hdr f) = sid /\ N.of_nat (length (fragment f)) <= maxf) fs /\
  (forall pre f post, fs = pre ++ f :: post ->
     (h_type (fr_hdr f) = if pre then (if first then 1 else 9) else 9) /\ (end_headers (h_flags (fr_hdr f)) <-> post = [])) /\
  (exists f0 rest, fs = f0 :: rest /\ (first = true -> forall i, i <> 2 -> N.testbit (h_flags (fr_hdr f0)) i = N.testbit flags i)).
Proof.
  induction fuel as [|k IH]; intros first sid flags maxf block Hs Hm Hf; [lia|]. cbn [header_frames].
  set (frag := firstn (N.to_nat maxf) block). set (rest := skipn (N.to_nat maxf) block).
  set (f0 := if first then _ else _). cbv zeta.
  assert (Efr : fragment f0 = frag) by (subst f0; destruct first; reflexivity).
  assert (Esid : get_stream_id (fr_hdr f0) = sid) by (subst f0; destruct first; cbn [fr_hdr]; apply mk_h_sid; auto).
  assert (Ety : h_type (fr_hdr f0) = if first then 1 else 9) by (subst f0; destruct first; reflexivity).
  assert (Elen : N.of_nat (length (fragment f0)) <= maxf) by (rewrite Efr; subst frag; rewrite firstn_length; lia).
  assert (Eend : end_headers (h_flags (fr_hdr f0)) <-> rest = []).
  { subst f0. unfold end_headers. destruct rest; destruct first; cbn [fr_hdr mk_h set_stream_id h_flags]; unfold FLAG_END_HEADERS; try rewrite flags_set; try rewrite flags_clear;
      split; try reflexivity; try discriminate; auto. }
  assert (Efl : first = true -> forall i, i <> 2 -> N.testbit (h_flags (fr_hdr f0)) i = N.testbit flags i).
  { intros -> i Hi. subst f0. cbn [fr_hdr mk_h set_stream_id h_flags]. unfold FLAG_END_HEADERS. destruct rest; [rewrite N.lor_spec|rewrite N.ldiff_spec]; rewrite bit4 by auto; [apply orb_false_r|apply andb_true_r]. }
  assert (Hsk : frag ++ rest = block) by apply firstn_skipn.
  assert (Hpos : rest <> [] -> (0 < length frag)%nat).
  { intros Hr. subst frag. rewrite firstn_length. assert (length rest <> 0)%nat by (destruct rest; [congruence|discriminate]). subst rest. rewrite skipn_length in *. lia. }
  clearbody f0 frag rest. subst block. rewrite app_length in Hf. destruct rest as [|b r].
  - rewrite app_nil_r.
    split; [cbn [map concat]; rewrite Efr; apply app_nil_r|]. split; [constructor; auto|]. split; [|eauto].
    intros pre f post E. destruct pre as [|x [|y pre]]; try discriminate E. injection E as <- <-. split; [exact Ety|]. split; [reflexivity|]. intros _. apply Eend. reflexivity.
  - assert (Hlen : (length (b :: r) < k)%nat) by (assert (0 < length frag)%nat by (apply Hpos; discriminate); lia).
    destruct (IH false sid flags maxf (b :: r) Hs Hm Hlen) as (H1 & H2 & H3 & (g & gs & H4 & _)).
    split; [cbn [map concat]; rewrite H1, Efr; reflexivity|]. split; [constructor; auto|]. split; [|eauto].
    intros pre f post E. destruct pre as [|x pre]; injection E as <- E.
    + split; [auto|]. rewrite Eend, <- E, H4. split; discriminate.
    + destruct (H3 pre f post E) as [A B]. split; [|auto]. rewrite A. destruct pre; reflexivity.
Qed.

Theorem send_headers_legal sid flags peer_max block : sid < 2 ^ 31 ->
  HeaderBlockFrames sid flags (N.max 1 peer_max) block (send_headers sid flags peer_max block).
Proof.
  intros Hs. unfold send_headers. destruct (header_frames_spec (S (length block)) true sid flags (N.max 1 peer_max) block Hs) as (H1 & H2 & H3 & (f0 & rest & H4 & H5)); [lia|lia|].
  split; [auto|]. split; [auto|]. split; [|eauto]. intros pre f post E. destruct (H3 pre f post E) as [A B]. split; [|auto]. rewrite A. destruct pre; reflexivity.
Qed.

(** ... which the peer's framer delivers in order, with nothing in between (the two earlier theorems
    combined): frames, [BlockSeq], [fits] and non-empty CONTINUATIONs. *)
Lemma header_frames_fit fuel : forall first sid flags maxf our_max block, flags < 256 -> ~ padded flags -> ~ priority flags -> sid < 2 ^ 31 -> 0 < maxf -> maxf <= our_max ->
  (length block < fuel)%nat -> bytes_ok block -> (first = false -> block <> []) ->
  Forall (fits our_max) (header_frames fuel first sid flags maxf block) /\ Forall no_empty_last_cont (header_frames fuel first sid flags maxf block) /\
  BlockSeq (if first then None else Some sid) (header_frames fuel first sid flags maxf block).
Proof.
  induction fuel as [|k IH]; intros first sid flags maxf our_max block Hfl Hpd Hpr Hs Hm Hmm Hf Hb Hne; [lia|]. cbn [header_frames].
  set (frag := firstn (N.to_nat maxf) block). set (rest := skipn (N.to_nat maxf) block).
  set (f0 := if first then _ else _). cbv zeta.
  assert (Hbs : bytes_ok frag /\ bytes_ok rest).
  { unfold bytes_ok in *. rewrite <- (firstn_skipn (N.to_nat maxf) block) in Hb. apply Forall_app in Hb. exact Hb. }
  destruct Hbs as [Hbf Hbr].
  assert (Hlf : N.of_nat (length frag) <= our_max) by (subst frag; rewrite firstn_length; lia).
  assert (Hfl' : forall x, x < 256 -> hdr_ok (mk_h 1 x sid) /\ hdr_ok (mk_h 9 x sid)).
  { intros x Hx. split; apply set_stream_id_ok; unfold hdr_ok, hdr_bytes, bytes_ok; cbn; repeat constructor; auto. }
  assert (Hlor : N.lor flags 4 < 256).
  { destruct (N.eq_dec (N.lor flags 4) 0) as [->|Hz]; [lia|]. change 256 with (2 ^ 8). apply N.log2_lt_pow2; [lia|]. rewrite N.log2_lor. change (N.log2 4) with 2.
    destruct (N.eq_dec flags 0) as [->|Hz2]; [reflexivity|]. apply N.max_lub_lt; [|lia]. apply N.log2_lt_pow2; [lia|exact Hfl]. }
  assert (Hldiff : N.ldiff flags 4 < 256).
  { apply N.le_lt_trans with flags; [|auto]. apply N.ldiff_le. apply N.bits_inj_0. intros i. rewrite !N.ldiff_spec. destruct (N.testbit flags i); cbn [negb andb]; [apply andb_false_r|reflexivity]. }
  assert (Hbits : forall x, x = N.lor flags 4 \/ x = N.ldiff flags 4 -> ~ padded x /\ ~ priority x).
  { unfold padded, priority in *. intros x [->| ->]; rewrite ?N.lor_spec, ?N.ldiff_spec; change (N.testbit 4 3) with false; change (N.testbit 4 5) with false; cbn [negb];
      rewrite ?orb_false_r, ?andb_true_r; auto. }
  assert (Hfit : fits our_max f0).
  { subst f0. destruct first.
    - match goal with |- fits _ (mk_frame (mk_h _ ?y _) _) => set (x := y) end. assert (Hx : x = N.lor flags 4 \/ x = N.ldiff flags 4) by (subst x; destruct rest; auto).
      assert (Hx' : x < 256) by (destruct Hx as [->| ->]; auto). clearbody x. destruct (Hbits x Hx).
      split; [apply sd_headers; auto|]. split; [apply Hfl'; auto|]. split; auto.
    - split; [apply sd_cont; reflexivity|]. split; [cbn [fr_hdr]; destruct rest; apply Hfl'; unfold FLAG_END_HEADERS; lia|]. split; auto. }
  assert (Hcont : no_empty_last_cont f0).
  { subst f0. intros H9 _. destruct first; [discriminate|]. cbn [fr_hdr fr_pl payload_bytes]. specialize (Hne eq_refl).
    subst frag. destruct block; [congruence|]. destruct (N.to_nat maxf) eqn:E; [lia|discriminate]. }
  assert (Hstep : forall o, open_step o (EvFrame f0) = if match rest with [] => true | _ => false end then None else if first then Some sid else o).
  { intros o. subst f0. unfold open_step. cbn [fr_hdr]. destruct first; cbn [fr_hdr mk_h set_stream_id h_type h_flags]; unfold T_HEADERS, T_CONTINUATION, FLAG_END_HEADERS.
    - change ((1 =? 1) || (1 =? 5)) with true. cbv iota. destruct rest; [rewrite flags_set|rewrite flags_clear]; [reflexivity|]. f_equal. apply (mk_h_sid 1 (N.ldiff flags 4) sid Hs).
    - change ((9 =? 1) || (9 =? 5)) with false. change (9 =? 9) with true. cbv iota. destruct rest; reflexivity. }
  assert (Hrest : Forall (fits our_max) (if match rest with [] => true | _ => false end then [] else header_frames k false sid flags maxf rest) /\
                  Forall no_empty_last_cont (if match rest with [] => true | _ => false end then [] else header_frames k false sid flags maxf rest) /\
                  BlockSeq (if match rest with [] => true | _ => false end then None else Some sid) (if match rest with [] => true | _ => false end then [] else header_frames k false sid flags maxf rest)).
  { assert (Hlen : (rest <> [] -> length rest < k)%nat).
    { intros Hr. assert (length rest <> 0)%nat by (destruct rest; [congruence|discriminate]). subst rest. rewrite skipn_length in *. lia. }
    clearbody rest. clear - IH Hlen Hbr Hfl Hpd Hpr Hs Hm Hmm.
    destruct rest as [|b r]; [split; [constructor|split; constructor]|]. cbv iota.
    apply (IH false); auto; [apply Hlen; discriminate|discriminate]. }
  destruct Hrest as (R1 & R2 & R3).
  split; [constructor; auto|]. split; [constructor; auto|].
  assert (Ety : h_type (fr_hdr f0) = if first then 1 else 9) by (subst f0; destruct first; reflexivity).
  assert (Esid : get_stream_id (fr_hdr f0) = sid) by (subst f0; destruct first; cbn [fr_hdr]; apply mk_h_sid; auto).
  clearbody f0. destruct first.
  - apply bs_frame; [rewrite Ety; discriminate|]. rewrite Hstep. exact R3.
  - apply bs_cont; auto. rewrite Hstep. exact R3.
Qed.

Theorem send_headers_delivered sid flags peer_max our_max block chunks :
  flags < 256 -> ~ padded flags -> ~ priority flags -> sid < 2 ^ 31 -> bytes_ok block ->
  DEFAULT_MAX_FRAME_SIZE <= our_max <= MAX_FRAME_SIZE_LIMIT -> 0 < peer_max <= our_max ->
  concat chunks = PREFACE ++ concat (map serialize (send_headers sid flags peer_max block)) ->
  exists fr evs, feed _ (recorder (fun _ => None)) (framer_init our_max) [] [] chunks = Some (fr, EvPreface :: evs, []) /\
    Forall2 Delivered (send_headers sid flags peer_max block) evs /\ fs_ok fr = true.
Proof.
  intros Hf Hp Hq Hs Hb Hm Hpm. unfold send_headers. replace (N.max 1 peer_max) with peer_max by lia.
  destruct (header_frames_fit (S (length block)) true sid flags peer_max our_max block) as (F1 & F2 & F3); auto; try lia; try discriminate.
  apply frames_roundtrip; auto.
Qed.

(** 20000 octets of header block to a peer with the default limit: two frames. *)
Example send_headers_nontrivial : map (fun f => (h_type (fr_hdr f), h_flags (fr_hdr f), length (fragment f))) (send_headers 7 1 4 [1;2;3;4;5;6;7;8;9]) =
  [(1, 1, 4%nat); (9, 0, 4%nat); (9, 4, 1%nat)].
Proof. reflexivity. Qed.

(** ** C24: SETTINGS validation *)
Theorem settings_validation id value code : validate_setting id value = Some code <-> SettingForbidden id value code.
Proof.
  unfold validate_setting, MAX_WINDOW, MIN_MAX_FRAME_SIZE, MAX_FRAME_SIZE_LIMIT, PROTOCOL_ERROR, FLOW_CONTROL_ERROR. split.
  - destruct (N.eqb_spec id 2) as [->|?]. { destruct (1 <? value) eqn:E; [|discriminate]. intros X; injection X as <-. apply N.ltb_lt in E. now constructor. }
    destruct (N.eqb_spec id 4) as [->|?]. { destruct (_ <? value) eqn:E; [|discriminate]. intros X; injection X as <-. apply N.ltb_lt in E. now constructor. }
    destruct (N.eqb_spec id 5) as [->|?].
    { destruct ((value <? 16384) || (16777215 <? value)) eqn:E; [|discriminate]. intros X; injection X as <-. apply orb_true_iff in E. rewrite !N.ltb_lt in E.
      destruct E; [now apply sf_frame_small|now apply sf_frame_big]. }
    destruct (N.eqb_spec id 8) as [->|?]. { destruct (1 <? value) eqn:E; [|discriminate]. intros X; injection X as <-. apply N.ltb_lt in E. now constructor. }
    discriminate.
  - intros H. destruct H as [v H|v H|v H|v H|v H]; cbn.
    + apply N.ltb_lt in H. rewrite H. reflexivity.
    + change (2 ^ 31 - 1) with 2147483647 in H. apply N.ltb_lt in H. rewrite H. reflexivity.
    + change (2 ^ 14) with 16384 in H. apply N.ltb_lt in H. rewrite H. reflexivity.
    + change (2 ^ 24 - 1) with 16777215 in H. apply N.ltb_lt in H. rewrite H, orb_true_r. reflexivity.
    + apply N.ltb_lt in H. rewrite H. reflexivity.
Qed.

Corollary settings_unknown_accepted id value : id <> 2 -> id <> 4 -> id <> 5 -> id <> 8 -> validate_setting id value = None.
Proof.
  intros. destruct (validate_setting id value) eqn:E; [|reflexivity]. apply settings_validation in E. inversion E; subst; congruence.
Qed.

(** Whatever the peer announces, frames written respect 2^14 <= size <= 2^24-1, and announced legal values are kept. *)
Theorem peer_max_frame_size_safe v :
  (forall x, v = Some x -> 2 ^ 14 <= x <= 2 ^ 24 - 1 -> safe_max_frame_size v = x) /\ 2 ^ 14 <= safe_max_frame_size v <= 2 ^ 24 - 1 /\
  (forall x, 2 ^ 14 <= clamp_peer_max_frame_size x <= 2 ^ 24 - 1 /\ (2 ^ 14 <= x <= 2 ^ 24 - 1 -> clamp_peer_max_frame_size x = x)).
Proof.
  unfold safe_max_frame_size, clamp_peer_max_frame_size, MIN_MAX_FRAME_SIZE, MAX_FRAME_SIZE_LIMIT, DEFAULT_MAX_FRAME_SIZE.
  change (2 ^ 14) with 16384. change (2 ^ 24 - 1) with 16777215.
  split; [|split].
  - intros x -> H. destruct ((16384 <=? x) && (x <=? 16777215)) eqn:E; [reflexivity|]. exfalso. apply andb_false_iff in E. rewrite !N.leb_gt in E. lia.
  - destruct v as [x|]; [|lia]. destruct ((16384 <=? x) && (x <=? 16777215)) eqn:E; [|lia]. apply andb_true_iff in E. rewrite !N.leb_le in E. lia.
  - intros x. lia.
Qed.
