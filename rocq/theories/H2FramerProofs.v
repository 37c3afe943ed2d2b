(** Lemmas about the HTTP/2 framer: header fields, the input loop, chunking, serialised frames. *)
From Verif Require Import Base H2Model H2Spec H2Proofs.
Local Open Scope N_scope.

(** ** Header fields *)
Lemma hdr_ok_inv h : hdr_ok h -> h_l0 h < 256 /\ h_l1 h < 256 /\ h_l2 h < 256 /\ h_type h < 256 /\ h_flags h < 256 /\
  h_s0 h < 256 /\ h_s1 h < 256 /\ h_s2 h < 256 /\ h_s3 h < 256.
Proof.
  unfold hdr_ok, hdr_bytes, bytes_ok. intros H. rewrite Forall_forall in H.
  repeat split; apply H; cbn; tauto.
Qed.

Lemma get_payload_length_val h : hdr_ok h -> get_payload_length h = be_val [h_l0 h; h_l1 h; h_l2 h].
Proof. intros H. apply hdr_ok_inv in H. unfold get_payload_length. apply val24; tauto. Qed.

Lemma get_stream_id_val h : hdr_ok h -> get_stream_id h = be_val [h_s0 h; h_s1 h; h_s2 h; h_s3 h] mod 2 ^ 31.
Proof. intros H. apply hdr_ok_inv in H. unfold get_stream_id. apply val31; tauto. Qed.

Lemma be24_val v : v < 2 ^ 24 -> be_val [octet v 2; octet v 1; octet v 0] = v.
Proof.
  intros H. assert (H32 : v < 2 ^ 32) by (change (2 ^ 24) with 16777216 in H; change (2 ^ 32) with 4294967296; lia).
  rewrite <- (be32_val v H32) at 4. unfold be32.
  assert (E : octet v 3 = 0).
  { rewrite octet_eq. rewrite N.div_small; [reflexivity|]. exact H. }
  rewrite E. reflexivity.
Qed.

Lemma set_payload_length_ok h n : hdr_ok h -> hdr_ok (set_payload_length h n).
Proof.
  intros H. apply hdr_ok_inv in H. unfold hdr_ok, hdr_bytes, set_payload_length, bytes_ok; cbn [h_l0 h_l1 h_l2 h_type h_flags h_s0 h_s1 h_s2 h_s3].
  repeat constructor; try apply octet_lt; tauto.
Qed.

Lemma get_set_payload_length h n : n < 2 ^ 24 -> get_payload_length (set_payload_length h n) = n.
Proof.
  intros H. unfold get_payload_length, set_payload_length. cbn [h_l0 h_l1 h_l2].
  rewrite val24 by apply octet_lt. now apply be24_val.
Qed.
Lemma get_stream_id_set_length h n : get_stream_id (set_payload_length h n) = get_stream_id h.
Proof. reflexivity. Qed.

Lemma octet3_small v : v < 2 ^ 31 -> octet v 3 < 128.
Proof.
  intros H. rewrite octet_eq. change (2 ^ 31) with 2147483648 in H. change (256 ^ 3) with 16777216.
  assert (v / 16777216 < 128) by (apply N.div_lt_upper_bound; lia). rewrite N.mod_small; lia.
Qed.

Lemma get_set_stream_id h id : id < 2 ^ 31 -> get_stream_id (set_stream_id h id) = id.
Proof.
  intros H. unfold get_stream_id, set_stream_id. cbn [h_s0 h_s1 h_s2 h_s3].
  pose proof (octet3_small id H). change 127 with (N.ones 7). rewrite !N.land_ones. change (2 ^ 7) with 128.
  rewrite N.mod_mod by discriminate. rewrite (N.mod_small (octet id 3)) by auto.
  rewrite val32 by apply octet_lt. apply be32_val. change (2 ^ 31) with 2147483648 in H. change (2 ^ 32) with 4294967296. lia.
Qed.

Lemma set_stream_id_ok h id : hdr_ok h -> hdr_ok (set_stream_id h id).
Proof.
  intros H. apply hdr_ok_inv in H. unfold hdr_ok, hdr_bytes, set_stream_id, bytes_ok; cbn [h_l0 h_l1 h_l2 h_type h_flags h_s0 h_s1 h_s2 h_s3].
  repeat constructor; try apply octet_lt; try tauto.
  change 127 with (N.ones 7). rewrite N.land_ones. change (2 ^ 7) with 128. assert (octet id 3 mod 128 < 128) by (apply N.mod_lt; discriminate). lia.
Qed.

Lemma hdr_of_bytes_id h : hdr_of_bytes (hdr_bytes h) = Some h.
Proof. destruct h. reflexivity. Qed.

(** ** The input loop *)
Section LOOP.
  Variable S : Type.
  Variable on : S -> fevent -> S * option N.
  Notation drive_n := (drive_n S on). Notation drive := (drive S on). Notation feed := (feed S on).
  Notation on_message := (on_message S on).

  Lemma message_size_le fr n : message_size fr n <= n.
  Proof.
    unfold message_size. destruct (fs_state fr); repeat match goal with |- context [if ?b then _ else _] => destruct b eqn:? end; try lia.
  Qed.

  Lemma message_size_mono fr n m : message_size fr n <> 0 -> n <= m -> message_size fr m = message_size fr n.
  Proof.
    unfold message_size. intros H Hn. destruct (fs_state fr);
      repeat match goal with |- context [if ?b then _ else _] => destruct b eqn:? end; try lia; try reflexivity; try congruence.
  Qed.

  Lemma drive_n_fuel k1 k2 fr s buf : (length buf < k1)%nat -> (length buf < k2)%nat -> drive_n k1 fr s buf = drive_n k2 fr s buf.
  Proof.
    revert k2 fr s buf; induction k1 as [|k1 IH]; intros k2 fr s buf H1 H2; [lia|]. destruct k2 as [|k2]; [lia|].
    cbn [H2Model.drive_n]. destruct (negb (fs_ok fr)); [reflexivity|].
    destruct (N.eqb_spec (message_size fr (N.of_nat (length buf))) 0) as [E|E]; [reflexivity|].
    destruct (on_message fr s _) as [[fr' s']|]; [|reflexivity].
    pose proof (message_size_le fr (N.of_nat (length buf))). apply IH; rewrite skipn_length; lia.
  Qed.

  Lemma drive_unfold fr s buf : drive fr s buf =
    if negb (fs_ok fr) then Some (fr, s, buf)
    else let n := message_size fr (N.of_nat (length buf)) in
         if n =? 0 then Some (fr, s, buf)
         else match on_message fr s (firstn (N.to_nat n) buf) with
              | None => None
              | Some (fr, s) => drive fr s (skipn (N.to_nat n) buf)
              end.
  Proof.
    unfold drive at 1. cbn [H2Model.drive_n]. destruct (negb (fs_ok fr)); [reflexivity|]. cbv zeta.
    destruct (N.eqb_spec (message_size fr (N.of_nat (length buf))) 0) as [E|E]; [reflexivity|].
    destruct (on_message fr s _) as [[fr' s']|]; [|reflexivity].
    pose proof (message_size_le fr (N.of_nat (length buf))). apply drive_n_fuel; rewrite ?skipn_length; lia.
  Qed.

  (** Octets left over by a run are exactly what the next run starts with. *)
  Lemma drive_app fr s a b : drive fr s (a ++ b) =
    match drive fr s a with None => None | Some (fr', s', rest) => drive fr' s' (rest ++ b) end.
  Proof.
    remember (length a) as n eqn:Hn. revert fr s a Hn. induction n as [n IH] using lt_wf_ind. intros fr s a ->.
    rewrite (drive_unfold fr s a). destruct (negb (fs_ok fr)) eqn:Eok; [reflexivity|]. cbv zeta.
    destruct (N.eqb_spec (message_size fr (N.of_nat (length a))) 0) as [E|E]; [reflexivity|].
    rewrite (drive_unfold fr s (a ++ b)). rewrite Eok. cbv zeta.
    rewrite (message_size_mono fr (N.of_nat (length a)) (N.of_nat (length (a ++ b)))); [|auto|rewrite app_length; lia].
    apply N.eqb_neq in E. rewrite E. apply N.eqb_neq in E.
    pose proof (message_size_le fr (N.of_nat (length a))) as Hle. set (m := message_size fr (N.of_nat (length a))) in *.
    rewrite firstn_app, skipn_app. replace (N.to_nat m - length a)%nat with 0%nat by lia. cbn [firstn skipn]. rewrite app_nil_r.
    destruct (on_message fr s _) as [[fr' s']|]; [|reflexivity]. rewrite (IH (length (skipn (N.to_nat m) a))); auto.
    rewrite skipn_length. lia.
  Qed.

  Lemma drive_nil fr s : drive fr s [] = Some (fr, s, []).
  Proof.
    rewrite drive_unfold. destruct (negb (fs_ok fr)); [reflexivity|]. cbv zeta.
    replace (message_size fr (N.of_nat (length (@nil N)))) with 0; [reflexivity|].
    pose proof (message_size_le fr 0). cbn [length]. change (N.of_nat 0) with 0. lia.
  Qed.

  (** A run stops only where the loop itself would stop. *)
  Lemma drive_stuck fr s buf fr' s' rest : drive fr s buf = Some (fr', s', rest) -> drive fr' s' rest = Some (fr', s', rest).
  Proof.
    remember (length buf) as n eqn:Hn. revert fr s buf Hn. induction n as [n IH] using lt_wf_ind. intros fr s buf -> H.
    rewrite drive_unfold in H. destruct (negb (fs_ok fr)) eqn:Eok.
    - injection H as <- <- <-. rewrite drive_unfold, Eok. reflexivity.
    - cbv zeta in H. destruct (N.eqb_spec (message_size fr (N.of_nat (length buf))) 0) as [E|E].
      + injection H as <- <- <-. rewrite drive_unfold, Eok. cbv zeta. apply N.eqb_eq in E. rewrite E. reflexivity.
      + destruct (on_message fr s _) as [[fr1 s1]|]; [|discriminate]. eapply IH; [|reflexivity|exact H].
        pose proof (message_size_le fr (N.of_nat (length buf))). rewrite skipn_length. lia.
  Qed.

  Lemma feed_drive chunks : forall fr s pend, drive fr s pend = Some (fr, s, pend) ->
    feed fr s pend chunks = drive fr s (pend ++ concat chunks).
  Proof.
    induction chunks as [|c cs IH]; intros fr s pend H; cbn [H2Model.feed concat].
    - rewrite app_nil_r. auto.
    - rewrite app_assoc, (drive_app fr s (pend ++ c)). destruct (drive fr s (pend ++ c)) as [[[fr' s'] rest]|] eqn:E; [|reflexivity].
      apply IH. eapply drive_stuck; eauto.
  Qed.

  Lemma feed_chunks fr s chunks : feed fr s [] chunks = drive fr s (concat chunks).
  Proof. apply (feed_drive chunks fr s []), drive_nil. Qed.

  (** No run over octets reads outside a payload. *)
  Lemma parse_payload_defined h l : bytes_ok l -> l <> [] -> N.of_nat (length l) < 2 ^ 32 -> parse_payload h l <> Some PUndef.
  Proof.
    intros Hb Hne HL. destruct (N.le_gt_cases (h_type h) 9) as [Hk|Hk].
    - destruct (parse_payload_exact h l Hb Hne HL Hk) as (r & -> & [(p & -> & _)|(e & -> & _)]); discriminate.
    - destruct (parse_payload_unknown h l) as [-> _]; [unfold known_type; lia|discriminate].
  Qed.

  Definition bounded (fr : framer) : Prop := fs_expected fr < 2 ^ 24.

  Lemma set_err_expected fr c : fs_expected (set_err fr c) = fs_expected fr. Proof. reflexivity. Qed.
  Lemma call_expected fr s e : fs_expected (fst (call S on fr s e)) = fs_expected fr.
  Proof. unfold call. destruct (on s e) as [? [?|]]; reflexivity. Qed.
  Lemma call_state fr s e : fs_state (fst (call S on fr s e)) = fs_state fr.
  Proof. unfold call. destruct (on s e) as [? [?|]]; reflexivity. Qed.
  Lemma after_frame_expected fr : fs_expected (after_frame fr) = fs_expected fr.
  Proof. unfold after_frame. repeat match goal with |- context [if ?b then _ else _] => destruct b end; reflexivity. Qed.

  Lemma on_header_bounded fr s h : hdr_ok h -> bounded (fst (on_header S on fr s h)).
  Proof.
    intros H. unfold bounded.
    assert (HB : get_payload_length h < 2 ^ 24).
    { rewrite get_payload_length_val by auto. apply hdr_ok_inv in H. change (2 ^ 24) with (256 ^ N.of_nat (length [h_l0 h; h_l1 h; h_l2 h])).
      apply be_val_lt. repeat constructor; tauto. }
    unfold on_header. set (fr1 := set_hdr fr h (get_payload_length h)). assert (E : fs_expected fr1 = get_payload_length h) by reflexivity.
    clearbody fr1.
    destruct (fs_cont fr1 && _). { rewrite call_expected, set_err_expected, E. auto. }
    destruct (_ && _); [cbn [fst]; rewrite set_err_expected, E; auto|].
    destruct (_ && _); [cbn [fst]; rewrite set_err_expected, E; auto|].
    destruct (_ <? _); [cbn [fst]; rewrite set_err_expected, E; auto|].
    destruct (negb _); [cbn [fst]; rewrite E; auto|].
    destruct (_ =? 0).
    - destruct (zero_dispatch S on fr1 s) as [fr2 s2] eqn:EZ. cbn [fst].
      assert (E2 : fs_expected fr2 = get_payload_length h).
      { assert (X : fs_expected (fst (zero_dispatch S on fr1 s)) = fs_expected fr1).
        { unfold zero_dispatch. destruct (parse_zero (fs_hdr fr1)) as [[c| |p]|]; try reflexivity;
            [unfold report; rewrite call_expected; reflexivity|rewrite call_expected; reflexivity]. }
        rewrite EZ in X. cbn [fst] in X. congruence. }
      destruct (fs_ok fr2); cbn [set_state fs_expected]; rewrite E2; auto.
    - cbn [fst set_state fs_expected]. rewrite E. auto.
  Qed.

  Lemma on_message_defined fr s msg : bytes_ok msg -> bounded fr -> exists fr' s', on_message fr s msg = Some (fr', s') /\ bounded fr'.
  Proof.
    intros Hb HB. unfold H2Model.on_message. destruct (fs_state fr) eqn:Est.
    - cbv zeta. repeat match goal with |- context [if ?b then _ else _] => destruct b end; try (do 2 eexists; split; [reflexivity|exact HB]).
      destruct (call S on _ s EvPreface) as [fr' s'] eqn:Ec. do 2 eexists. split; [reflexivity|].
      unfold bounded. replace fr' with (fst (call S on (set_state (set_preface fr (fs_preface fr ++ msg)) EXPECTING_FRAME_HEADER) s EvPreface)) by (now rewrite Ec).
      rewrite call_expected. exact HB.
    - destruct (hdr_of_bytes msg) as [h|] eqn:Eh.
      + assert (hdr_ok h). { unfold hdr_ok. unfold hdr_of_bytes in Eh. repeat (destruct msg as [|? msg]; try discriminate Eh). injection Eh as <-. exact Hb. }
        pose proof (on_header_bounded fr s h H). destruct (on_header S on fr s h) as [fr' s']. eauto.
      + do 2 eexists. split; [reflexivity|exact HB].
    - destruct (N.eqb_spec (N.of_nat (length msg)) (fs_expected fr)) as [El|El]; cbn [negb].
      2:{ unfold report. destruct (call S on _ s _) as [fr' s'] eqn:Ec. do 2 eexists. split; [reflexivity|]. unfold bounded.
          match type of Ec with call S on ?f s ?e = _ => replace fr' with (fst (call S on f s e)) by (now rewrite Ec) end.
          rewrite call_expected. exact HB. }
      destruct (N.eqb_spec (N.of_nat (length msg)) 0) as [E0|E0]; [do 2 eexists; split; [reflexivity|exact HB]|].
      unfold payload_dispatch. destruct (negb (fs_ok fr)); [do 2 eexists; split; [reflexivity|exact HB]|].
      destruct (parse_payload (fs_hdr fr) msg) as [[c| |p]|] eqn:Ep.
      + destruct (report S on fr s c _) as [fr' s'] eqn:Er. do 2 eexists. split; [reflexivity|]. unfold report in Er.
        match type of Er with call S on ?f s ?e = _ => replace fr' with (fst (call S on f s e)) by (now rewrite Er) end.
        unfold bounded. rewrite call_expected. exact HB.
      + exfalso. eapply (parse_payload_defined (fs_hdr fr) msg); eauto.
        * intros ->. apply E0. reflexivity.
        * rewrite El. unfold bounded in HB. change (2 ^ 24) with 16777216 in HB. change (2 ^ 32) with 4294967296. lia.
      + destruct (call S on fr s _) as [fr' s'] eqn:Ec. do 2 eexists. split; [reflexivity|]. unfold bounded. cbn. reflexivity.
      + do 2 eexists. split; [reflexivity|]. unfold bounded. cbn. reflexivity.
  Qed.

  Lemma drive_defined fr s buf : bytes_ok buf -> bounded fr -> exists r, drive fr s buf = Some r.
  Proof.
    remember (length buf) as n eqn:Hn. revert fr s buf Hn. induction n as [n IH] using lt_wf_ind. intros fr s buf -> Hb HB.
    rewrite drive_unfold. destruct (negb (fs_ok fr)); [eauto|]. cbv zeta.
    destruct (N.eqb_spec (message_size fr (N.of_nat (length buf))) 0) as [E|E]; [eauto|].
    pose proof (message_size_le fr (N.of_nat (length buf))). set (m := message_size fr (N.of_nat (length buf))) in *.
    unfold bytes_ok in Hb. rewrite <- (firstn_skipn (N.to_nat m) buf) in Hb. apply Forall_app in Hb as [Hb1 Hb2].
    destruct (on_message_defined fr s (firstn (N.to_nat m) buf) Hb1 HB) as (fr' & s' & -> & HB').
    eapply IH; [|reflexivity|exact Hb2|exact HB']. rewrite skipn_length. lia.
  Qed.

  (** ** One serialised frame through the loop *)
  Definition cont_allows (fr : framer) (h : fhdr) : Prop := fs_cont fr = true -> h_type h = 9 /\ get_stream_id h = fs_cont_sid fr.

  Lemma concat_settings_bytes es : length (concat (map (fun e : N * N => be16 (fst e) ++ be32 (snd e)) es)) = (6 * length es)%nat.
  Proof. induction es; [reflexivity|]. cbn [map concat]. rewrite app_length, IHes. cbn [length be16 be32 app]. lia. Qed.

  Lemma settings_layout es : Forall (fun e : N * N => fst e < 2 ^ 16 /\ snd e < 2 ^ 32) es ->
    SettingsLayout (concat (map (fun e => be16 (fst e) ++ be32 (snd e)) es)) es.
  Proof.
    induction 1 as [|[i v] es [Hi Hv] _ IH]; [constructor|]. cbn [map concat fst snd] in *. rewrite <- app_assoc.
    pose proof (sl_cons (be16 i) (be32 v) _ es eq_refl eq_refl IH) as X. rewrite be16_val, be32_val in X by auto. exact X.
  Qed.

  Lemma prio_layout p : p_dep p < 2 ^ 31 -> PrioLayout (prio_bytes p) p.
  Proof.
    intros H. exists (be32 (if p_excl p then N.lor (N.land (p_dep p) 2147483647) 2147483648 else N.land (p_dep p) 2147483647)).
    split; [reflexivity|]. split; [reflexivity|]. split; [auto|]. rewrite land31 by auto.
    change (2 ^ 31) with 2147483648 in *. destruct (p_excl p).
    - replace (N.lor (p_dep p) 2147483648) with (2147483648 + p_dep p).
      + apply be32_val. change (2 ^ 32) with 4294967296. lia.
      + rewrite N.lor_comm. change 2147483648 with (N.shiftl 1 31) at 2. rewrite lor_shift by (change (2 ^ 31) with 2147483648; auto).
        change (1 * 2 ^ 31) with 2147483648. reflexivity.
    - rewrite be32_val; [lia|]. change (2 ^ 32) with 4294967296. lia.
  Qed.

  (** What a serializer writes is the format of what it was given. *)
  Lemma payload_of f : Sendable f -> PayloadOf (h_type (fr_hdr f)) (h_flags (fr_hdr f)) (payload_bytes (fr_hdr f) (fr_pl f)) (fr_pl f).
  Proof.
    assert (M : forall v, v < 2 ^ 31 -> v < 2 ^ 32) by (intros v; change (2 ^ 31) with 2147483648; change (2 ^ 32) with 4294967296; lia).
    intros H. destruct H; cbn [fr_hdr fr_pl payload_bytes]; rewrite H.
    - constructor. constructor; auto.
    - econstructor; auto. constructor; auto.
    - constructor. now apply prio_layout.
    - rewrite <- (be32_val c) at 2 by auto. constructor. reflexivity.
    - rewrite flag_ack. destruct (N.testbit (h_flags h) 0) eqn:E.
      + rewrite (H0 E). apply po_settings_ack. exact E.
      + constructor; [unfold ack; congruence|]. now apply settings_layout.
    - rewrite land31 by auto. pose proof (po_push (h_flags h) (be32 id ++ f) (be32 id) f 0) as X.
      rewrite be32_val in X by auto. rewrite N.mod_small in X by auto. apply X; [constructor; auto|reflexivity].
    - now constructor.
    - rewrite land31 by auto. pose proof (po_goaway (h_flags h) (be32 l) (be32 c) d eq_refl eq_refl) as X.
      rewrite !be32_val in X by auto. rewrite N.mod_small in X by auto. exact X.
    - rewrite land31 by lia. pose proof (po_window (h_flags h) (be32 i)) as X. rewrite be32_val in X by (apply M; lia).
      rewrite N.mod_small in X by lia. apply X; [reflexivity|lia].
    - constructor.
  Qed.

  Lemma parse_payload_len h n l : parse_payload (set_payload_length h n) l = parse_payload h l.
  Proof. reflexivity. Qed.

  Lemma sendable_known f : Sendable f -> known_type (h_type (fr_hdr f)).
  Proof. unfold known_type. intros H. destruct H; cbn [fr_hdr]; lia. Qed.

  Lemma sendable_conn f : Sendable f -> h_type (fr_hdr f) = 4 \/ h_type (fr_hdr f) = 6 \/ h_type (fr_hdr f) = 7 -> get_stream_id (fr_hdr f) = 0.
  Proof. intros H. destruct H; cbn [fr_hdr]; intros; auto; lia. Qed.

  Lemma parse_of_sendable f : Sendable f -> bytes_ok (payload_bytes (fr_hdr f) (fr_pl f)) ->
    N.of_nat (length (payload_bytes (fr_hdr f) (fr_pl f))) < 2 ^ 24 -> payload_bytes (fr_hdr f) (fr_pl f) <> [] ->
    parse_payload (fr_hdr f) (payload_bytes (fr_hdr f) (fr_pl f)) = Some (POk (fr_pl f)).
  Proof.
    intros HS Hb HL Hne. pose proof (payload_of f HS) as HP.
    destruct (parse_payload_exact (fr_hdr f) _ Hb Hne) as (r & -> & [(p & -> & _ & Hu & _)|(e & -> & Hno & _)]).
    - change (2 ^ 24) with 16777216 in HL. change (2 ^ 32) with 4294967296. lia.
    - now apply sendable_known.
    - now rewrite (Hu _ HP).
    - exfalso. eapply Hno; eauto.
  Qed.

  Lemma zero_of_sendable f : Sendable f -> payload_bytes (fr_hdr f) (fr_pl f) = [] -> parse_zero (fr_hdr f) = Some (POk (fr_pl f)).
  Proof.
    intros HS. destruct HS; cbn [fr_hdr fr_pl payload_bytes]; intros E; unfold parse_zero, T_SETTINGS, T_PING, T_HEADERS, T_DATA, T_PRIORITY, T_RST_STREAM, T_GOAWAY, T_WINDOW_UPDATE, T_PUSH_PROMISE, T_CONTINUATION; rewrite H; cbn; try (rewrite E; reflexivity); try (subst; reflexivity); try discriminate.
    - rewrite flag_ack in E. destruct (N.testbit (h_flags h) 0) eqn:EA; [rewrite (H0 EA); reflexivity|].
      apply (f_equal (@length N)) in E. rewrite concat_settings_bytes in E. destruct es; [reflexivity|discriminate].
    - subst o. discriminate.
  Qed.

  Definition with_length (f : frame) : frame :=
    mk_frame (set_payload_length (fr_hdr f) (N.of_nat (length (payload_bytes (fr_hdr f) (fr_pl f))))) (fr_pl f).

  Lemma on_header_pass fr s h : fs_ok fr = true -> cont_allows fr h -> (h_type h = 4 \/ h_type h = 6 \/ h_type h = 7 -> get_stream_id h = 0) ->
    get_payload_length h <= fs_our_max fr ->
    on_header S on fr s h =
      (let fr := set_hdr fr h (get_payload_length h) in
       if get_payload_length h =? 0 then
         let '(fr, s) := zero_dispatch S on fr s in (if fs_ok fr then set_state fr EXPECTING_FRAME_HEADER else fr, s)
       else (set_state fr EXPECTING_FRAME_PAYLOAD, s)).
  Proof.
    intros Hok Hc Hs Hm. unfold on_header. cbv zeta. cbn [fs_cont set_hdr fs_cont_sid fs_our_max fs_expected fs_ok].
    replace (fs_cont fr && negb ((h_type h =? T_CONTINUATION) && (get_stream_id h =? fs_cont_sid fr))) with false.
    2:{ symmetry. destruct (fs_cont fr) eqn:E; [|reflexivity]. destruct (Hc E) as [-> ->]. change (9 =? T_CONTINUATION) with true. rewrite N.eqb_refl. reflexivity. }
    replace ((h_type h =? T_SETTINGS) && negb (get_stream_id h =? 0)) with false.
    2:{ symmetry. destruct (N.eqb_spec (h_type h) T_SETTINGS) as [E|E]; [|reflexivity]. rewrite Hs by auto. reflexivity. }
    replace (((h_type h =? T_PING) || (h_type h =? T_GOAWAY)) && negb (get_stream_id h =? 0)) with false.
    2:{ symmetry. destruct (N.eqb_spec (h_type h) T_PING) as [E|E]; [rewrite Hs by auto; reflexivity|].
        destruct (N.eqb_spec (h_type h) T_GOAWAY) as [E'|E']; [rewrite Hs by auto; reflexivity|reflexivity]. }
    replace (fs_our_max fr <? get_payload_length h) with false by (symmetry; apply N.ltb_ge; auto).
    rewrite Hok. reflexivity.
  Qed.

  (** The framer after dispatching a frame whose handler accepted it. *)
  Definition cont_after (fr : framer) (h : fhdr) (empty : bool) : bool * N :=
    if empty then (fs_cont fr, fs_cont_sid fr)
    else if (h_type h =? 1) || (h_type h =? 5) then
      (negb (N.testbit (h_flags h) 2), if N.testbit (h_flags h) 2 then 0 else get_stream_id h)
    else if h_type h =? 9 then if N.testbit (h_flags h) 2 then (false, 0) else (fs_cont fr, fs_cont_sid fr)
    else (fs_cont fr, fs_cont_sid fr).

  Lemma drive_frame fr s f rest :
    fs_state fr = EXPECTING_FRAME_HEADER -> fs_ok fr = true -> Sendable f -> hdr_ok (fr_hdr f) ->
    bytes_ok (payload_bytes (fr_hdr f) (fr_pl f)) ->
    N.of_nat (length (payload_bytes (fr_hdr f) (fr_pl f))) <= fs_our_max fr -> fs_our_max fr < 2 ^ 24 -> cont_allows fr (fr_hdr f) ->
    exists fr', drive fr s (serialize f ++ rest) = drive fr' (fst (on s (EvFrame (with_length f)))) rest /\
      (snd (on s (EvFrame (with_length f))) = None ->
         fs_state fr' = EXPECTING_FRAME_HEADER /\ fs_ok fr' = true /\ fs_our_max fr' = fs_our_max fr /\
         (fs_cont fr', fs_cont_sid fr') = cont_after fr (fr_hdr f) (match payload_bytes (fr_hdr f) (fr_pl f) with [] => true | _ => false end)) /\
      (forall c, snd (on s (EvFrame (with_length f))) = Some c -> fs_ok fr' = false /\ fs_err fr' = Some c).
  Proof.
    intros Est Hok HS Hh Hb HL Hm Hc. set (body := payload_bytes (fr_hdr f) (fr_pl f)) in *.
    set (h' := set_payload_length (fr_hdr f) (N.of_nat (length body))).
    assert (HL24 : N.of_nat (length body) < 2 ^ 24) by lia.
    assert (Eser : serialize f = hdr_bytes h' ++ body).
    { unfold serialize. fold body. rewrite N.mod_small; [reflexivity|]. change (2 ^ 24) with 16777216 in HL24. change (2 ^ 32) with 4294967296. lia. }
    assert (Elen : get_payload_length h' = N.of_nat (length body)) by (apply get_set_payload_length; auto).
    assert (Ewl : with_length f = mk_frame h' (fr_pl f)) by reflexivity.
    rewrite Eser, <- app_assoc. rewrite drive_unfold, Hok. cbn [negb]. cbv zeta.
    assert (E9 : message_size fr (N.of_nat (length (hdr_bytes h' ++ body ++ rest))) = 9).
    { unfold message_size. rewrite Est, app_length. cbn [length hdr_bytes]. destruct (_ <? 9) eqn:E; [apply N.ltb_lt in E; lia|reflexivity]. }
    rewrite E9. change (9 =? 0) with false. cbv iota. change (N.to_nat 9) with (length (hdr_bytes h')).
    rewrite firstn_length_app, skipn_length_app. unfold H2Model.on_message at 1. rewrite Est, hdr_of_bytes_id.
    rewrite on_header_pass; auto.
    2:{ intros Ht. unfold h'. rewrite get_stream_id_set_length. apply sendable_conn; auto. }
    2:{ rewrite Elen. auto. }
    cbv zeta. rewrite Elen. destruct (N.eqb_spec (N.of_nat (length body)) 0) as [E0|E0].
    - (* empty payload *)
      assert (Eb : body = []) by (destruct body; [reflexivity|cbn [length] in E0; lia]).
      unfold zero_dispatch. cbn [fs_hdr set_hdr].
      replace (parse_zero h') with (Some (POk (fr_pl f))) by (symmetry; apply (zero_of_sendable f HS Eb)).
      rewrite Ewl. unfold call. destruct (on s (EvFrame (mk_frame h' (fr_pl f)))) as [s' r] eqn:Eon.
      rewrite Eb. cbn [app]. destruct r as [c|]; cbn [fst snd].
      + eexists. split; [reflexivity|]. split; [discriminate|]. intros c' Ec. injection Ec as <-. split; reflexivity.
      + eexists. split; [reflexivity|]. split; [|discriminate]. intros _. cbn [fs_ok set_hdr]. rewrite Hok. cbn [fs_state set_state fs_ok set_hdr fs_our_max fs_cont fs_cont_sid].
        repeat split; auto.
    - (* payload follows *)
      set (fr1 := set_state (set_hdr fr h' (N.of_nat (length body))) EXPECTING_FRAME_PAYLOAD).
      rewrite drive_unfold. assert (Eok1 : fs_ok fr1 = true) by exact Hok. rewrite Eok1. cbn [negb]. cbv zeta.
      assert (Ems : message_size fr1 (N.of_nat (length (body ++ rest))) = N.of_nat (length body)).
      { unfold message_size. cbn [fr1 fs_state set_state fs_expected set_hdr]. apply N.eqb_neq in E0. rewrite E0. rewrite app_length.
        destruct (_ <? _) eqn:E; [apply N.ltb_lt in E; lia|reflexivity]. }
      rewrite Ems. pose proof E0 as E0'. apply N.eqb_neq in E0'. rewrite E0'. rewrite Nat2N.id, firstn_length_app, skipn_length_app.
      unfold H2Model.on_message at 1. cbn [fr1 fs_state set_state fs_expected set_hdr fs_hdr]. fold fr1. rewrite N.eqb_refl. cbn [negb]. rewrite E0'.
      unfold payload_dispatch. rewrite Eok1. cbn [negb]. change (fs_hdr fr1) with h'.
      replace (parse_payload h' body) with (Some (POk (fr_pl f))).
      2:{ symmetry. unfold h'. rewrite parse_payload_len. apply parse_of_sendable; auto. intros X. apply E0. change body with (payload_bytes (fr_hdr f) (fr_pl f)). rewrite X. reflexivity. }
      rewrite Ewl. unfold call. destruct (on s (EvFrame (mk_frame h' (fr_pl f)))) as [s' r] eqn:Eon.
      assert (Hemp : (match body with [] => true | _ => false end) = false) by (clear - E0; destruct body; [exfalso; apply E0; reflexivity|reflexivity]).
      rewrite Hemp.
      destruct r as [c|]; cbn [fst snd].
      + eexists. split; [reflexivity|]. split; [discriminate|]. intros c' Ec. injection Ec as <-. split; reflexivity.
      + eexists. split; [reflexivity|]. split; [|discriminate]. intros _.
        assert (Eaf : (fs_cont (after_frame fr1), fs_cont_sid (after_frame fr1)) = cont_after fr (fr_hdr f) false).
        { unfold after_frame. rewrite Eok1. cbn [negb]. change (fs_hdr fr1) with h'. unfold cont_after, T_HEADERS, T_PUSH_PROMISE, T_CONTINUATION.
          change (h_type h') with (h_type (fr_hdr f)). change (h_flags h') with (h_flags (fr_hdr f)). change (get_stream_id h') with (get_stream_id (fr_hdr f)).
          rewrite flag_end_headers. destruct (_ || _); [destruct (N.testbit _ 2); reflexivity|]. destruct (_ =? 9); [|reflexivity].
          destruct (N.testbit _ 2); reflexivity. }
        assert (Eaf2 : fs_ok (after_frame fr1) = true /\ fs_our_max (after_frame fr1) = fs_our_max fr).
        { unfold after_frame. repeat match goal with |- context [if ?b then _ else _] => destruct b end; split; auto. }
        cbn [set_expected set_hdr set_state fs_state fs_ok fs_our_max fs_cont fs_cont_sid]. destruct Eaf2 as [-> ->]. repeat split; auto.
  Qed.
End LOOP.
