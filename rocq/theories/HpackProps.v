(** Properties C08-C19: HPACK. *)
From Verif Require Import Base HpackTables HpackModel HpackSpec HpackIntProofs HuffmanProofs DynTableProofs
  HpackCodecProofs HpackConnProofs.
Local Open Scope N_scope.

(** ** C08 *)
Theorem hpack_int_roundtrip : forall n pattern v rest,
  1 <= n <= 8 -> pattern < 256 -> pattern mod 2 ^ n = 0 -> v < 2 ^ 64 -> bytes_ok rest ->
  decode_integer n (encode_integer pattern n v ++ rest) = Some (v, rest).
Proof. intros n p v rest [H1 H8] Hp Hm Hv Hr. apply decode_encode_integer; auto. split; auto. Qed.
Print Assumptions hpack_int_roundtrip.

(** The encoding is the one RFC 7541 5.1 prescribes, and keeps the instruction bits. *)
Theorem hpack_int_encoding_rfc : forall n pattern v,
  1 <= n <= 8 -> pattern < 256 -> pattern mod 2 ^ n = 0 ->
  IntRepr n (encode_integer pattern n v) v /\
  exists b r, encode_integer pattern n v = b :: r /\ b / 2 ^ n = pattern / 2 ^ n.
Proof.
  intros n p v [H1 H8] Hp Hm. assert (HP : high_pattern n p) by (split; auto).
  split; [apply encode_integer_repr; auto|].
  destruct (encode_integer_first n p v H1 H8 HP) as (b & r & E & A & B). exists b, r. split; auto.
  assert (H0 : 2 ^ n <> 0) by (apply N.pow_nonzero; lia).
  pose proof (N.div_mod p (2 ^ n) H0) as D. rewrite Hm in D.
  symmetry. apply (N.div_unique b (2 ^ n) (p / 2 ^ n) (b - p)); lia.
Qed.
Print Assumptions hpack_int_encoding_rfc.

Example hpack_int_ex : encode_integer 64 6 1337 = [127; 250; 9] /\ decode_integer 6 [127; 250; 9; 7] = Some (1337, [7]).
Proof. split; reflexivity. Qed.

(** ** C09 *)
Theorem hpack_int_decode_exact : forall n s v rest, 1 <= n <= 8 -> bytes_ok s ->
  (decode_integer n s = Some (v, rest) <->
   exists bs, s = bs ++ rest /\ IntRepr n bs v /\ v < 2 ^ 64 /\ (length bs <= 11)%nat).
Proof. intros n s v rest [H1 H8] Hs. now apply decode_integer_spec. Qed.
Print Assumptions hpack_int_decode_exact.

Theorem hpack_int_repr_unique : forall n bs v rest bs' v' rest',
  IntRepr n bs v -> IntRepr n bs' v' -> bs ++ rest = bs' ++ rest' -> bs = bs' /\ v = v' /\ rest = rest'.
Proof. exact IntRepr_det. Qed.

Example hpack_int_decode_ex :
  decode_integer 5 [31; 154; 10; 99] = Some (1337, [99]) /\
  decode_integer 8 [255; 128; 254; 255; 255; 255; 255; 255; 255; 255; 1] = Some (18446744073709551615, []) /\
  decode_integer 8 [255; 129; 254; 255; 255; 255; 255; 255; 255; 255; 1] = None /\
  decode_integer 8 [255; 128; 128; 128; 128; 128; 128; 128; 128; 128; 128; 0] = None.
Proof. repeat split; vm_compute; reflexivity. Qed.

(** ** C10 *)
Theorem huffman_roundtrip : forall s, bytes_ok s -> huffman_decode (huffman_encode s) = Some s.
Proof. intros s Hs. apply huffman_decode_iff; auto using huffman_encode_bytes. Qed.
Print Assumptions huffman_roundtrip.

Theorem huffman_encode_is_rfc : forall s, bytes_ok s -> HuffRepr (huffman_encode s) s.
Proof. exact huffman_encode_repr. Qed.
Print Assumptions huffman_encode_is_rfc.

Example huffman_ex : huffman_encode (str "www.example.com") = [241; 227; 194; 229; 242; 58; 107; 160; 171; 144; 244; 255].
Proof. reflexivity. Qed.

(** ** C11 *)
Theorem huffman_decode_canonical : forall d s, bytes_ok d ->
  (huffman_decode d = Some s <-> bytes_ok s /\ d = huffman_encode s).
Proof. exact huffman_decode_iff. Qed.
Print Assumptions huffman_decode_canonical.

(** In terms of the RFC: accepted exactly when the bits are code words of bytes (never EOS) followed
    by at most seven one bits. *)
Theorem huffman_decode_exact : forall d s, bytes_ok d ->
  (huffman_decode d = Some s <-> bytes_ok s /\ HuffRepr d s).
Proof. exact huffman_decode_spec. Qed.
Print Assumptions huffman_decode_exact.

Example huffman_reject_ex :
  huffman_decode [255; 255; 255; 252] = None (* EOS *) /\ huffman_decode [255] = None (* 8 bits of padding *) /\
  huffman_decode [28] = None (* padding 100 *) /\ huffman_decode [31] = Some (str "a").
Proof. repeat split; vm_compute; reflexivity. Qed.

(** ** C12 *)
Theorem huffman_size_exact : forall s, bytes_ok s ->
  N.of_nat (length (huffman_encode s)) = calculate_huffman_encoded_size s.
Proof. exact huffman_encode_size. Qed.
Print Assumptions huffman_size_exact.

Theorem string_literal_never_longer : forall s allow, bytes_ok s ->
  (length (encode_string_literal s allow) <= length (encode_string_literal s false))%nat.
Proof.
  intros s allow Hs. unfold encode_string_literal. cbn [andb].
  destruct (allow && should_use_huffman s) eqn:E; [|lia].
  apply andb_true_iff in E as [_ E]. unfold should_use_huffman in E. apply N.ltb_lt in E.
  fold (calculate_huffman_encoded_size s) in E. rewrite <- huffman_encode_size in E by auto.
  rewrite !app_length.
  assert (HM : forall fuel fuel' a b, a <= b -> b < 2 ^ N.of_nat (fuel' - 1) -> (1 <= fuel')%nat ->
            (length (encode_int_tail fuel a) <= length (encode_int_tail fuel' b))%nat).
  { induction fuel as [|f IH]; intros fuel' a b Hab Hb Hf; cbn [encode_int_tail]; [simpl; lia|].
    destruct fuel' as [|f']; [lia|]. cbn [encode_int_tail].
    destruct (128 <=? a) eqn:E1; apply N.leb_le in E1 || apply N.leb_gt in E1.
    - replace (128 <=? b) with true by (symmetry; apply N.leb_le; lia). cbn [length]. apply le_n_S.
      destruct f' as [|f']; [simpl in Hb; change (2 ^ 0) with 1 in Hb; lia|].
      apply IH; [apply N.div_le_mono; lia| |lia].
      apply N.div_lt_upper_bound; [lia|].
      replace (N.of_nat (S (S f') - 1)) with (1 + N.of_nat (S f' - 1)) in Hb by lia.
      rewrite N.pow_add_r in Hb. change (2 ^ 1) with 2 in Hb. lia.
    - destruct (128 <=? b); cbn [length]; lia. }
  assert (HI : forall a b, a <= b -> (length (encode_integer 128 7 a) <= length (encode_integer 0 7 b))%nat).
  { intros a b Hab. unfold encode_integer. change (w8 (N.shiftl 1 7 - 1)) with 127.
    destruct (a <? 127) eqn:E1; destruct (b <? 127) eqn:E2; cbn [length]; try lia.
    apply le_n_S. apply HM; [lia|apply size_nat_bound|lia]. }
  specialize (HI (len (huffman_encode s)) (len s)). unfold len in *. lia.
Qed.
Print Assumptions string_literal_never_longer.

Example string_literal_ex : length (encode_string_literal (str "no-cache") true) = 7%nat /\
  length (encode_string_literal (str "no-cache") false) = 9%nat /\
  encode_string_literal [1; 2] true = encode_string_literal [1; 2] false.
Proof. repeat split; vm_compute; reflexivity. Qed.

(** ** C13 *)
Definition dt_op (d : dtable) (op : TableOp) : option dtable :=
  match op with
  | TAdd p => dt_add d (fst p) (snd p)
  | TResize m => dt_set_max d m
  | TClear => Some (dt_clear d)
  end.
Fixpoint dt_run (d : dtable) (ops : list TableOp) : option dtable :=
  match ops with
  | [] => Some d
  | op :: r => match dt_op d op with None => None | Some d' => dt_run d' r end
  end.
Definition resize_ok (op : TableOp) : Prop := match op with TResize m => m < 2 ^ 64 | _ => True end.

Lemma dt_run_ok : forall ops d t, dwf d t -> Forall resize_ok ops ->
  exists d' t', dt_run d ops = Some d' /\ dwf d' t' /\ TableRun (dt_max d, t) ops (dt_max d', t').
Proof.
  induction ops as [|op ops IH]; intros d t W HF.
  - exists d, t. repeat split; try apply W. constructor.
  - inversion HF as [|? ? Ho HF']; subst. cbn [dt_run].
    assert (HS : exists d1 t1, dt_op d op = Some d1 /\ dwf d1 t1 /\ TableStep (dt_max d, t) op (dt_max d1, t1)).
    { destruct op as [[n v]|m|]; cbn [dt_op fst snd].
      - destruct (dt_add_spec d t n v W) as (d1 & t1 & A & B & C). eauto.
      - destruct (dt_set_max_spec d t m W Ho) as (d1 & t1 & A & B & C & D). exists d1, t1. repeat split; auto; try apply B.
        rewrite C. now constructor.
      - destruct (dt_clear_spec d t W) as [A B]. exists (dt_clear d), []. repeat split; auto; try apply A. rewrite B. constructor. }
    destruct HS as (d1 & t1 & E1 & W1 & S1). rewrite E1.
    destruct (IH d1 t1 W1 HF') as (d2 & t2 & E2 & W2 & R2). exists d2, t2. repeat split; auto; try apply W2.
    econstructor; eauto.
Qed.

(** Every history runs without leaving the ring and shows the table the RFC rules leave. *)
Theorem dynamic_table_is_rfc_fifo : forall ops, Forall resize_ok ops ->
  exists d t, dt_run dt_init ops = Some d /\ TableRun (4096, []) ops (dt_max d, t) /\
    dt_count d = N.of_nat (length t) /\ dt_bytes d = table_size t /\ table_size t <= dt_max d /\
    forall i p, nth_error t i = Some p ->
      dt_get d (N.of_nat i) = Some (mk_entry (fst p) (snd p) (entry_size p)).
Proof.
  intros ops HF. destruct (dt_run_ok ops dt_init [] dwf_init HF) as (d & t & E & W & R).
  exists d, t. destruct W as ((C & B & _ & S & _) & M & _). repeat split; auto.
Qed.
Print Assumptions dynamic_table_is_rfc_fifo.

(** The specified table is unique, so the ring shows nothing else. *)
Theorem rfc_table_unique : forall ops s a b, TableRun s ops a -> TableRun s ops b -> a = b.
Proof.
  intros ops s a b HA. revert b. induction HA; intros b HB; inversion HB; subst; auto.
  match goal with H1 : TableStep s op ?x, H2 : TableStep s op ?y |- _ => pose proof (TableStep_det _ _ _ _ H1 H2); subst end. auto.
Qed.

Example dynamic_table_ex :
  let e n := ([n], @nil N) in
  option_map (fun d => map (fun i => option_map e_name (dt_get d (N.of_nat i))) (seq 0 (N.to_nat (dt_count d))))
    (dt_run dt_init [TResize 70; TAdd (e 1); TAdd (e 2); TAdd (e 3)]) = Some [Some [3]; Some [2]].
Proof. vm_compute. reflexivity. Qed.

(** ** C14 *)

(** A history on one connection: header lists are encoded in order; in between the peer's table
    size setting arrives or the encoder's own capacity is lowered.  Each block is decoded in order. *)
Inductive event := Send (fs : list field) | PeerTableSize (m : N) | LowerCapacity (m : N).

Inductive Exchange : encoder -> decoder -> list event -> list (list field * outcome (list field)) -> Prop :=
| Ex_nil e d : Exchange e d [] []
| Ex_send e d fs e' bytes d' res h rs :
    encode e fs = Some (e', bytes, true) -> decode d bytes = (d', res) ->
    Exchange e' d' h rs -> Exchange e d (Send fs :: h) ((fs, res) :: rs)
| Ex_peer e d m e' h rs :
    enc_set_peer_max e m = Some e' -> Exchange e' d h rs -> Exchange e d (PeerTableSize m :: h) rs
| Ex_lower e d m e' h rs :
    m <= dt_max (enc_table e) -> enc_set_max_capacity e m = Some e' ->
    Exchange e' d h rs -> Exchange e d (LowerCapacity m :: h) rs.

Definition ev_ok (maxlist : N) (ev : event) : Prop :=
  match ev with
  | Send fs => Forall field_ok fs /\ (maxlist = 0 \/ list_size (map nv fs) <= maxlist)
  | _ => True
  end.

(** Encoder and decoder are in step: the encoder sees a prefix of the decoder's table and has no
    larger budget. *)
Definition in_sync (e : encoder) (d : decoder) : Prop :=
  exists t r, dwf (enc_table e) t /\ dwf (dec_table d) (t ++ r) /\
              dt_max (enc_table e) <= dt_max (dec_table d) /\ dec_limit d < 2 ^ 64.

Lemma init_in_sync : in_sync enc_init dec_init.
Proof. exists [], []. repeat split; try apply dwf_init; try reflexivity; cbn; discriminate. Qed.

Lemma delivered_size t all fs vs : Forall2 (delivered t all) fs vs -> view_size vs = list_size (map nv fs).
Proof.
  induction 1 as [|f v fs vs [H1 _] _ IH]; auto. rewrite view_size_cons, H1, IH. reflexivity.
Qed.

Lemma enc_shrink_sync e d m d' : in_sync e d -> m <= dt_max (enc_table e) -> m < 2 ^ 64 ->
  dt_set_max (enc_table e) m = Some d' -> forall x, in_sync (mk_enc d' x) d.
Proof.
  intros (t & r & WE & WD & HM & HL) Hm Hm2 E x.
  destruct (dt_set_max_spec _ _ m WE Hm2) as (d2 & t2 & E2 & W2 & M2 & ([z Hz] & _)).
  rewrite E in E2. injection E2 as <-. exists t2, (z ++ r). cbn [enc_table].
  split; [exact W2|]. split; [rewrite app_assoc, <- Hz; exact WD|]. split; [lia|exact HL].
Qed.

Lemma step_sync e d fs e' bytes ok : in_sync e d -> Forall field_ok fs ->
  encode e fs = Some (e', bytes, ok) -> ok = true ->
  dec_max_list d = 0 \/ list_size (map nv fs) <= dec_max_list d ->
  exists d' hs t, decode d bytes = (d', OOk hs) /\ dwf (enc_table e) t /\
    Forall2 (delivered t fs) fs (map view hs) /\ in_sync e' d' /\ dec_max_list d' = dec_max_list d.
Proof.
  intros (t & r & WE & WD & HM & HL) HF E -> Hsz. unfold encode in E.
  destruct (encode_fields_spec fs (enc_table e) t WE HF) as (d1 & t1 & out & ok & E1 & W1 & M1 & B1 & K1 & _ & S1).
  rewrite E1 in E. injection E as <- <- ->.
  destruct (S1 eq_refl (dec_limit d) true (dt_max (dec_table d)) r HM) as (vs & r1 & HB & HD & _).
  destruct (decode_loop_complete _ (dec_max_list d) _ _ _ _ _ HB (length out) (dec_table d) 0) as (d2 & hs & E2 & Eh & W2 & M2); auto.
  { destruct Hsz as [Hsz|Hsz]; [auto|right]. rewrite N.add_0_l, (delivered_size _ _ _ _ HD). exact Hsz. }
  unfold decode. rewrite E2. eexists _, hs, t. split; [reflexivity|]. split; [exact WE|].
  split; [rewrite Eh; exact HD|]. split; [|reflexivity].
  exists t1, r1. cbn [enc_table dec_table dec_limit]. cbn [fst snd] in M2, W2. repeat split; auto; try apply W1; try apply W2. lia.
Qed.

Lemma enc_step_total e d fs : in_sync e d -> Forall field_ok fs -> exists r, encode e fs = Some r.
Proof.
  intros (t & r & WE & _) HF. destruct (encode_fields_spec fs (enc_table e) t WE HF) as (d1 & t1 & out & ok & E1 & _).
  unfold encode. rewrite E1. eauto.
Qed.

Lemma sync_max e d : in_sync e d -> dt_max (enc_table e) < 2 ^ 64.
Proof. intros (t & r & ((_ & _ & H) & _)). apply H. Qed.

Theorem hpack_connection_roundtrip : forall h rs,
  Exchange enc_init dec_init h rs -> Forall (ev_ok (dec_max_list dec_init)) h ->
  Forall (fun '(sent, received) => exists hs, received = OOk hs /\ map nv hs = map nv sent) rs.
Proof.
  assert (G : forall h e d rs, Exchange e d h rs -> in_sync e d -> Forall (ev_ok (dec_max_list d)) h ->
    Forall (fun '(sent, received) => exists hs, received = OOk hs /\ map nv hs = map nv sent) rs).
  { intros h e d rs HX. induction HX as [e d|e d fs e' bytes d' res h rs E D HX IH|e d m e' h rs E HX IH|e d m e' h rs Hm E HX IH];
      intros HS HF; inversion HF as [|? ? Hev HF']; subst; auto.
    - destruct Hev as [Hok Hsz].
      destruct (step_sync e d fs e' bytes true HS Hok E eq_refl Hsz) as (d2 & hs & t & D2 & _ & HD & HS2 & HM).
      rewrite D in D2. injection D2 as <- ->. constructor; [|apply IH; auto; rewrite HM; auto].
      exists hs. split; [reflexivity|].
      assert (HN : forall a, map nv a = map fst (map view a)) by (intros a; rewrite map_map; reflexivity).
      rewrite HN. assert (HG : forall a b, Forall2 (delivered t fs) a b -> map fst b = map nv a).
      { clear. induction 1 as [|f v a vs [H1 _] _ IH]; cbn [map]; congruence. }
      apply HG. exact HD.
    - apply IH; auto. unfold enc_set_peer_max in E. pose proof (sync_max _ _ HS). destruct (m <? dt_max (enc_table e)) eqn:EM.
      + apply N.ltb_lt in EM. destruct (dt_set_max (enc_table e) m) as [d1|] eqn:ED; [|discriminate]. injection E as <-.
        apply (enc_shrink_sync e d m d1); auto; lia.
      + injection E as <-. destruct HS as (t & r & A). exists t, r. exact A.
    - apply IH; auto. unfold enc_set_max_capacity in E. pose proof (sync_max _ _ HS).
      destruct (dt_set_max (enc_table e) m) as [d1|] eqn:ED; [|discriminate]. injection E as <-.
      apply (enc_shrink_sync e d m d1); auto; lia. }
  intros h rs HX HF. eapply G; eauto. apply init_in_sync.
Qed.
Print Assumptions hpack_connection_roundtrip.

(** The encoder accepts a list exactly when every field passes validation (so the histories above
    are all histories of such lists), and never leaves its ring. *)
Theorem hpack_encode_accepts : forall e d fs, in_sync e d -> Forall field_ok fs ->
  exists e' bytes ok, encode e fs = Some (e', bytes, ok) /\
    (ok = true <-> Forall (fun f => hv_is_valid_field f = true) fs).
Proof.
  intros e d fs (t & r & WE & _) HF. destruct (encode_fields_spec fs (enc_table e) t WE HF) as (d1 & t1 & out & ok & E1 & _ & _ & _ & K & _).
  unfold encode. rewrite E1. eauto.
Qed.
Print Assumptions hpack_encode_accepts.

Definition rt_ex_fields : list field :=
  [mk_field (str ":method") (str "PUT") false; mk_field (str "x-a") (str "1") false;
   mk_field (str "cookie") (str "s=1") false].

(* sends the list twice; lengths of both blocks and what the peer's decoder delivers *)
Definition rt_run (e0 : encoder) (d0 : decoder) (fs : list field) : option (nat * nat * outcome (list field) * outcome (list field)) :=
  match encode e0 fs with
  | Some (e1, b1, true) =>
      match encode e1 fs with
      | Some (_, b2, true) =>
          let '(d1, r1) := decode d0 b1 in Some (length b1, length b2, r1, snd (decode d1 b2))
      | _ => None
      end
  | _ => None
  end.

Example hpack_roundtrip_ex :
  ev_ok 4294967295 (Send rt_ex_fields) /\
  exists l1 l2 r, rt_run enc_init dec_init rt_ex_fields = Some (l1, l2, r, r) /\ (l2 < l1)%nat /\
    r = OOk [mk_field (str ":method") (str "PUT") true; mk_field (str "x-a") (str "1") false;
             mk_field (str "cookie") (str "s=1") true].
Proof.
  split.
  - split; [repeat constructor|]. right. vm_compute. discriminate.
  - eexists _, _, _. split; [vm_compute; reflexivity|]. split; [lia|reflexivity].
Qed.

(** ** C15 *)
Definition MustNotIndex (f : field) : Prop :=
  f_sensitive f = true \/ SensitiveName (f_name f) \/ PseudoName (f_name f).

Lemma sens_class_iff f : sens_class f = true <-> MustNotIndex f.
Proof.
  unfold sens_class, MustNotIndex, SensitiveName, PseudoName, is_sensitive_by_default, is_pseudo_header.
  rewrite !orb_true_iff, !beq_eq, is_prefix_spec.
  assert (HP : (match f_name f with [] => false | c :: _ => c =? 58 end = true) <-> exists r, f_name f = 58 :: r).
  { destruct (f_name f) as [|c r]; split; intros H; try discriminate.
    - destruct H; discriminate.
    - apply N.eqb_eq in H. subst. eauto.
    - destruct H as [q H]. injection H as -> _. reflexivity. }
  rewrite HP. tauto.
Qed.

(** Whatever was encoded, a pair in either table afterwards was there before or belongs to a field of
    the list that may be indexed; a field that must not be indexed is reported as sensitive by the
    decoder unless its exact pair is available in a table. *)
Theorem sensitive_never_indexed : forall e d fs e' bytes,
  in_sync e d -> Forall field_ok fs -> encode e fs = Some (e', bytes, true) ->
  dec_max_list d = 0 \/ list_size (map nv fs) <= dec_max_list d ->
  exists te td te' td' d' hs,
    dwf (enc_table e) te /\ dwf (dec_table d) td /\ dwf (enc_table e') te' /\ dwf (dec_table d') td' /\
    decode d bytes = (d', OOk hs) /\
    (forall p, In p te' -> In p te \/ exists f, In f fs /\ p = nv f /\ ~ MustNotIndex f) /\
    (forall p, In p td' -> In p td \/ exists f, In f fs /\ p = nv f /\ ~ MustNotIndex f) /\
    Forall2 (fun f g => nv g = nv f /\
      (MustNotIndex f -> f_sensitive g = true \/ In (nv f) (STATIC_TABLE ++ te) \/
         exists f', In f' fs /\ nv f' = nv f /\ ~ MustNotIndex f')) fs hs.
Proof.
  intros e d fs e' bytes (t & r & WE & WD & HM & HL) HF E Hsz. unfold encode in E.
  destruct (encode_fields_spec fs (enc_table e) t WE HF) as (d1 & t1 & out & ok & E1 & W1 & M1 & B1 & K1 & I1 & S1).
  rewrite E1 in E. injection E as <- <- ->.
  destruct (S1 eq_refl (dec_limit d) true (dt_max (dec_table d)) r HM) as (vs & r1 & HB & HD & HI).
  destruct (decode_loop_complete _ (dec_max_list d) _ _ _ _ _ HB (length out) (dec_table d) 0) as (d2 & hs & E2 & Eh & W2 & M2); auto.
  { destruct Hsz as [Hsz|Hsz]; [auto|right]. rewrite N.add_0_l, (delivered_size _ _ _ _ HD). exact Hsz. }
  exists t, (t ++ r), t1, (t1 ++ r1). unfold decode. rewrite E2. eexists _, hs. cbn [enc_table dec_table snd] in *.
  assert (HNM : forall f, sens_class f = false -> ~ MustNotIndex f).
  { intros f Hf H. apply sens_class_iff in H. congruence. }
  repeat split; auto; try apply WE; try apply WD; try apply W1; try apply W2.
  - intros p Hp. destruct (I1 p Hp) as [|(f & A & B & C)]; [auto|right; exists f; auto].
  - intros p Hp. destruct (HI p Hp) as [|(f & A & B & C)]; [auto|right; exists f; auto].
  - subst vs.
    assert (HG : forall al fs0, Forall2 (delivered t al) fs0 (map view hs) ->
      Forall2 (fun f g => nv g = nv f /\ (MustNotIndex f -> f_sensitive g = true \/ In (nv f) (STATIC_TABLE ++ t) \/
         exists f', In f' al /\ nv f' = nv f /\ ~ MustNotIndex f')) fs0 hs).
    { intros al. clear -HNM. induction hs as [|g hs IH]; intros fs0 H; inversion H as [|f v fs1 vs1 [H1 H2] H3]; subst; constructor.
      - split; [exact H1|]. intros Hm. apply sens_class_iff in Hm. cbn [view snd] in H2.
        destruct (f_sensitive g) eqn:Eg; [auto|right]. destruct (H2 Hm eq_refl) as [|(f' & A & B & C)]; [auto|right; exists f'; auto].
      - apply IH. assumption. }
    apply HG. exact HD.
Qed.
Print Assumptions sensitive_never_indexed.

Example sensitive_ex : match encode enc_init [mk_field (str "set-cookie2") (str "z") false] with
  | Some (e, b, true) => dt_count (enc_table e) = 0 /\ snd (decode dec_init b) = OOk [mk_field (str "set-cookie2") (str "z") true]
  | _ => False end.
Proof. vm_compute. auto. Qed.

(** ** C16 *)

(** States a decoder can reach: any bytes decoded (accepted or not), any settings. *)
Inductive DecReach : decoder -> Prop :=
| DR_init : DecReach dec_init
| DR_decode d block d' res : DecReach d -> bytes_ok block -> decode d block = (d', res) -> DecReach d'
| DR_table d m d' : DecReach d -> m < 2 ^ 32 -> dec_set_max_table d m = Some d' -> DecReach d'
| DR_list d m : DecReach d -> m < 2 ^ 32 -> DecReach (dec_set_max_list d m)
| DR_reset d : DecReach d -> DecReach (dec_reset d).

Definition dec_wf (d : decoder) (t : list pair_t) : Prop :=
  dwf (dec_table d) t /\ dt_max (dec_table d) <= dec_limit d /\ dec_limit d < 2 ^ 64.

Lemma reach_wf d : DecReach d -> exists t, dec_wf d t.
Proof.
  induction 1 as [|d block d' res H (t & W & M & L) Hb E|d m d' H (t & W & M & L) Hm E|d m H (t & W & M & L) Hm|d H (t & W & M & L)].
  - exists []. split; [apply dwf_init|]. split; [discriminate|reflexivity].
  - unfold decode in E. destruct (decode_loop _ _ _ _ _ _ _) as [d1 r1] eqn:E1. injection E as <- <-.
    destruct (decode_loop_sound _ _ _ _ _ _ _ _ _ _ W Hb L (Nat.le_refl _) E1) as (_ & (t1 & W1) & M1 & _).
    exists t1. split; [exact W1|]. cbn [dec_table dec_limit]. split; [lia|exact L].
  - unfold dec_set_max_table in E. assert (Hm2 : m < 2 ^ 64) by (eapply N.lt_trans; [exact Hm|reflexivity]).
    destruct (dt_set_max_spec _ _ m W Hm2) as (d1 & t1 & E1 & W1 & M1 & _). rewrite E1 in E. injection E as <-.
    exists t1. split; [exact W1|]. cbn. split; [lia|auto].
  - exists t. split; [exact W|]. split; auto.
  - destruct (dt_clear_spec _ _ W) as [W1 M1]. exists []. split; [exact W1|]. unfold dec_reset. cbn [dec_table dec_limit]. rewrite M1. auto.
Qed.

Theorem decoder_table_within_limit : forall d, DecReach d ->
  exists t, dwf (dec_table d) t /\ dt_bytes (dec_table d) = table_size t /\
            table_size t <= dt_max (dec_table d) /\ dt_max (dec_table d) <= dec_limit d.
Proof.
  intros d H. destruct (reach_wf d H) as (t & W & M & L). exists t. pose proof W as ((_ & B & _) & S & _). auto.
Qed.
Print Assumptions decoder_table_within_limit.

(** No byte string makes a reachable decoder read outside its tables or its input. *)
Theorem decoder_total : forall d block, DecReach d -> bytes_ok block -> snd (decode d block) <> OUndef.
Proof.
  intros d block H Hb. destruct (reach_wf d H) as (t & W & M & L). unfold decode.
  destruct (decode_loop _ _ _ _ _ _ _) as [d1 r1] eqn:E1.
  destruct (decode_loop_sound _ _ _ _ _ _ _ _ _ _ W Hb L (Nat.le_refl _) E1) as (U & _). exact U.
Qed.
Print Assumptions decoder_total.

(** ** C17: acceptance is exactly RFC 7541 plus the header list limit. *)
Theorem hpack_decode_exact : forall d t block, DecReach d -> bytes_ok block -> dwf (dec_table d) t ->
  (forall d' hs, decode d block = (d', OOk hs) ->
     (exists t', dwf (dec_table d') t' /\
        Block (dec_limit d) true block (dt_max (dec_table d), t) (map view hs) (dt_max (dec_table d'), t')) /\
     (dec_max_list d = 0 \/ list_size (map nv hs) <= dec_max_list d)) /\
  (forall fs st', Block (dec_limit d) true block (dt_max (dec_table d), t) fs st' ->
     dec_max_list d = 0 \/ list_size (map fst fs) <= dec_max_list d ->
     exists d' hs, decode d block = (d', OOk hs) /\ map view hs = fs).
Proof.
  intros d t block H Hb Wt. destruct (reach_wf d H) as (t0 & W & M & L).
  assert (t0 = t) by (eapply dwf_unique; eauto). subst t0.
  assert (HV : forall hs, view_size (map view hs) = list_size (map nv hs)).
  { induction hs as [|g hs IH]; auto. cbn [map]. rewrite view_size_cons, IH. reflexivity. }
  assert (HV2 : forall fs, view_size fs = list_size (map fst fs)).
  { induction fs as [|[p b] fs IH]; auto. cbn [map view_size]. rewrite IH. reflexivity. }
  unfold decode. split.
  - intros d' hs E. destruct (decode_loop _ _ _ _ _ _ _) as [d1 r1] eqn:E1. injection E as <- ->.
    destruct (decode_loop_sound _ _ _ _ _ _ _ _ _ _ W Hb L (Nat.le_refl _) E1) as (_ & _ & _ & S).
    destruct (S hs eq_refl) as [A B]; [right; lia|]. split; [exact A|]. rewrite <- HV. rewrite N.add_0_l in B. exact B.
  - intros fs st' HB Hsz. rewrite <- HV2 in Hsz.
    destruct (decode_loop_complete _ (dec_max_list d) _ _ _ _ _ HB (length block) (dec_table d) 0) as (d2 & hs & E2 & Eh & _); auto.
    rewrite E2. eauto.
Qed.
Print Assumptions hpack_decode_exact.

Lemma Instr_det limit bs st fo st' bs2 r r2 fo2 st2' d t :
  bytes_ok (bs ++ r) -> limit < 2 ^ 64 -> dwf d t -> st = (dt_max d, t) ->
  bs ++ r = bs2 ++ r2 -> Instr limit bs st fo st' -> Instr limit bs2 st fo2 st2' -> fo = fo2 /\ r = r2 /\ st' = st2'.
Proof.
  intros Hok HL W -> E HI HI2.
  assert (Hne : bs ++ r <> []) by (pose proof (Instr_nonempty _ _ _ _ _ HI); destruct bs; [congruence|discriminate]).
  destruct (decode_instruction_spec d t limit true (bs ++ r) W Hok HL Hne) as (_ & _ & HC).
  destruct (HC bs r fo st' eq_refl HI ltac:(reflexivity)) as (d1 & o1 & E1 & V1 & W1 & M1).
  destruct (HC bs2 r2 fo2 st2' E HI2 ltac:(reflexivity)) as (d2 & o2 & E2 & V2 & W2 & M2).
  rewrite E1 in E2. injection E2 as -> -> ->. split; [congruence|]. split; [reflexivity|].
  rewrite (surjective_pairing st'), (surjective_pairing st2'). rewrite (dwf_unique _ _ _ W1 W2). congruence.
Qed.

(** C16, second part: a size update above the limit is rejected ... *)
Theorem oversize_update_rejected : forall d upd_bytes m rest, DecReach d -> bytes_ok (upd_bytes ++ rest) ->
  starts 32 63 upd_bytes -> IntRepr 5 upd_bytes m -> dec_limit d < m ->
  exists d' fl, decode d (upd_bytes ++ rest) = (d', OFail fl).
Proof.
  intros d ub m rest H Hb HS HI Hm. destruct (reach_wf d H) as (t & W & M & L).
  destruct (decode d (ub ++ rest)) as [d' [fl| |hs]] eqn:E; [eauto| |].
  - exfalso. eapply (decoder_total d (ub ++ rest)); eauto. rewrite E. reflexivity.
  - exfalso. destruct (hpack_decode_exact d t (ub ++ rest) H Hb W) as [A _].
    destruct (A d' hs E) as ((t' & W' & B) & _).
    assert (Hne : ub <> []) by (destruct HS as (b & q & -> & _); discriminate).
    assert (HX : forall bs2 r2 fo st', ub ++ rest = bs2 ++ r2 -> Instr (dec_limit d) bs2 (dt_max (dec_table d), t) fo st' -> False).
    { intros bs2 r2 fo st' E2 HI2. destruct HS as (b & q & Eub & Hlo & Hhi).
      assert (Hfirst : forall lo hi x, starts lo hi x -> (exists y, bs2 = x ++ y) -> lo <= b <= hi).
      { intros lo hi x (b' & q' & -> & A1 & A2) [y ->]. rewrite Eub in E2. simpl in E2. injection E2 as -> _. auto. }
      inversion HI2; subst;
        match goal with S : starts ?lo ?hi ?x |- _ => assert (lo <= b <= hi) by (eapply (Hfirst lo hi x S); first [exists []; rewrite app_nil_r; reflexivity | eexists; reflexivity]) end;
        try lia.
      match goal with Wm : WireInt 5 _ ?m2 |- _ => destruct Wm as (HI3 & _) end.
      destruct (IntRepr_det 5 _ _ _ _ _ _ HI HI3 E2) as (_ & Em & _). lia. }
    inversion B; subst.
    + destruct ub; [congruence|discriminate].
    + eapply HX; [symmetry|]; eauto.
    + eapply HX; [symmetry|]; eauto.
Qed.
Print Assumptions oversize_update_rejected.

(** ... and so is any size update after a field. *)
Theorem late_update_rejected : forall d t field_bytes f st1 upd_bytes rest, DecReach d ->
  bytes_ok (field_bytes ++ upd_bytes ++ rest) -> dwf (dec_table d) t ->
  Instr (dec_limit d) field_bytes (dt_max (dec_table d), t) (Some f) st1 -> starts 32 63 upd_bytes ->
  exists d' fl, decode d (field_bytes ++ upd_bytes ++ rest) = (d', OFail fl).
Proof.
  intros d t fb f st1 ub rest H Hb Wt HI HS.
  destruct (decode d (fb ++ ub ++ rest)) as [d' [fl| |hs]] eqn:E; [eauto| |].
  - exfalso. eapply (decoder_total d (fb ++ ub ++ rest)); eauto. rewrite E. reflexivity.
  - exfalso. destruct (reach_wf d H) as (t0 & W & M & L).
    destruct (hpack_decode_exact d t (fb ++ ub ++ rest) H Hb Wt) as [A _].
    destruct (A d' hs E) as ((t' & W' & B) & _).
    pose proof (Instr_nonempty _ _ _ _ _ HI) as Hne.
    inversion B as [ok0 st0 E1 E2 E3 E4|ok0 bs2 r2 st0 f2 st2 fs2 st3 HI2 B2 E1 E2|bs2 r2 st0 st2 fs2 st3 HI2 B2 E1 E2]; subst.
    + destruct fb; [congruence|discriminate].
    + symmetry in E2.
      destruct (Instr_det _ _ _ _ _ _ _ _ _ _ _ _ Hb L Wt eq_refl E2 HI HI2) as (_ & <- & _).
      destruct HS as (b & q & -> & Hlo & Hhi). clear -B2 Hlo Hhi.
      assert (HX : forall bs2 r2 fo st', b :: q ++ rest = bs2 ++ r2 -> Instr (dec_limit d) bs2 st2 fo st' -> fo = None).
      { intros bs2 r2 fo st' E2 HI2.
        assert (Hfirst : forall lo hi x, starts lo hi x -> (exists y, bs2 = x ++ y) -> lo <= b <= hi).
        { intros lo hi x (b' & q' & -> & A1 & A2) [y ->]. simpl in E2. injection E2 as -> _. auto. }
        inversion HI2; subst; auto; exfalso;
        match goal with S : starts ?lo ?hi ?x |- _ => assert (lo <= b <= hi) by (eapply (Hfirst lo hi x S); first [exists []; rewrite app_nil_r; reflexivity | eexists; reflexivity]) end;
        lia. }
      remember false as no eqn:Eno. remember ((b :: q) ++ rest) as inp eqn:Ein.
      inversion B2; subst; try discriminate.
      match goal with I : Instr _ ?bs st2 (Some ?g) _, Eq : ?bs ++ ?rr = _ |- _ => specialize (HX bs rr (Some g) _ (eq_sym Eq) I) end. discriminate.
    + symmetry in E2.
      destruct (Instr_det _ _ _ _ _ _ _ _ _ _ _ _ Hb L Wt eq_refl E2 HI HI2) as (X & _). discriminate.
Qed.
Print Assumptions late_update_rejected.

Example hpack_decode_ex :
  (* size update to 0, then :method GET; the update after the field is refused *)
  snd (decode dec_init [32; 130]) = OOk [mk_field (str ":method") (str "GET") false] /\
  snd (decode dec_init [130; 32]) = OFail false /\
  snd (decode dec_init [63; 226; 31]) = OFail false /\ (* 4097 > 4096 *)
  snd (decode (dec_set_max_list dec_init 41) [130]) = OFail false /\
  snd (decode (dec_set_max_list dec_init 42) [130]) = OOk [mk_field (str ":method") (str "GET") false].
Proof. split; [vm_compute; reflexivity|]. split; [vm_compute; reflexivity|]. split; [vm_compute; reflexivity|].
  split; vm_compute; reflexivity. Qed.

(** ** C18 *)
Theorem static_name_lookup : forall name,
  match find_name_match name with
  | Some i => 1 <= i /\ (exists v, nth_error STATIC_TABLE (N.to_nat (i - 1)) = Some (name, v)) /\
              (forall k n v, (k < N.to_nat (i - 1))%nat -> nth_error STATIC_TABLE k = Some (n, v) -> n <> name)
  | None => forall k n v, nth_error STATIC_TABLE k = Some (n, v) -> n <> name
  end.
Proof. exact find_name_match_spec. Qed.
Print Assumptions static_name_lookup.

Theorem static_exact_lookup : forall name value,
  match find_exact_match name value with
  | Some i => 1 <= i /\ nth_error STATIC_TABLE (N.to_nat (i - 1)) = Some (name, value)
  | None => forall k, nth_error STATIC_TABLE k <> Some (name, value)
  end.
Proof. exact find_exact_match_spec. Qed.
Print Assumptions static_exact_lookup.

Example static_ex : find_name_match (str ":status") = Some 8 /\ find_exact_match (str ":status") (str "404") = Some 13 /\
  find_exact_match (str ":status") (str "201") = None /\ find_name_match (str "x-a") = None.
Proof. split; [vm_compute; reflexivity|]. split; [vm_compute; reflexivity|]. split; vm_compute; reflexivity. Qed.

(** ** C19: refuted.  A failed encode can insert entries the peer never learns about. *)
Definition c19_good : field := mk_field (str "x-a") (str "1") false.
Definition c19_bad : field := mk_field (str "x b") (str "1") false.

Theorem failed_encode_keeps_state_usable_refuted :
  exists fs fs' e1 b1 e2 b2,
    encode enc_init fs = Some (e1, b1, false) /\ encode e1 fs' = Some (e2, b2, true) /\
    Forall field_ok fs /\ Forall field_ok fs' /\ in_sync enc_init dec_init /\
    forall hs, snd (decode dec_init b2) = OOk hs -> map nv hs <> map nv fs'.
Proof.
  exists [c19_good; c19_bad], [c19_good]. eexists _, _, _, _.
  split; [vm_compute; reflexivity|]. split; [vm_compute; reflexivity|].
  split; [repeat constructor|]. split; [repeat constructor|]. split; [apply init_in_sync|].
  intros hs H. vm_compute in H. discriminate.
Qed.
Print Assumptions failed_encode_keeps_state_usable_refuted.

(** What does hold: a failing list in which every valid field is one that is never indexed leaves
    the encoder exactly as it was.  Missing: lists with an indexable field before the bad one. *)
Theorem failed_encode_keeps_state_usable_partial : forall e d fs e' bytes,
  in_sync e d -> Forall field_ok fs -> encode e fs = Some (e', bytes, false) ->
  Forall (fun f => hv_is_valid_field f = true -> MustNotIndex f) fs -> e' = e.
Proof.
  intros e d fs e' bytes (t & r & WE & _) HF E HM. unfold encode in E.
  assert (G : forall fs d1 d2 b, encode_fields d1 fs = Some (d2, b, false) ->
     Forall (fun f => hv_is_valid_field f = true -> MustNotIndex f) fs -> d2 = d1).
  { clear. induction fs as [|f fs IH]; intros d1 d2 b E HM; cbn [encode_fields] in E; [discriminate|].
    inversion HM as [|? ? Hf HM']; subst. destruct (hv_is_valid_field f); cbn [negb] in E; [|injection E as <- _; reflexivity].
    specialize (Hf eq_refl). apply sens_class_iff in Hf. unfold sens_class in Hf.
    destruct (encode_field d1 f) as [[b1 d3]|] eqn:EF; [|discriminate].
    assert (d3 = d1).
    { unfold encode_field in EF. destruct (find_exact_match _ _); [injection EF as _ <-; reflexivity|].
      destruct (scan_dynamic _ _ _ _ _ _) as [[j|dyn]|]; [injection EF as _ <-; reflexivity| |discriminate].
      rewrite Hf in EF. injection EF as _ <-. reflexivity. }
    subst d3. destruct (encode_fields d1 fs) as [[[d4 o4] k4]|] eqn:E4; [|discriminate E]. injection E as <- _ ->.
    eapply IH; eauto. }
  destruct (encode_fields (enc_table e) fs) as [[[d1 o1] k1]|] eqn:E1; [|discriminate]. injection E as <- <- ->.
  rewrite (G _ _ _ _ E1 HM). destruct e; reflexivity.
Qed.
Print Assumptions failed_encode_keeps_state_usable_partial.
