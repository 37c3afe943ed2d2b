(** Lemmas on the WebSocket model. *)
From Verif Require Import Base H2Spec H2Proofs WsSpec WsModel.
Local Open Scope N_scope.
Ltac Zify.zify_post_hook ::= Z.div_mod_to_equations.

(** ** UTF-8 *)
Lemma is_cont_spec b : b < 256 -> is_cont b = true <-> 128 <= b < 192.
Proof.
  intros H. assert (X : Bool.eqb (is_cont b) ((128 <=? b) && (b <? 192)) = true).
  { revert b H. apply byte_sweep. vm_compute. reflexivity. }
  apply eqb_prop in X. rewrite X. lia.
Qed.
Lemma is_utf8_app c r : Scalar c -> is_utf8 (utf8 c ++ r) = is_utf8 r.
Proof.
  intros S. unfold utf8, Scalar in *.
  destruct (N.ltb_spec c 128); [cbn [app is_utf8]; replace (c <=? 127) with true by lia; reflexivity|].
  assert (IC : forall x, x < 64 -> is_cont (128 + x) = true) by (intros; apply is_cont_spec; lia).
  destruct (N.ltb_spec c 2048).
  { cbn [app is_utf8]. rewrite IC by lia. unfold between. replace (192 + c / 64 <=? 127) with false by lia.
    replace ((194 <=? 192 + c / 64) && (192 + c / 64 <=? 223)) with true by lia. reflexivity. }
  destruct (N.ltb_spec c 65536).
  { cbn [app is_utf8]. rewrite !IC by lia. unfold between. replace (224 + c / 4096 <=? 127) with false by lia.
    replace ((194 <=? 224 + c / 4096) && (224 + c / 4096 <=? 223)) with false by lia. cbn [negb orb].
    destruct (N.eqb_spec (224 + c / 4096) 224).
    { replace ((128 + c / 64 mod 64 <? 160) || (191 <? 128 + c / 64 mod 64) || false) with false by lia. reflexivity. }
    destruct ((225 <=? 224 + c / 4096) && (224 + c / 4096 <=? 236)) eqn:B1; [reflexivity|].
    destruct (N.eqb_spec (224 + c / 4096) 237).
    { replace ((128 + c / 64 mod 64 <? 128) || (159 <? 128 + c / 64 mod 64) || false) with false by lia. reflexivity. }
    replace ((238 <=? 224 + c / 4096) && (224 + c / 4096 <=? 239)) with true by lia. reflexivity. }
  cbn [app is_utf8]. rewrite !IC by lia. unfold between. set (b := 240 + c / 262144). assert (HB : 240 <= b <= 244) by lia.
  replace (b <=? 127) with false by lia. replace ((194 <=? b) && (b <=? 223)) with false by lia. replace (b =? 224) with false by lia.
  replace ((225 <=? b) && (b <=? 236)) with false by lia. replace (b =? 237) with false by lia. replace ((238 <=? b) && (b <=? 239)) with false by lia.
  cbn [negb orb]. destruct (N.eqb_spec b 240).
  { replace ((128 + c / 4096 mod 64 <? 144) || (191 <? 128 + c / 4096 mod 64) || false || false) with false by lia. reflexivity. }
  destruct ((241 <=? b) && (b <=? 243)) eqn:B1; [reflexivity|]. replace (b =? 244) with true by lia.
  replace ((128 + c / 4096 mod 64 <? 128) || (143 <? 128 + c / 4096 mod 64) || false || false) with false by lia. reflexivity.
Qed.
Lemma utf8_1 b : b <= 127 -> Scalar b /\ utf8 b = [b].
Proof. intros. unfold Scalar, utf8. replace (b <? 128) with true by lia. split; [lia|reflexivity]. Qed.
Lemma utf8_2 b0 b1 : 194 <= b0 <= 223 -> 128 <= b1 < 192 -> exists c, Scalar c /\ utf8 c = [b0; b1].
Proof.
  intros. exists ((b0 - 192) * 64 + (b1 - 128)). unfold Scalar, utf8. set (c := _ + _).
  replace (c <? 128) with false by lia. replace (c <? 2048) with true by lia. split; [lia|]. repeat f_equal; lia.
Qed.
Lemma utf8_3 b0 b1 b2 : 224 <= b0 <= 239 -> 128 <= b1 < 192 -> 128 <= b2 < 192 -> (b0 = 224 -> 160 <= b1) -> (b0 = 237 -> b1 <= 159) -> exists c, Scalar c /\ utf8 c = [b0; b1; b2].
Proof.
  intros. exists ((b0 - 224) * 4096 + (b1 - 128) * 64 + (b2 - 128)). unfold Scalar, utf8. set (c := _ + _ + _).
  assert (2048 <= c < 65536) by lia.
  replace (c <? 128) with false by lia. replace (c <? 2048) with false by lia. replace (c <? 65536) with true by lia. split; [lia|]. repeat f_equal; lia.
Qed.
Lemma utf8_4 b0 b1 b2 b3 : 240 <= b0 <= 244 -> 128 <= b1 < 192 -> 128 <= b2 < 192 -> 128 <= b3 < 192 -> (b0 = 240 -> 144 <= b1) -> (b0 = 244 -> b1 <= 143) ->
  exists c, Scalar c /\ utf8 c = [b0; b1; b2; b3].
Proof.
  intros. exists ((b0 - 240) * 262144 + (b1 - 128) * 4096 + (b2 - 128) * 64 + (b3 - 128)). unfold Scalar, utf8. set (c := _ + _ + _ + _).
  assert (65536 <= c < 1114112) by lia.
  replace (c <? 128) with false by lia. replace (c <? 2048) with false by lia. replace (c <? 65536) with false by lia. split; [lia|]. repeat f_equal; lia.
Qed.
Lemma Utf8_cons c s : Scalar c -> Utf8 s -> Utf8 (utf8 c ++ s).
Proof. intros H (cs & F & ->). exists (c :: cs). split; [constructor; assumption|reflexivity]. Qed.
Lemma is_utf8_sound n : forall s, (length s <= n)%nat -> bytes_ok s -> is_utf8 s = true -> Utf8 s.
Proof.
  induction n as [|n IH]; intros s L B H; [destruct s; [exists []; split; constructor|cbn in L; lia]|].
  destruct s as [|b0 r0]; [exists []; split; constructor|]. cbn [is_utf8] in H. inversion B as [|? ? B0 BR]; subst. cbn [length] in L. unfold between in H.
  destruct (N.leb_spec b0 127).
  { destruct (utf8_1 b0) as [S U]; [lia|]. change (b0 :: r0) with ([b0] ++ r0). rewrite <- U. apply Utf8_cons; [exact S|apply IH; [lia|exact BR|exact H]]. }
  destruct ((194 <=? b0) && (b0 <=? 223)) eqn:C1.
  { destruct r0 as [|b1 r]; [discriminate|]. inversion BR; subst. destruct (is_cont b1) eqn:I1; [|discriminate]. apply is_cont_spec in I1; [|assumption]. cbn [negb] in H.
    destruct (utf8_2 b0 b1) as (c & S & U); [lia|lia|]. change (b0 :: b1 :: r) with ([b0; b1] ++ r). rewrite <- U. apply Utf8_cons; [exact S|]. cbn [length] in L. apply IH; [lia|assumption|exact H]. }
  assert (G3 : forall (b1 b2 : N) r, r0 = b1 :: b2 :: r -> 224 <= b0 <= 239 -> is_cont b1 = true -> is_cont b2 = true -> (b0 = 224 -> 160 <= b1) -> (b0 = 237 -> b1 <= 159) -> is_utf8 r = true -> Utf8 (b0 :: r0)).
  { intros b1 b2 r -> R0 I1 I2 X Y G. inversion BR as [|? ? B1 BR1]; subst. inversion BR1; subst. apply is_cont_spec in I1, I2; try assumption.
    destruct (utf8_3 b0 b1 b2) as (c & S & U); try assumption. change (b0 :: b1 :: b2 :: r) with ([b0; b1; b2] ++ r). rewrite <- U. apply Utf8_cons; [exact S|].
    cbn [length] in L. apply IH; [lia|assumption|exact G]. }
  assert (G4 : forall (b1 b2 b3 : N) r, r0 = b1 :: b2 :: b3 :: r -> 240 <= b0 <= 244 -> is_cont b1 = true -> is_cont b2 = true -> is_cont b3 = true -> (b0 = 240 -> 144 <= b1) -> (b0 = 244 -> b1 <= 143) -> is_utf8 r = true -> Utf8 (b0 :: r0)).
  { intros b1 b2 b3 r -> R0 I1 I2 I3 X Y G. inversion BR as [|? ? B1 BR1]; subst. inversion BR1 as [|? ? B2 BR2]; subst. inversion BR2; subst. apply is_cont_spec in I1, I2, I3; try assumption.
    destruct (utf8_4 b0 b1 b2 b3) as (c & S & U); try assumption. change (b0 :: b1 :: b2 :: b3 :: r) with ([b0; b1; b2; b3] ++ r). rewrite <- U. apply Utf8_cons; [exact S|].
    cbn [length] in L. apply IH; [lia|assumption|exact G]. }
  assert (CB : forall b, b < 256 -> 128 <= b < 192 -> is_cont b = true) by (intros; apply is_cont_spec; assumption).
  destruct (N.eqb_spec b0 224).
  { destruct r0 as [|b1 [|b2 r]]; try discriminate. inversion BR; subst. destruct ((b1 <? 160) || (191 <? b1) || negb (is_cont b2)) eqn:C; [discriminate|]; rewrite ?orb_false_iff, ?negb_false_iff in C.
    apply (G3 b1 b2 r); try tauto; try lia; try reflexivity; try assumption. all: try (apply CB; lia). }
  destruct ((225 <=? b0) && (b0 <=? 236)) eqn:C2.
  { destruct r0 as [|b1 [|b2 r]]; try discriminate. destruct (negb (is_cont b1) || negb (is_cont b2)) eqn:C; [discriminate|]; rewrite ?orb_false_iff, ?negb_false_iff in C. apply (G3 b1 b2 r); try tauto; try lia; try reflexivity; assumption. }
  destruct (N.eqb_spec b0 237).
  { destruct r0 as [|b1 [|b2 r]]; try discriminate. inversion BR; subst. destruct ((b1 <? 128) || (159 <? b1) || negb (is_cont b2)) eqn:C; [discriminate|]; rewrite ?orb_false_iff, ?negb_false_iff in C.
    apply (G3 b1 b2 r); try tauto; try lia; try reflexivity; try assumption. all: try (apply CB; lia). }
  destruct ((238 <=? b0) && (b0 <=? 239)) eqn:C3.
  { destruct r0 as [|b1 [|b2 r]]; try discriminate. destruct (negb (is_cont b1) || negb (is_cont b2)) eqn:C; [discriminate|]; rewrite ?orb_false_iff, ?negb_false_iff in C. apply (G3 b1 b2 r); try tauto; try lia; try reflexivity; assumption. }
  destruct (N.eqb_spec b0 240).
  { destruct r0 as [|b1 [|b2 [|b3 r]]]; try discriminate. inversion BR; subst. destruct ((b1 <? 144) || (191 <? b1) || negb (is_cont b2) || negb (is_cont b3)) eqn:C; [discriminate|]; rewrite ?orb_false_iff, ?negb_false_iff in C.
    apply (G4 b1 b2 b3 r); try tauto; try lia; try reflexivity; try assumption. all: try (apply CB; lia). }
  destruct ((241 <=? b0) && (b0 <=? 243)) eqn:C4.
  { destruct r0 as [|b1 [|b2 [|b3 r]]]; try discriminate. destruct (negb (is_cont b1) || negb (is_cont b2) || negb (is_cont b3)) eqn:C; [discriminate|]; rewrite ?orb_false_iff, ?negb_false_iff in C. apply (G4 b1 b2 b3 r); try tauto; try lia; try reflexivity; assumption. }
  destruct (N.eqb_spec b0 244); [|discriminate].
  destruct r0 as [|b1 [|b2 [|b3 r]]]; try discriminate. inversion BR; subst. destruct ((b1 <? 128) || (143 <? b1) || negb (is_cont b2) || negb (is_cont b3)) eqn:C; [discriminate|]; rewrite ?orb_false_iff, ?negb_false_iff in C.
  apply (G4 b1 b2 b3 r); try tauto; try lia; try reflexivity; try assumption; apply CB; lia.
Qed.
Lemma is_utf8_complete s : Utf8 s -> is_utf8 s = true.
Proof. intros (cs & F & ->). induction F as [|c cs S F IH]; [reflexivity|]. cbn [flat_map]. rewrite is_utf8_app by exact S. exact IH. Qed.
Lemma is_utf8_spec s : bytes_ok s -> is_utf8 s = true <-> Utf8 s.
Proof. intros B. split; [apply (is_utf8_sound (length s)); auto|apply is_utf8_complete]. Qed.

(** ** Serialisation *)
Lemma len_bytes_length c n : length (len_bytes c n) = c.
Proof. induction c; cbn [len_bytes length]; congruence. Qed.
Lemma len_bytes_val c n : be_val (len_bytes c n) = n mod 256 ^ N.of_nat c.
Proof.
  induction c as [|c IH]; cbn [len_bytes be_val]; [rewrite N.mod_1_r; reflexivity|].
  rewrite IH, len_bytes_length. rewrite N.shiftr_div_pow2. replace (2 ^ (8 * N.of_nat c)) with (256 ^ N.of_nat c) by (rewrite N.pow_mul_r; reflexivity).
  replace (N.of_nat (S c)) with (N.succ (N.of_nat c)) by lia. rewrite N.pow_succ_r'. set (p := 256 ^ N.of_nat c). assert (P : p <> 0) by (apply N.pow_nonzero; discriminate).
  rewrite (N.mul_comm 256 p), N.mod_mul_r by (assumption || discriminate). lia.
Qed.
Lemma len_bytes_ok c n : bytes_ok (len_bytes c n).
Proof. induction c; cbn [len_bytes]; constructor; [apply N.mod_lt; discriminate|assumption]. Qed.
Lemma length_field_spec mb n : n < 2 ^ 63 -> exists ind ext, LengthBytes n ind ext /\ length_field mb n = (ind + mb) :: ext.
Proof.
  intros H. unfold length_field, LengthBytes. destruct (N.leb_spec 126 n).
  - destruct (N.ltb_spec 65535 n).
    + exists 127, (len_bytes 8 n). split; [right; right|reflexivity]. rewrite len_bytes_length, len_bytes_val. repeat split; lia.
    + exists 126, (len_bytes 2 n). split; [right; left|reflexivity]. rewrite len_bytes_length, len_bytes_val. repeat split; lia.
  - exists n, []. split; [left|reflexivity]. repeat split; lia.
Qed.
Lemma unmask_length m i d : length (unmask m i d) = length d.
Proof. induction d as [|b d IH] in i |- *; cbn [unmask length]; [reflexivity|]. rewrite IH. reflexivity. Qed.
Lemma unmask_nth m i d j : (j < length d)%nat -> nth j (unmask m i d) 0 = N.lxor (nth j d 0) (nth ((i + j) mod 4) m 0).
Proof.
  induction d as [|b d IH] in i, j |- *; cbn [unmask length]; [lia|]. destruct j as [|j]; intros H; cbn [nth].
  - rewrite Nat.add_0_r. reflexivity.
  - rewrite IH by lia. replace (S i + j)%nat with (i + S j)%nat by lia. reflexivity.
Qed.
Lemma mask_payload_unmask m n : forall d i, (length d <= n)%nat -> (i mod 4 = 0)%nat -> mask_payload m i d = unmask m i d.
Proof.
  induction n as [|n IH]; intros d i L I; [destruct d; [reflexivity|cbn in L; lia]|].
  assert (A1 : ((S i) mod 4 = 1)%nat) by lia. assert (A2 : ((S (S i)) mod 4 = 2)%nat) by lia. assert (A3 : ((S (S (S i))) mod 4 = 3)%nat) by lia.
  assert (B1 : ((i + 1) mod 4 = 1)%nat) by lia. assert (B2 : ((i + 2) mod 4 = 2)%nat) by lia.
  destruct d as [|a [|b [|c [|e d]]]]; cbn [mask_payload unmask]; rewrite ?I, ?A1, ?A2, ?A3, ?B1, ?B2; try reflexivity.
  cbn [length] in L. rewrite IH by lia. replace (S (S (S (S i)))) with (i + 4)%nat by lia. reflexivity.
Qed.
Lemma mask_payload_masked m d : length m = 4%nat -> Masked m d (mask_payload m 0 d).
Proof.
  intros L. rewrite (mask_payload_unmask m (length d)) by (reflexivity || lia). split; [exact L|]. split; [symmetry; apply unmask_length|].
  intros i H. rewrite unmask_nth by exact H. reflexivity.
Qed.
Lemma byte_ok_lxor a b : a < 256 -> b < 256 -> N.lxor a b < 256.
Proof.
  intros A B. assert (X : (N.lxor a b <? 256) = true); [|apply N.ltb_lt, X].
  apply (byte_sweep2 (fun a b => N.lxor a b <? 256)); [vm_compute; reflexivity|assumption|assumption].
Qed.
Lemma unmask_ok m i d : bytes_ok m -> bytes_ok d -> bytes_ok (unmask m i d).
Proof.
  intros M. revert i. induction d as [|b d IH]; intros i D; cbn [unmask]; constructor; inversion D; subst.
  - apply byte_ok_lxor; [assumption|]. destruct (Nat.lt_ge_cases (i mod 4) (length m)) as [L|L]; [|rewrite nth_overflow by exact L; lia].
    unfold bytes_ok in M. rewrite Forall_forall in M. apply M, nth_In, L.
  - apply IH. assumption.
Qed.
Lemma nth_eq_ext (a b : list N) : length a = length b -> (forall i, (i < length a)%nat -> nth i a 0 = nth i b 0) -> a = b.
Proof.
  revert b. induction a as [|x a IH]; intros [|y b] L H; try discriminate; [reflexivity|]. f_equal; [apply (H 0%nat); cbn; lia|].
  apply IH; [injection L as L; exact L|]. intros i Hi. apply (H (S i)). cbn. lia.
Qed.
Lemma masked_unmask m a b : Masked m a b -> unmask m 0 b = a.
Proof.
  intros (L & E & H). apply nth_eq_ext; [rewrite unmask_length; congruence|]. intros i Hi. rewrite unmask_length in Hi.
  rewrite unmask_nth by exact Hi. rewrite H by lia. rewrite Nat.add_0_l, N.lxor_assoc, N.lxor_nilpotent, N.lxor_0_r. reflexivity.
Qed.
Lemma unmask_masked m b : length m = 4%nat -> Masked m (unmask m 0 b) b.
Proof.
  intros L. split; [exact L|]. rewrite unmask_length. split; [reflexivity|]. intros i Hi. rewrite unmask_nth by exact Hi.
  rewrite N.lxor_assoc, N.lxor_nilpotent, N.lxor_0_r. reflexivity.
Qed.

Definition frame_octet (fin : bool) (op : N) : N := (if fin then 128 else 0) + op.
Lemma frame_octet_bits fin op : op < 16 -> N.land (frame_octet fin op) 112 = 0 /\ N.land (frame_octet fin op) 15 = op /\ (N.land (frame_octet fin op) 128 =? 0) = negb fin.
Proof.
  intros H. assert (X : (negb (op <? 16) || ((N.land (frame_octet fin op) 112 =? 0) && (N.land (frame_octet fin op) 15 =? op) && Bool.eqb (N.land (frame_octet fin op) 128 =? 0) (negb fin))) = true).
  { apply (byte_sweep (fun op => negb (op <? 16) || ((N.land (frame_octet fin op) 112 =? 0) && (N.land (frame_octet fin op) 15 =? op) && Bool.eqb (N.land (frame_octet fin op) 128 =? 0) (negb fin)))); [destruct fin; vm_compute; reflexivity|lia]. }
  replace (op <? 16) with true in X by lia. cbn [negb orb] in X. apply andb_true_iff in X as [X Z]. apply andb_true_iff in X as [X Y].
  apply N.eqb_eq in X, Y. apply eqb_prop in Z. auto.
Qed.
Lemma octet_frame b : b < 256 -> N.land b 112 = 0 -> b = frame_octet (negb (N.land b 128 =? 0)) (N.land b 15) /\ N.land b 15 < 16.
Proof.
  intros H R. assert (X : (negb (N.land b 112 =? 0) || ((b =? frame_octet (negb (N.land b 128 =? 0)) (N.land b 15)) && (N.land b 15 <? 16))) = true).
  { apply (byte_sweep (fun b => negb (N.land b 112 =? 0) || ((b =? frame_octet (negb (N.land b 128 =? 0)) (N.land b 15)) && (N.land b 15 <? 16)))); [vm_compute; reflexivity|exact H]. }
  rewrite R in X. cbn in X. apply andb_true_iff in X as [X Y]. apply N.eqb_eq in X. split; [exact X|lia].
Qed.
Lemma octet_parts b : b < 256 -> N.land b 15 = b mod 16 /\ (N.land b 112 = 0 <-> b / 16 mod 8 = 0) /\ ((N.land b 128 =? 0) = (b <? 128)) /\ N.land b 127 = b mod 128.
Proof.
  intros H. assert (X : ((N.land b 15 =? b mod 16) && Bool.eqb (N.land b 112 =? 0) (b / 16 mod 8 =? 0) && Bool.eqb (N.land b 128 =? 0) (b <? 128) && (N.land b 127 =? b mod 128)) = true).
  { revert b H. apply byte_sweep. vm_compute. reflexivity. }
  apply andb_true_iff in X as [X W]. apply andb_true_iff in X as [X Z]. apply andb_true_iff in X as [X Y]. apply N.eqb_eq in X, W. apply eqb_prop in Y, Z.
  repeat split; try assumption; intros Q; [rewrite Q in Y; cbn in Y; symmetry in Y; apply N.eqb_eq in Y; exact Y|rewrite Q in Y; apply N.eqb_eq in Y; exact Y].
Qed.
Lemma valid_opcode_spec op : is_valid_frame_opcode op = true <-> data_op op \/ control_op op.
Proof. unfold is_valid_frame_opcode, data_op, control_op. lia. Qed.
Lemma outgoing_spec fin op n : op < 16 -> outgoing_ok (frame_octet fin op) n = true <->
  (data_op op \/ control_op op /\ fin = true /\ n <= 125).
Proof.
  intros H. unfold outgoing_ok, is_control_opcode. destruct (frame_octet_bits fin op H) as (-> & -> & ->). rewrite N.eqb_refl. cbn [negb].
  pose proof (valid_opcode_spec op) as V. destruct (is_valid_frame_opcode op); cbn [negb].
  - destruct V as [V _]. specialize (V eq_refl). unfold data_op, control_op in *. destruct (N.leb_spec 8 op); cbn [andb].
    + destruct (N.ltb_spec 125 n); [split; [discriminate|lia]|]. destruct fin; cbn [negb]; split; try discriminate; try reflexivity; intros Q; lia.
    + split; [intros _; lia|reflexivity].
  - split; [discriminate|]. intros Q. assert (false = true) by (apply V; tauto). discriminate.
Qed.
Lemma serialize_wire mask fin op payload : op < 16 -> N.of_nat (length payload) < 2 ^ 63 ->
  (data_op op \/ control_op op /\ fin = true /\ N.of_nat (length payload) <= 125) -> (forall m, mask = Some m -> length m = 4%nat) ->
  exists b, serialize mask (frame_octet fin op) payload = Some b /\ Wire (mk_wf fin op mask payload) b.
Proof.
  intros H L V M. unfold serialize. apply (outgoing_spec fin op _ H) in V. rewrite V. cbn [negb]. eexists. split; [reflexivity|].
  destruct mask as [m|].
  - destruct (length_field_spec 128 _ L) as (ind & ext & LB & ->). cbn [app]. rewrite (N.add_comm ind). apply wire_masked; [exact LB|]. apply mask_payload_masked. apply M. reflexivity.
  - destruct (length_field_spec 0 _ L) as (ind & ext & LB & ->). cbn [app]. rewrite N.add_0_r. apply wire_plain. exact LB.
Qed.
