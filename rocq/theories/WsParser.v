(** The WebSocket parser against its specification. *)
From Verif Require Import Base H2Spec H2Proofs WsSpec WsModel WsProofs.
Local Open Scope N_scope.

Lemma sum_length_val n l : (n <= length l)%nat -> sum_length n l = be_val (firstn n l).
Proof.
  induction n as [|n IH] in l |- *; intros H; [reflexivity|]. destruct l as [|b l]; [cbn in H; lia|]. cbn [length] in H. cbn [sum_length firstn be_val].
  rewrite IH by lia. rewrite firstn_length_le by lia. rewrite N.shiftl_mul_pow2. replace (2 ^ (8 * N.of_nat n)) with (256 ^ N.of_nat n) by (rewrite N.pow_mul_r; reflexivity). reflexivity.
Qed.
Definition core_eq (s s' : ws) : Prop := w_ok s' = w_ok s /\ w_dop s' = w_dop s /\ w_data s' = w_data s /\ w_sent s' = w_sent s /\ w_log s' = w_log s.
Lemma core_refl s : core_eq s s.
Proof. repeat split. Qed.

(** Offences visible in the header. *)
Inductive HeaderOffence (server : bool) (max : N) (rest : list N) : N -> Prop :=
| ho code : (forall st, Offence server max st rest code) -> HeaderOffence server max rest code.
Definition payload_at (buf : list N) (s : ws) : list N :=
  let at_ := skipn (N.to_nat (w_parsed s)) buf in
  if w_masked s then unmask (firstn 4 at_) 0 (firstn (N.to_nat (w_exp s)) (skipn 4 at_)) else firstn (N.to_nat (w_exp s)) at_.

Definition Resumes (server : bool) (max : N) (masks : nat -> list N) (buf : list N) (s s' : ws) : Prop :=
  forall more, message_size server max masks (buf ++ more) s' = message_size server max masks (buf ++ more) s.
Inductive SizeResult (server : bool) (max : N) (masks : nat -> list N) (buf : list N) (s : ws) : ws * N -> Prop :=
| sr_more s' : core_eq s s' -> Resumes server max masks buf s s' -> Incomplete server max buf ->
    (w_parsed s' = 0 -> s' = s) ->
    SizeResult server max masks buf s (s', 0)
| sr_bad s0 code x n : core_eq s s0 -> HeaderOffence server max buf code -> is_sendable_close_code code = true -> is_utf8 (str x) = true -> (length (str x) <= 123)%nat -> 0 < n ->
    n = N.of_nat (length buf) ->
    SizeResult server max masks buf s (fail server masks code (str x) s0, n)
| sr_got s' f w t n : core_eq s s' -> buf = w ++ t -> Wire f w -> ValidFrame server f -> (data_op (wf_op f) -> fits max (wf_payload f)) ->
    w_fro s' = frame_octet (wf_fin f) (wf_op f) -> payload_at buf s' = wf_payload f -> n = N.of_nat (length w) -> 0 < n ->
    SizeResult server max masks buf s (s', n).

(** The frame a header announces, once all its octets are there. *)
Lemma wire_length f w : Wire f w -> exists ext : list N, (length w = 2 + length ext + (if wf_mask f then 4 else 0) + length (wf_payload f))%nat.
Proof.
  destruct 1; exists ext; cbn [length wf_mask wf_payload]; rewrite !app_length; [lia|]. destruct H0 as (A & B & _). lia.
Qed.
(** Two readings of the same octets agree. *)
Lemma length_bytes_inj n ind ext n' ext' t t' : LengthBytes n ind ext -> LengthBytes n' ind ext' -> ext ++ t = ext' ++ t' -> n = n' /\ ext = ext'.
Proof.
  unfold LengthBytes. intros A B E.
  assert (L : length ext = length ext') by (destruct A as [A|[A|A]], B as [B|[B|B]]; repeat match goal with H : _ /\ _ |- _ => destruct H end; subst; try congruence; lia).
  assert (X : ext = ext') by (apply (f_equal (firstn (length ext))) in E; rewrite firstn_length_app in E; rewrite E, L, firstn_length_app; reflexivity).
  subst ext'. split; [|reflexivity]. destruct A as [A|[A|A]], B as [B|[B|B]]; repeat match goal with H : _ /\ _ |- _ => destruct H end; subst; try congruence; try lia; cbn in *; try lia.
Qed.

Section SIZE.
Variable server : bool.
Variable max : N.
Variable masks : nat -> list N.
Lemma no_frame_offence buf st code : (forall f w t, buf = w ++ t -> Wire f w -> ValidFrame server f -> False) -> Offence server max st buf code ->
  exists b0 b1 t, buf = b0 :: b1 :: t /\
    ((~ data_op (b0 mod 16) /\ ~ control_op (b0 mod 16)) \/ b0 / 16 mod 8 <> 0 \/ (control_op (b0 mod 16) /\ b0 < 128) \/ (128 <= b1 <-> server = false) \/ (control_op (b0 mod 16) /\ 125 < b1 mod 128) \/
     (exists ext u, t = ext ++ u /\ ((b1 mod 128 = 126 /\ length ext = 2%nat /\ be_val ext < 126) \/ (b1 mod 128 = 127 /\ length ext = 8%nat /\ (be_val ext < 65536 \/ 2 ^ 63 <= be_val ext)) \/
         (exists n, LengthBytes n (b1 mod 128) ext /\ max <> 0 /\ max < n /\ data_op (b0 mod 16))))).
Proof.
  intros NF O. destruct O; try (exfalso; eapply NF; eauto; fail); subst; do 3 eexists; (split; [reflexivity|]); auto 8.
  - do 5 right. do 2 eexists. split; [reflexivity|]. auto.
  - do 5 right. do 2 eexists. split; [reflexivity|]. right; left. auto.
  - do 5 right. do 2 eexists. split; [reflexivity|]. right; right. eexists. eauto.
Qed.

(** The two halves of getMessageSize, named. *)
Definition whole (size : N) (s : ws) : ws * N :=
  let full := w_exp s + w_parsed s + (if w_masked s then 4 else 0) in if size <? full then (s, 0) else (s, full).
Definition finish (size ind : N) (num : nat) (control : bool) (length : N) (s : ws) : ws * N :=
  if (ind =? 126) && (length <? 126) then fail_at server masks 1002 (str "Non-minimal payload length encoding") size s
  else if (ind =? 127) && (length <=? 65535) then fail_at server masks 1002 (str "Non-minimal payload length encoding") size s
  else let s := set_exp length s in
    if negb control && (0 <? max) && (max <? length) then fail_at server masks 1009 (str "Payload size exceeds configured limit") size s
    else whole size (set_parsed (w_parsed s + N.of_nat num) s).
Definition second (buf : list N) (s : ws) : ws * N :=
  let size := N.of_nat (length buf) in
  if w_exp s =? 0 then
    let ind := N.land (nth 1 buf 0) 127 in
    let control := 8 <=? N.land (w_fro s) 15 in
    if control && (125 <? ind) then fail_at server masks 1002 (str "Control frame payload cannot exceed 125 bytes") size s
    else
      let num := if ind =? 126 then 2%nat else if ind =? 127 then 8%nat else 0%nat in
      if (num =? 0)%nat then finish size ind num control ind s
      else if control then fail_at server masks 1002 (str "Control frame cannot have extended payload length") size s
      else if size <? N.of_nat num + 2 then (s, 0)
      else
        let lb := skipn 2 buf in
        let length := sum_length num lb in
        if (ind =? 127) && negb (N.land (nth 0 lb 0) 128 =? 0) then fail_at server masks 1002 (str "Most significant bit of 64-bit payload length must be 0") size s
        else finish size ind num control length s
  else whole size s.
Definition opened (b0 : N) (masked : bool) (s : ws) : ws := set_parsed 2 (set_masked masked (set_fro b0 s)).
Lemma message_size_eq buf s : message_size server max masks buf s =
  if negb (w_ok s) then (s, 0)
  else let size := N.of_nat (length buf) in let b0 := nth 0 buf 0 in let b1 := nth 1 buf 0 in
    if w_parsed s =? 0 then
      if size <? 2 then (s, 0)
      else
        let s1 := set_fro b0 s in
        let op := N.land b0 15 in
        if negb (is_valid_frame_opcode op) then fail_at server masks 1002 (str "Reserved or unknown opcode") size s1
        else if negb (N.land b0 112 =? 0) then fail_at server masks 1002 (str "RSV bits must be 0") size s1
        else if (8 <=? op) && (N.land b0 128 =? 0) then fail_at server masks 1002 (str "Control frame cannot be fragmented") size s1
        else
          let m := negb (N.land b1 128 =? 0) in
          if server && negb m then fail_at server masks 1002 (str "Message from client not masked") size (set_masked m s1)
          else if negb server && m then fail_at server masks 1002 (str "Message from server must not be masked") size (set_masked m s1)
          else second buf (opened b0 m s)
    else second buf s.
Proof. reflexivity. Qed.

Lemma skipn_app2 {A} (a b : list A) n : length a = n -> skipn n (a ++ b) = b.
Proof. intros <-. apply skipn_length_app. Qed.
Lemma firstn_app2 {A} (a b : list A) n : length a = n -> firstn n (a ++ b) = a.
Proof. intros <-. apply firstn_length_app. Qed.
Lemma ho_intro buf code : (forall st, Offence server max st buf code) -> HeaderOffence server max buf code.
Proof. apply ho. Qed.
Definition Started (b0 : N) (s s0 : ws) : Prop := core_eq s s0 /\ w_fro s0 = b0 /\ w_parsed s0 = 2 /\ w_exp s0 = 0 /\ w_masked s0 = server.

(** Once the length is known. *)
Lemma finish_spec b0 b1 ext t s s0 ind n control num : bytes_ok (b0 :: b1 :: ext ++ t) -> Started b0 s s0 ->
  N.land b0 112 = 0 -> data_op (N.land b0 15) \/ control_op (N.land b0 15) /\ negb (N.land b0 128 =? 0) = true ->
  ind = b1 mod 128 -> (128 <= b1 <-> server = true) -> control = (8 <=? N.land b0 15) -> num = length ext ->
  (ind < 126 /\ ext = [] /\ n = ind \/ ind = 126 /\ num = 2%nat /\ n = be_val ext \/ ind = 127 /\ num = 8%nat /\ n = be_val ext /\ n < 2 ^ 63) -> (control = true -> ind <= 125) ->
  SizeResult server max masks (b0 :: b1 :: ext ++ t) s (finish (N.of_nat (length (b0 :: b1 :: ext ++ t))) ind num control n s0) \/
  (exists s1, finish (N.of_nat (length (b0 :: b1 :: ext ++ t))) ind num control n s0 = (s1, 0) /\ core_eq s s1 /\ Incomplete server max (b0 :: b1 :: ext ++ t) /\ w_parsed s1 <> 0 /\
     (n = 0 /\ s1 = s0 \/ n <> 0 /\ forall more, whole (N.of_nat (length ((b0 :: b1 :: ext ++ t) ++ more))) s1 = finish (N.of_nat (length ((b0 :: b1 :: ext ++ t) ++ more))) ind num control n s0)).
Proof.
  intros B ST R OP IND MB CT NUM LN CI. set (buf := b0 :: b1 :: ext ++ t) in *.
  assert (B0 : b0 < 256) by (inversion B; assumption). assert (B1 : b1 < 256) by (inversion B as [|? ? ? B']; inversion B'; assumption).
  destruct (octet_parts b0 B0) as (P1 & P2 & P3 & P4). destruct (octet_frame b0 B0 R) as [FO FO16].
  assert (DC : ~ (data_op (N.land b0 15) /\ control_op (N.land b0 15))) by (unfold data_op, control_op; lia).
  assert (CTL : control = true <-> control_op (N.land b0 15)) by (subst control; unfold data_op, control_op in *; lia).
  unfold finish. destruct ((ind =? 126) && (n <? 126)) eqn:M1.
  { left. apply (sr_bad _ _ _ _ _ s0); try reflexivity; [apply ST| |apply Nat.leb_le; reflexivity].
    apply ho_intro. intros st. apply (of_length16 _ _ _ _ b0 b1 ext t); [reflexivity|lia|lia|lia]. }
  destruct ((ind =? 127) && (n <=? 65535)) eqn:M2.
  { left. apply (sr_bad _ _ _ _ _ s0); try reflexivity; [apply ST| |apply Nat.leb_le; reflexivity].
    apply ho_intro. intros st. apply (of_length64 _ _ _ _ b0 b1 ext t); [reflexivity|lia|lia|]. left. lia. }
  assert (LB : LengthBytes n ind ext).
  { unfold LengthBytes. destruct LN as [(L1 & L2 & L3)|[(L1 & L2 & L3)|(L1 & L2 & L3 & L4)]]; [left|right; left|right; right]; repeat split; try lia; try assumption; try congruence.
    pose proof (be_val_lt ext) as V. assert (X : be_val ext < 256 ^ N.of_nat (length ext)) by (apply V; inversion B as [|? ? ? B']; inversion B' as [|? ? ? B'']; apply bytes_ok_app in B''; tauto).
    rewrite <- NUM, L2 in X. change (256 ^ N.of_nat 2) with 65536 in X. lia. }
  cbv zeta. destruct (negb control && (0 <? max) && (max <? n)) eqn:TB.
  { left. apply (sr_bad _ _ _ _ _ (set_exp n s0)); try reflexivity; [destruct ST as ((E1 & E2 & E3 & E4 & E5) & _); repeat split; assumption| |apply Nat.leb_le; reflexivity].
    apply ho_intro. intros st. apply (of_too_big _ _ _ _ b0 b1 ext t n); [reflexivity|rewrite <- IND; exact LB|lia|lia|]. rewrite <- P1.
    destruct OP as [OP|[OP _]]; [exact OP|]. apply CTL in OP. rewrite OP in TB. discriminate TB. }
  set (s1 := set_parsed _ _). destruct ST as ((E1 & E2 & E3 & E4 & E5) & SF & SP & SE & SM).
  assert (CE : core_eq s s1) by (subst s1; repeat split; assumption).
  assert (W1 : w_exp s1 = n) by reflexivity. assert (W2 : w_parsed s1 = 2 + N.of_nat num) by (subst s1; cbn; rewrite SP; reflexivity). assert (W3 : w_masked s1 = server) by (subst s1; cbn; exact SM).
  unfold whole. rewrite W1, W2, W3. destruct (N.ltb_spec (N.of_nat (length buf)) (n + (2 + N.of_nat num) + (if server then 4 else 0))) as [SH|SH].
  - right. exists s1. split; [reflexivity|]. split; [exact CE|]. split; [|split; [rewrite W2; lia|]].
    + assert (NF : forall f w u, buf = w ++ u -> Wire f w -> ValidFrame server f -> False).
      { intros f w u BW WF VF. subst buf. destruct VF as (_ & VM & _). destruct WF as [fin op payload ind0 ext0 H|fin op m payload ind0 ext0 body H H0]; cbn [wf_mask] in VM.
        - destruct server; [destruct VM as [VM _]; specialize (VM eq_refl); discriminate|]. cbn [app] in BW. injection BW as BW0 BW1 BW2.
          assert (b1 < 128) by lia. assert (EI : ind = ind0) by (rewrite IND, N.mod_small; assumption). rewrite EI in LB. rewrite <- app_assoc in BW2.
          destruct (length_bytes_inj _ _ _ _ _ _ _ LB H BW2) as [X Y]. subst ext0. apply (f_equal (@length N)) in BW2. rewrite !app_length in BW2. cbn [length] in SH. rewrite app_length in SH. lia.
        - destruct server; [|destruct VM as [_ VM]; specialize (VM eq_refl); discriminate]. cbn [app] in BW. injection BW as BW0 BW1 BW2.
          assert (128 <= b1) by (apply MB; reflexivity). assert (EI : ind = ind0) by lia. rewrite EI in LB. rewrite <- app_assoc in BW2.
          destruct (length_bytes_inj _ _ _ _ _ _ _ LB H BW2) as [X Y]. subst ext0. apply (f_equal (@length N)) in BW2. destruct H0 as (ML & MB2 & _). rewrite !app_length in BW2. cbn [length] in SH. rewrite app_length in SH. lia. }
      split; [exact NF|]. intros st code O. destruct (no_frame_offence buf st code NF O) as (c0 & c1 & u & EB & X). subst buf. injection EB as <- <- EB.
      rewrite <- P1 in X. unfold data_op, control_op in *. destruct X as [X|[X|[X|[X|[X|X]]]]]; try (clear - X OP; lia); try (apply X, P2, R).
      * destruct X as [X1 X2]. destruct OP as [OP|[OP1 OP2]]; [lia|]. rewrite P3 in OP2. lia.
      * destruct server; [|]; destruct X as [XA XB], MB as [MA MC]; [specialize (XA (MC eq_refl)); discriminate|]. specialize (XB eq_refl). specialize (MA XB). discriminate.
      * rewrite IND in CI. destruct X as [X1 X2]. apply CTL in X1. specialize (CI X1). lia.
      * destruct X as (ext' & u' & EU & X). rewrite EU in EB. rewrite IND in *.
        assert (Q : forall n', LengthBytes n' (b1 mod 128) ext' -> n = n' /\ ext = ext') by (intros n' LB'; exact (length_bytes_inj _ _ _ _ _ _ _ LB LB' EB)).
        assert (LE : length ext' = length ext -> ext' = ext) by (intros L; apply (f_equal (firstn (length ext))) in EB; rewrite firstn_length_app, <- L, firstn_length_app in EB; symmetry; exact EB).
        destruct X as [(X1 & X2 & X3)|[(X1 & X2 & X3)|(n' & X1 & X2 & X3 & X4)]].
        -- rewrite LE in X3 by lia. lia.
        -- rewrite LE in X3 by lia. destruct X3; lia.
        -- destruct (Q _ X1) as [-> _]. assert (control = false) by (destruct control; [exfalso; apply DC; split; [exact X4|apply CTL; reflexivity]|reflexivity]). subst control. lia.
    + destruct (N.eq_dec n 0) as [Z|NZ]; [left|right; split; [exact NZ|]].
      * split; [exact Z|]. subst s1. assert (num = 0%nat) by (destruct LN as [(_ & L & _)|[(L1 & L2 & L3)|(L1 & L2 & L3 & _)]]; [subst ext; exact NUM|lia|lia]).
        subst num. rewrite Z, H. unfold set_parsed, set_exp. cbn. rewrite SP. destruct s0. cbn in *. subst. reflexivity.
      * intros more. rewrite ?W1, ?W2, ?W3. reflexivity.
  - left. destruct server eqn:SV.
    + assert (TL : exists m body u, t = m ++ body ++ u /\ length m = 4%nat /\ length body = N.to_nat n).
      { exists (firstn 4 t), (firstn (N.to_nat n) (skipn 4 t)), (skipn (N.to_nat n) (skipn 4 t)). rewrite !firstn_skipn. split; [reflexivity|].
        subst buf. cbn [length] in SH. rewrite app_length in SH. split; [apply firstn_length_le; lia|]. rewrite firstn_length_le; [reflexivity|]. rewrite skipn_length. lia. }
      destruct TL as (m & body & u & -> & LM & LBO).
      assert (OKS : bytes_ok m /\ bytes_ok body) by (inversion B as [|? ? ? B']; inversion B' as [|? ? ? B'']; apply bytes_ok_app in B'' as [_ B'']; apply bytes_ok_app in B'' as [? B'']; apply bytes_ok_app in B''; tauto).
      apply (sr_got _ _ _ _ _ s1 (mk_wf (negb (N.land b0 128 =? 0)) (N.land b0 15) (Some m) (unmask m 0 body)) (b0 :: b1 :: ext ++ m ++ body) u).
      * exact CE.
      * subst buf. cbn [app]. rewrite <- !app_assoc. reflexivity.
      * assert (EB1 : b1 = 128 + ind) by (rewrite IND; assert (128 <= b1) by (apply MB; reflexivity); lia). rewrite EB1. replace (b0 :: 128 + ind :: ext ++ m ++ body) with ((if negb (N.land b0 128 =? 0) then 128 else 0) + N.land b0 15 :: 128 + ind :: ext ++ m ++ body) by (f_equal; symmetry; exact FO).
        apply wire_masked; [rewrite unmask_length, LBO, N2Nat.id; exact LB|apply unmask_masked, LM].
      * split; [|split]; cbn [wf_op wf_fin wf_payload wf_mask].
        -- rewrite unmask_length, LBO, N2Nat.id. destruct OP as [OP|[OP1 OP2]]; [left; exact OP|right]. split; [exact OP1|]. split; [exact OP2|]. apply CTL in OP1. specialize (CI OP1).
           destruct LN as [(_ & _ & L)|[(L & _)|(L & _)]]; lia.
        -- split; discriminate.
        -- apply unmask_ok; tauto.
      * cbn [wf_op wf_payload]. intros D. unfold fits. rewrite unmask_length, LBO, N2Nat.id. assert (control = false) by (destruct control; [exfalso; apply DC; split; [exact D|apply CTL; reflexivity]|reflexivity]). subst control. rewrite H in TB. cbn [negb] in TB. lia.
      * subst s1. cbn. rewrite SF. exact FO.
      * unfold payload_at. rewrite W1, W2, W3. cbn [wf_payload]. replace (N.to_nat (2 + N.of_nat num)) with (2 + length ext)%nat by lia. subst buf. change (skipn (2 + length ext) (b0 :: b1 :: ext ++ m ++ body ++ u)) with (skipn (length ext) (ext ++ m ++ body ++ u)).
        rewrite skipn_length_app. rewrite (firstn_app2 m) by exact LM. rewrite (skipn_app2 m) by exact LM. rewrite (firstn_app2 body) by exact LBO. reflexivity.
      * cbn [length]. rewrite !app_length. lia.
      * lia.
    + assert (TL : exists body u, t = body ++ u /\ length body = N.to_nat n).
      { exists (firstn (N.to_nat n) t), (skipn (N.to_nat n) t). rewrite firstn_skipn. split; [reflexivity|]. subst buf. cbn [length] in SH. rewrite app_length in SH. apply firstn_length_le. lia. }
      destruct TL as (body & u & -> & LBO).
      assert (OKS : bytes_ok body) by (inversion B as [|? ? ? B']; inversion B' as [|? ? ? B'']; apply bytes_ok_app in B'' as [_ B'']; apply bytes_ok_app in B''; tauto).
      apply (sr_got _ _ _ _ _ s1 (mk_wf (negb (N.land b0 128 =? 0)) (N.land b0 15) None body) (b0 :: b1 :: ext ++ body) u).
      * exact CE.
      * subst buf. cbn [app]. rewrite <- !app_assoc. reflexivity.
      * assert (EB1 : b1 = ind) by (rewrite IND; assert (~ 128 <= b1) by (intros X; apply MB in X; discriminate); lia). rewrite EB1. replace (b0 :: ind :: ext ++ body) with ((if negb (N.land b0 128 =? 0) then 128 else 0) + N.land b0 15 :: ind :: ext ++ body) by (f_equal; symmetry; exact FO).
        apply wire_plain. rewrite LBO, N2Nat.id. exact LB.
      * split; [|split]; cbn [wf_op wf_fin wf_payload wf_mask].
        -- rewrite LBO, N2Nat.id. destruct OP as [OP|[OP1 OP2]]; [left; exact OP|right]. split; [exact OP1|]. split; [exact OP2|]. apply CTL in OP1. specialize (CI OP1).
           destruct LN as [(_ & _ & L)|[(L & _)|(L & _)]]; lia.
        -- split; reflexivity.
        -- exact OKS.
      * cbn [wf_op wf_payload]. intros D. unfold fits. rewrite LBO, N2Nat.id. assert (control = false) by (destruct control; [exfalso; apply DC; split; [exact D|apply CTL; reflexivity]|reflexivity]). subst control. rewrite H in TB. cbn [negb] in TB. lia.
      * subst s1. cbn. rewrite SF. exact FO.
      * unfold payload_at. rewrite W1, W2, W3. cbn [wf_payload]. replace (N.to_nat (2 + N.of_nat num)) with (2 + length ext)%nat by lia. subst buf. cbn [Nat.add skipn].
        rewrite skipn_length_app. rewrite (firstn_app2 body) by exact LBO. reflexivity.
      * cbn [length]. rewrite !app_length. lia.
      * lia.
Qed.
End SIZE.
