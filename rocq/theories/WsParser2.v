(** The WebSocket parser: getMessageSize on a fresh frame, and what a later call with more octets does. *)
From Verif Require Import Base H2Spec H2Proofs WsSpec WsModel WsProofs WsParser.
Local Open Scope N_scope.

Section SIZE.
Variable server : bool.
Variable max : N.
Variable masks : nat -> list N.

Definition num_of (ind : N) : nat := if ind =? 126 then 2%nat else if ind =? 127 then 8%nat else 0%nat.
Lemma second_eq b0 b1 t s : w_exp s = 0 ->
  second server max masks (b0 :: b1 :: t) s =
    let size := N.of_nat (length (b0 :: b1 :: t)) in
    let ind := N.land b1 127 in
    let control := 8 <=? N.land (w_fro s) 15 in
    if control && (125 <? ind) then fail_at server masks 1002 (str "Control frame payload cannot exceed 125 bytes") size s
    else
      if (num_of ind =? 0)%nat then finish server max masks size ind (num_of ind) control ind s
      else if control then fail_at server masks 1002 (str "Control frame cannot have extended payload length") size s
      else if size <? N.of_nat (num_of ind) + 2 then (s, 0)
      else if (ind =? 127) && negb (N.land (nth 0 t 0) 128 =? 0) then fail_at server masks 1002 (str "Most significant bit of 64-bit payload length must be 0") size s
        else finish server max masks size ind (num_of ind) control (sum_length (num_of ind) t) s.
Proof. intros E. unfold second. rewrite E. reflexivity. Qed.

Lemma msb64 b t : length (b :: t) = 8%nat -> bytes_ok (b :: t) -> negb (N.land b 128 =? 0) = (2 ^ 63 <=? be_val (b :: t)).
Proof.
  intros L B. inversion B as [|? ? B1 B2]; subst. destruct (octet_parts b B1) as (_ & _ & P & _). rewrite P. cbn [be_val]. cbn [length] in L. assert (LT : length t = 7%nat) by lia. rewrite LT.
  pose proof (be_val_lt t B2) as V. rewrite LT in V. change (256 ^ N.of_nat 7) with 72057594037927936 in *. change (2 ^ 63) with 9223372036854775808. clear -V.
  destruct (N.ltb_spec b 128), (N.leb_spec 9223372036854775808 (b * 72057594037927936 + be_val t)); cbn [negb]; lia.
Qed.

Lemma second_spec b0 b1 t s s0 : bytes_ok (b0 :: b1 :: t) -> Started server b0 s s0 ->
  N.land b0 112 = 0 -> data_op (N.land b0 15) \/ control_op (N.land b0 15) /\ negb (N.land b0 128 =? 0) = true -> (128 <= b1 <-> server = true) ->
  SizeResult server max masks (b0 :: b1 :: t) s (second server max masks (b0 :: b1 :: t) s0) \/
  (exists s1, second server max masks (b0 :: b1 :: t) s0 = (s1, 0) /\ core_eq s s1 /\ Incomplete server max (b0 :: b1 :: t) /\ w_parsed s1 <> 0 /\
     forall more, second server max masks ((b0 :: b1 :: t) ++ more) s1 = second server max masks ((b0 :: b1 :: t) ++ more) s0).
Proof.
  intros B ST R OP MB. destruct ST as (CE & SF & SP & SE & SM). cbn [app].
  assert (B0 : b0 < 256) by (inversion B; assumption). assert (B1 : b1 < 256) by (inversion B as [|? ? ? B']; inversion B'; assumption).
  assert (BT : bytes_ok t) by (inversion B as [|? ? ? B']; inversion B'; assumption).
  destruct (octet_parts b0 B0) as (P1 & P2 & P3 & P4). destruct (octet_parts b1 B1) as (_ & _ & _ & Q4).
  assert (DC : ~ (data_op (N.land b0 15) /\ control_op (N.land b0 15))) by (unfold data_op, control_op; clear; lia).
  set (control := 8 <=? N.land b0 15). assert (CTL : control = true <-> control_op (N.land b0 15)) by (subst control; unfold data_op, control_op in *; clear -OP; lia).
  assert (I127 : N.land b1 127 < 128) by (rewrite Q4; apply N.mod_lt; discriminate).
  rewrite second_eq by exact SE. cbv zeta. rewrite SF. fold control.
  assert (LSZ : 0 < N.of_nat (length (b0 :: b1 :: t))) by reflexivity.
  destruct (control && (125 <? N.land b1 127)) eqn:C1.
  { left. apply (sr_bad _ _ _ _ _ s0); try reflexivity; [exact CE| |apply Nat.leb_le; reflexivity].
    apply ho_intro. intros st. apply andb_true_iff in C1 as [C1 C2]. apply (of_long_control _ _ _ _ b0 b1 t); [reflexivity|rewrite <- P1; apply CTL, C1|rewrite <- Q4; apply N.ltb_lt, C2]. }
  destruct (num_of (N.land b1 127) =? 0)%nat eqn:NM.
  - assert (L126 : N.land b1 127 < 126) by (unfold num_of in NM; destruct (N.eqb_spec (N.land b1 127) 126); [discriminate|]; destruct (N.eqb_spec (N.land b1 127) 127); [discriminate|]; lia).
    apply Nat.eqb_eq in NM. rewrite NM.
    assert (FSP : SizeResult server max masks (b0 :: b1 :: [] ++ t) s (finish server max masks (N.of_nat (length (b0 :: b1 :: [] ++ t))) (N.land b1 127) 0 control (N.land b1 127) s0) \/
  (exists s1, finish server max masks (N.of_nat (length (b0 :: b1 :: [] ++ t))) (N.land b1 127) 0 control (N.land b1 127) s0 = (s1, 0) /\ core_eq s s1 /\ Incomplete server max (b0 :: b1 :: [] ++ t) /\ w_parsed s1 <> 0 /\
     (N.land b1 127 = 0 /\ s1 = s0 \/ N.land b1 127 <> 0 /\ forall more, whole (N.of_nat (length ((b0 :: b1 :: [] ++ t) ++ more))) s1 = finish server max masks (N.of_nat (length ((b0 :: b1 :: [] ++ t) ++ more))) (N.land b1 127) 0 control (N.land b1 127) s0))).
    { apply (finish_spec server max masks b0 b1 [] t); try assumption; try reflexivity.
      - repeat split; try assumption; apply CE.
      - left. repeat split; assumption.
      - intros _. lia. }
    destruct FSP as [FS|FS]; [left; exact FS|right].
    destruct FS as (s1 & F1 & F2 & F3 & F4 & F5). exists s1. split; [exact F1|]. split; [exact F2|]. split; [exact F3|]. split; [exact F4|]. intros more.
    destruct F5 as [[_ ->]|[NZ F5]]; [reflexivity|].
    assert (E1 : w_exp s1 <> 0).
    { assert (E1 : w_exp s1 = N.land b1 127); [|rewrite E1; exact NZ]. revert F1. unfold finish, whole, fail_at. cbv zeta. 
      repeat match goal with |- (if ?b then _ else _) = _ -> _ => destruct b eqn:? end; intros F1; injection F1 as <-; try reflexivity; try discriminate; try congruence. }
    unfold second at 1. apply N.eqb_neq in E1. rewrite E1. cbn [app] in F5. rewrite F5. rewrite second_eq by exact SE. cbv zeta. rewrite SF. fold control. rewrite C1, NM. reflexivity.
  - assert (NN : num_of (N.land b1 127) <> 0%nat) by (apply Nat.eqb_neq, NM).
    assert (LN : N.land b1 127 = 126 /\ num_of (N.land b1 127) = 2%nat \/ N.land b1 127 = 127 /\ num_of (N.land b1 127) = 8%nat)
      by (unfold num_of in *; destruct (N.eqb_spec (N.land b1 127) 126); [left; tauto|]; destruct (N.eqb_spec (N.land b1 127) 127); [right; tauto|]; congruence).
    assert (control = false) as CF by (destruct control eqn:?; [|reflexivity]; cbn [andb] in C1; apply N.ltb_ge in C1; lia). rewrite CF.
    assert (DT : data_op (N.land b0 15)) by (destruct OP as [OP|[OP _]]; [exact OP|apply CTL in OP; congruence]).
    remember (num_of (N.land b1 127)) as num eqn:NUM.
    destruct (N.ltb_spec (N.of_nat (length (b0 :: b1 :: t))) (N.of_nat num + 2)) as [SH|SH].
    + right. exists s0. split; [reflexivity|]. split; [exact CE|]. split; [|split; [rewrite SP; discriminate|reflexivity]]. cbn [length] in SH.
      assert (NB : forall n ext u, LengthBytes n (b1 mod 128) ext -> t = ext ++ u -> False).
      { intros n ext u LB ->. rewrite app_length in SH. rewrite <- Q4 in LB. unfold LengthBytes in LB. destruct LN as [[L1 L2]|[L1 L2]]; destruct LB as [LB|[LB|LB]]; lia. }
      assert (NF : forall f w u, b0 :: b1 :: t = w ++ u -> Wire f w -> ValidFrame server f -> False).
      { intros f w u BW WF VF. destruct VF as (_ & VM & _). destruct WF as [fin op payload ind0 ext0 H|fin op m payload ind0 ext0 body H H0]; cbn [wf_mask] in VM; cbn [app] in BW; injection BW as BW0 BW1 BW2; rewrite <- app_assoc in BW2.
        - assert (b1 < 128) by (destruct server; [destruct VM as [VM _]; specialize (VM eq_refl); discriminate|]; clear -MB; assert (~ 128 <= b1) by (intros X; apply MB in X; discriminate); lia).
          apply (NB (N.of_nat (length payload)) ext0 (payload ++ u)); [|exact BW2]. rewrite N.mod_small by assumption. rewrite BW1. exact H.
        - assert (128 <= b1) by (apply MB; destruct server; [reflexivity|destruct VM as [_ VM]; specialize (VM eq_refl); discriminate]).
          apply (NB (N.of_nat (length payload)) ext0 ((m ++ body) ++ u)); [|exact BW2]. replace (b1 mod 128) with ind0 by (clear -BW1 B1 H1; lia). exact H. }
      split; [exact NF|]. intros st code O. destruct (no_frame_offence server max _ st code NF O) as (c0 & c1 & u & EB & X). injection EB as <- <- <-.
      rewrite <- P1, <- Q4 in X. unfold data_op, control_op in *. destruct X as [X|[X|[X|[X|[X|X]]]]]; try (clear - X DT; lia); try (apply X, P2, R).
      * destruct server; destruct X as [XA XB], MB as [MA MC]; [specialize (XA (MC eq_refl)); discriminate|]. specialize (XB eq_refl). specialize (MA XB). discriminate.
      * destruct X as (ext' & u' & EU & X). destruct X as [(X1 & X2 & X3)|[(X1 & X2 & X3)|(n' & X1 & X2 & X3 & X4)]].
        -- rewrite EU, app_length in SH. clear -SH X2 LN X1. lia.
        -- rewrite EU, app_length in SH. clear -SH X2 LN X1. lia.
        -- rewrite Q4 in X1. exact (NB _ _ _ X1 EU).
    + cbn [length] in SH. set (ext := firstn num t). assert (LE : length ext = num) by (apply firstn_length_le; lia).
      assert (TE : t = ext ++ skipn num t) by (symmetry; apply firstn_skipn).
      assert (BE : bytes_ok ext) by (rewrite TE in BT; apply bytes_ok_app in BT; tauto).
      rewrite sum_length_val by lia. fold ext.
      assert (MSB : N.land b1 127 = 127 -> negb (N.land (nth 0 t 0) 128 =? 0) = (2 ^ 63 <=? be_val ext)).
      { intros E. assert (L8 : length ext = 8%nat) by lia. clearbody ext. rewrite TE. destruct ext as [|e0 ext']; [discriminate L8|]. cbn [app nth]. apply msb64; assumption. }
      destruct ((N.land b1 127 =? 127) && negb (N.land (nth 0 t 0) 128 =? 0)) eqn:C2.
      { left. apply andb_true_iff in C2 as [C2 C3]. apply N.eqb_eq in C2. rewrite MSB in C3 by exact C2. apply N.leb_le in C3.
        apply (sr_bad _ _ _ _ _ s0); try reflexivity; [exact CE| |apply Nat.leb_le; reflexivity].
        apply ho_intro. intros st. apply (of_length64 _ _ _ _ b0 b1 ext (skipn num t)); [rewrite <- TE; reflexivity|rewrite <- Q4; exact C2|lia|right; exact C3]. }
      assert (FSP : SizeResult server max masks (b0 :: b1 :: ext ++ skipn num t) s (finish server max masks (N.of_nat (length (b0 :: b1 :: ext ++ skipn num t))) (N.land b1 127) num control (be_val ext) s0) \/
  (exists s1, finish server max masks (N.of_nat (length (b0 :: b1 :: ext ++ skipn num t))) (N.land b1 127) num control (be_val ext) s0 = (s1, 0) /\ core_eq s s1 /\ Incomplete server max (b0 :: b1 :: ext ++ skipn num t) /\ w_parsed s1 <> 0 /\
     (be_val ext = 0 /\ s1 = s0 \/ be_val ext <> 0 /\ forall more, whole (N.of_nat (length ((b0 :: b1 :: ext ++ skipn num t) ++ more))) s1 = finish server max masks (N.of_nat (length ((b0 :: b1 :: ext ++ skipn num t) ++ more))) (N.land b1 127) num control (be_val ext) s0))).
      { apply (finish_spec server max masks b0 b1 ext (skipn num t)); try assumption; try reflexivity.
        - rewrite <- TE. exact B.
        - repeat split; try assumption; apply CE.
        - congruence.
        - right. destruct LN as [[L1 L2]|[L1 L2]]; [left; tauto|right]. split; [exact L1|]. split; [exact L2|]. split; [reflexivity|]. rewrite L1 in C2. change (127 =? 127) with true in C2. cbn [andb] in C2. rewrite MSB in C2 by exact L1. apply N.leb_gt, C2.
        - congruence. }
      rewrite <- TE in FSP. rewrite CF in FSP. destruct FSP as [FS|FS]; [left; exact FS|right].
      destruct FS as (s1 & F1 & F2 & F3 & F4 & F5). exists s1. split; [exact F1|]. split; [exact F2|]. split; [exact F3|]. split; [exact F4|]. intros more.
      destruct F5 as [[_ ->]|[NZ F5]]; [reflexivity|].
      assert (E1 : w_exp s1 <> 0).
      { assert (E1 : w_exp s1 = be_val ext); [|rewrite E1; exact NZ]. revert F1. unfold finish, whole, fail_at. cbv zeta. clear -LSZ.
        repeat match goal with |- (if ?b then _ else _) = _ -> _ => destruct b eqn:? end; intros F1; injection F1 as <-; try reflexivity; try discriminate; try congruence. }
      unfold second at 1. apply N.eqb_neq in E1. rewrite E1. cbn [app] in F5. rewrite F5. rewrite second_eq by exact SE. cbv zeta. rewrite SF. fold control.
      rewrite C1, <- NUM, NM, CF. replace (N.of_nat (length (b0 :: b1 :: t ++ more)) <? N.of_nat num + 2) with false by (symmetry; apply N.ltb_ge; cbn [length]; rewrite app_length; clear -SH; lia).
      replace (nth 0 (t ++ more) 0) with (nth 0 t 0) by (symmetry; apply app_nth1; clear -SH NN; lia). rewrite C2.
      rewrite sum_length_val by (rewrite app_length; clear -SH; lia). rewrite firstn_app. replace (num - length t)%nat with 0%nat by (clear -SH; lia). cbn [firstn]. rewrite app_nil_r. reflexivity.
Qed.

(** What getMessageSize answers for the first octets of a frame. *)
Definition Fresh (s : ws) : Prop := w_ok s = true /\ w_parsed s = 0 /\ w_exp s = 0.
Lemma incomplete_short buf : (length buf < 2)%nat -> Incomplete server max buf.
Proof.
  intros L. assert (NF : forall f w t, buf = w ++ t -> Wire f w -> ValidFrame server f -> False) by (intros f w t E WF _; destruct WF; subst buf; cbn in L; lia).
  split; [exact NF|]. intros st code O. destruct (no_frame_offence server max _ st code NF O) as (c0 & c1 & u & EB & _). subst buf. cbn in L. lia.
Qed.
Lemma message_size_fresh buf s : bytes_ok buf -> Fresh s -> SizeResult server max masks buf s (message_size server max masks buf s).
Proof.
  intros B (OK & PZ & EZ). rewrite message_size_eq. rewrite OK, PZ. cbn [negb]. change (0 =? 0) with true. cbv iota zeta.
  destruct (N.ltb_spec (N.of_nat (length buf)) 2) as [SH|SH].
  { apply sr_more; [apply core_refl|intros more; reflexivity|apply incomplete_short; lia|reflexivity]. }
  destruct buf as [|b0 [|b1 t]]; try (cbn [length] in SH; lia). cbn [nth].
  assert (B0 : b0 < 256) by (inversion B; assumption). assert (B1 : b1 < 256) by (inversion B as [|? ? ? B']; inversion B'; assumption).
  destruct (octet_parts b0 B0) as (P1 & P2 & P3 & P4). destruct (octet_parts b1 B1) as (_ & _ & Q3 & Q4).
  destruct (is_valid_frame_opcode (N.land b0 15)) eqn:VO; cbn [negb].
  2:{ apply (sr_bad _ _ _ _ _ (set_fro b0 s)); try reflexivity; [repeat split| |apply Nat.leb_le; reflexivity]. apply ho_intro. intros st.
      apply (of_opcode _ _ _ _ b0 b1 t); [reflexivity| |]; rewrite <- P1; intros X; assert (is_valid_frame_opcode (N.land b0 15) = true) by (apply valid_opcode_spec; tauto); congruence. }
  destruct (N.eqb_spec (N.land b0 112) 0) as [R|R]; cbn [negb].
  2:{ apply (sr_bad _ _ _ _ _ (set_fro b0 s)); try reflexivity; [repeat split| |apply Nat.leb_le; reflexivity]. apply ho_intro. intros st.
      apply (of_rsv _ _ _ _ b0 b1 t); [reflexivity|]. intros X. apply R, P2, X. }
  assert (VO' : data_op (N.land b0 15) \/ control_op (N.land b0 15)) by (apply valid_opcode_spec, VO).
  destruct ((8 <=? N.land b0 15) && (N.land b0 128 =? 0)) eqn:FC.
  { apply (sr_bad _ _ _ _ _ (set_fro b0 s)); try reflexivity; [repeat split| |apply Nat.leb_le; reflexivity]. apply ho_intro. intros st. apply andb_true_iff in FC as [F1 F2]. rewrite P3 in F2. apply N.ltb_lt in F2. apply N.leb_le in F1.
    apply (of_fragmented_control _ _ _ _ b0 b1 t); [reflexivity| |exact F2]. rewrite <- P1. unfold data_op in VO'. destruct VO' as [X|X]; [lia|exact X]. }
  rewrite Q3. set (m := negb (b1 <? 128)).
  destruct (server && negb m) eqn:S1.
  { apply (sr_bad _ _ _ _ _ (set_masked m (set_fro b0 s))); try reflexivity; [repeat split| |apply Nat.leb_le; reflexivity]. apply ho_intro. intros st.
    apply (of_mask _ _ _ _ b0 b1 t); [reflexivity|]. subst m. destruct server; [|discriminate S1]. split; intros X; [|discriminate]. destruct (N.ltb_spec b1 128); [lia|discriminate S1]. }
  destruct (negb server && m) eqn:S2.
  { apply (sr_bad _ _ _ _ _ (set_masked m (set_fro b0 s))); try reflexivity; [repeat split| |apply Nat.leb_le; reflexivity]. apply ho_intro. intros st.
    apply (of_mask _ _ _ _ b0 b1 t); [reflexivity|]. subst m. destruct server; [discriminate S2|]. split; intros X; [reflexivity|]. destruct (N.ltb_spec b1 128); [discriminate S2|lia]. }
  assert (MM : m = server) by (destruct server, m; try reflexivity; discriminate).
  assert (MB : 128 <= b1 <-> server = true) by (subst m; destruct (N.ltb_spec b1 128); rewrite <- MM; cbn [negb]; split; intros; try discriminate; try lia; reflexivity).
  assert (ST : Started server b0 s (opened b0 m s)) by (repeat split; try exact EZ; exact MM).
  assert (OP : data_op (N.land b0 15) \/ control_op (N.land b0 15) /\ negb (N.land b0 128 =? 0) = true).
  { destruct VO' as [X|X]; [left; exact X|right; split; [exact X|]]. destruct (N.land b0 128 =? 0); [|reflexivity]. exfalso. unfold control_op in X. rewrite andb_true_r in FC. apply N.leb_gt in FC. lia. }
  destruct (second_spec b0 b1 t s (opened b0 m s) B ST R OP MB) as [SR|(s1 & E1 & C1 & I1 & N1 & R1)]; [exact SR|].
  rewrite E1. apply sr_more; [exact C1| |exact I1|intros X; contradiction].
  intros more. rewrite (message_size_eq server max masks _ s1). destruct C1 as (C11 & C12). rewrite C11, OK. cbn [negb]. apply N.eqb_neq in N1. rewrite N1. rewrite R1.
  rewrite message_size_eq. rewrite OK, PZ. cbn [negb app nth]. change (0 =? 0) with true. cbv iota zeta.
  replace (N.of_nat (length (b0 :: b1 :: t ++ more)) <? 2) with false by (symmetry; apply N.ltb_ge; cbn [length]; lia).
  rewrite VO. cbn [negb]. apply N.eqb_eq in R. rewrite R. cbn [negb]. rewrite FC, Q3. fold m. rewrite S1, S2. reflexivity.
Qed.
End SIZE.
