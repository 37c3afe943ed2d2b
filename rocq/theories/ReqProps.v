From Verif Require Import Base UtilModel UtilSpec UtilProofs H2FieldSpec Http1Model Http1Spec Http1Proofs RecvModel ValJson ValModel ValSpec ValProps ValProps2 ValProps3 SanModel ReqModel FloatFacts ReqSpec.
From Coq Require Import SpecFloat.
Local Open Scope N_scope.

(** ** Reading values *)
Lemma digits_test ds : forallb (fun c => (48 <=? c) && (c <=? 57)) ds = true <-> Forall Digit ds.
Proof. rewrite forallb_forall, Forall_forall. unfold Digit. split; intros H x Hx; specialize (H x Hx); lia. Qed.
Lemma fold_value ds : Forall Digit ds -> fold_left (fun a c => 10 * a + Z.of_N (c - 48))%Z ds 0%Z = Z.of_N (dec_val ds).
Proof.
  intros H. transitivity (Z.of_N (fold_left (fun a c => 10 * a + (c - 48)) ds 0)).
  - change 0%Z with (Z.of_N 0). generalize 0. induction ds as [|c l IH]; intros a; [reflexivity|]. inversion H; subst. cbn [fold_left].
    replace (10 * Z.of_N a + Z.of_N (c - 48))%Z with (Z.of_N (10 * a + (c - 48))) by lia. now apply IH.
  - rewrite fold_dec by auto. f_equal.
Qed.
Lemma integer_iff v z : from_chars_ll v = Some z <-> Integer v z /\ Long z.
Proof.
  set (number := fun ds : list N => match ds with [] => None | _ => if forallb (fun c => (48 <=? c) && (c <=? 57)) ds then Some (fold_left (fun a c => 10 * a + Z.of_N (c - 48))%Z ds 0%Z) else None end).
  assert (HN : forall ds x, number ds = Some x <-> exists n, Decimal ds n /\ x = Z.of_N n).
  { intros ds x. unfold number. unfold Decimal. destruct ds as [|c ds]; [split; [discriminate|intros (n & (H & _) & _); congruence]|].
    set (l := c :: ds). destruct (forallb (fun c => (48 <=? c) && (c <=? 57)) l) eqn:E.
    - apply digits_test in E. rewrite fold_value by exact E. split; [intros H; injection H as <-; exists (dec_val l); subst l; repeat split; [discriminate|exact E]|intros (n & (_ & _ & <-) & ->); reflexivity].
    - split; [discriminate|]. intros (n & (_ & H & _) & _). apply digits_test in H. congruence. }
  assert (HI : Integer v z <-> match v with 45 :: ds => exists n, Decimal ds n /\ z = (- Z.of_N n)%Z | _ => exists n, Decimal v n /\ z = Z.of_N n end).
  { split.
    - destruct 1 as [ds n H|ds n H]; [|now exists n]. destruct H as (H1 & H2 & H3). destruct ds as [|c ds]; [congruence|]. assert (HX : exists n0, Decimal (c :: ds) n0 /\ Z.of_N n = Z.of_N n0) by (exists n; repeat split; auto).
      inversion H2 as [|? ? Hc _]; subst. unfold Digit in Hc. destruct c as [|c]; [exact HX|]. do 6 (destruct c as [c|c|]; try exact HX). lia.
    - destruct v as [|c v]; [intros (n & H & ->); now constructor|]. destruct c as [|c]; [intros (n & H & ->); now constructor|].
      do 6 (destruct c as [c|c|]; try (intros (n & H & ->); now constructor)). }
  assert (HM : from_chars_ll v = match v with 45 :: ds => match number ds with Some z => if (z <=? 9223372036854775808)%Z then Some (- z)%Z else None | None => None end
                                         | _ => match number v with Some z => if (z <=? 9223372036854775807)%Z then Some z else None | None => None end end) by reflexivity.
  rewrite HM, HI. clear HM HI.
  assert (HP : forall ds, match number ds with Some z => if (z <=? 9223372036854775807)%Z then Some z else None | None => None end = Some z <-> (exists n, Decimal ds n /\ z = Z.of_N n) /\ Long z).
  { intros ds. destruct (number ds) as [x|] eqn:E.
    - apply HN in E as (n & HD & ->). destruct (Z.leb_spec (Z.of_N n) 9223372036854775807).
      + split; [intros H'; injection H' as <-; split; [now exists n|unfold Long; lia]|intros ((k & (_ & _ & <-) & ->) & _); destruct HD as (_ & _ & <-); reflexivity].
      + split; [discriminate|]. intros ((k & (_ & _ & <-) & ->) & HL). destruct HD as (_ & _ & <-). unfold Long in HL. lia.
    - split; [discriminate|]. intros ((n & HD & ->) & _). assert (number ds = Some (Z.of_N n)) by (apply HN; now exists n). congruence. }
  assert (HQ : forall ds, match number ds with Some z => if (z <=? 9223372036854775808)%Z then Some (- z)%Z else None | None => None end = Some z <-> (exists n, Decimal ds n /\ z = - Z.of_N n)%Z /\ Long z).
  { intros ds. destruct (number ds) as [x|] eqn:E.
    - apply HN in E as (n & HD & ->). destruct (Z.leb_spec (Z.of_N n) 9223372036854775808).
      + split; [intros H'; injection H' as <-; split; [now exists n|unfold Long; lia]|intros ((k & (_ & _ & <-) & ->) & _); destruct HD as (_ & _ & <-); reflexivity].
      + split; [discriminate|]. intros ((k & (_ & _ & <-) & ->) & HL). destruct HD as (_ & _ & <-). unfold Long in HL. lia.
    - split; [discriminate|]. intros ((n & HD & ->) & _). assert (number ds = Some (Z.of_N n)) by (apply HN; now exists n). congruence. }
  destruct v as [|c v]; [apply HP|]. destruct c as [|c]; [apply HP|]. do 6 (destruct c as [c|c|]; try apply HP). apply HQ.
Qed.

Section Props.
Variable real : list N -> option spec_float.
Hypothesis real_double : forall v d, real v = Some d -> Double d.

Lemma lower_iff v s : bytes_ok v -> (beq (map ascii_to_lower v) (str s) = true <-> map lower v = str s).
Proof.
  intros Hv. rewrite beq_eq. replace (map ascii_to_lower v) with (map lower v); [tauto|]. apply map_ext_in. intros c Hc. unfold bytes_ok in Hv. rewrite Forall_forall in Hv. specialize (Hv c Hc).
  assert (HS : forallb (fun n => lower (N.of_nat n) =? ascii_to_lower (N.of_nat n)) (seq 0 256) = true) by (vm_compute; reflexivity).
  rewrite forallb_forall in HS. specialize (HS (N.to_nat c) ltac:(apply in_seq; lia)). rewrite N2Nat.id in HS. lia.
Qed.
Lemma lower_digit v c : 48 <= c <= 57 -> (map lower v = [c] <-> v = [c]).
Proof.
  intros Hc. split; [|intros ->; cbn; f_equal; unfold lower; destruct (_ && _) eqn:E; [lia|reflexivity]]. destruct v as [|d [|e v]]; cbn; intros H; try discriminate H.
  injection H as H. f_equal. revert H. unfold lower. destruct (_ && _) eqn:E; intros H; [lia|exact H].
Qed.
(** C133: a text is turned into the value of the declared type it denotes, and refused if it denotes none. *)
Theorem c133_parse t v j : bytes_ok v -> (parse_value real v t = Some j <-> Reads real t v j).
Proof.
  intros Hv. destruct t as [t|]; [|split; [discriminate|intros H; inversion H]]. destruct t; cbn [parse_value]; try (split; [discriminate|intros H; inversion H]).
  - split; [intros H; injection H as <-; constructor|intros H; inversion H; reflexivity].
  - destruct (from_chars_ll v) as [z|] eqn:E.
    + apply integer_iff in E as [E1 E2]. split; [intros H; injection H as <-; now constructor|]. intros H. inversion H as [| |? z' H1 H2| | | |]; subst.
      f_equal. f_equal. pose proof (proj2 (integer_iff v z) (conj E1 E2)). pose proof (proj2 (integer_iff v z') (conj H1 H2)). congruence.
    + split; [discriminate|]. intros H. inversion H as [| |? z' H1 H2| | | |]; subst. pose proof (proj2 (integer_iff v z') (conj H1 H2)). congruence.
  - destruct (real v) as [d|] eqn:E; [|split; [discriminate|intros H; inversion H; congruence]]. pose proof (real_double v d E) as HD.
    destruct (finite d) eqn:EF; cbn [negb].
    2: { split; [discriminate|]. intros H. inversion H as [| | |? d' z H1 H2| ? d' H1 H2| |]; subst; [|congruence]. rewrite E in H1. injection H1 as <-. now inversion H2; subst. }
    fold (in_range d). destruct (in_range d) eqn:ER.
    + pose proof (range_trunc d HD EF ER) as HL. destruct (SFeqb (double_of (trunc d)) d) eqn:EW.
      * apply (whole_iff d HD EF ltac:(lia)) in EW. split; [intros H; injection H as <-; now apply reads_whole with d|]. intros H. inversion H as [| | |? d' z H1 H2| ? d' H1 H2 H3| |]; subst; rewrite E in H1; injection H1 as <-.
        -- now rewrite (whole_trunc _ _ H2).
        -- now destruct (H3 _ EW).
      * assert (HW : ~ Whole d (trunc d)) by (intros HW; apply (whole_iff d HD EF ltac:(lia)) in HW; congruence). split.
        -- intros H; injection H as <-. apply reads_real; [exact E|exact EF|]. intros z Hz _. apply HW. now rewrite <- (whole_trunc _ _ Hz).
        -- intros H. inversion H as [| | |? d' z H1 H2| ? d' H1 H2 H3| |]; subst; rewrite E in H1; injection H1 as <-; [|reflexivity]. destruct HW. now rewrite <- (whole_trunc _ _ H2).
    + split.
      * intros H; injection H as <-. apply reads_real; [exact E|exact EF|]. intros z Hz HL. pose proof (whole_range d z HD Hz HL). congruence.
      * intros H. inversion H as [| | |? d' z H1 H2 HL| ? d' H1 H2 H3| |]; subst; rewrite E in H1; injection H1 as <-; [|reflexivity]. pose proof (whole_range d z HD H2 HL). congruence.
  - set (l := map ascii_to_lower v). assert (H1 : beq l (str "true") = true <-> SameText v "true") by (unfold l, SameText; rewrite lower_iff by exact Hv; reflexivity).
    assert (H2 : beq l (str "false") = true <-> SameText v "false") by (unfold l, SameText; rewrite lower_iff by exact Hv; reflexivity).
    assert (H3 : beq l (str "1") = true <-> v = str "1") by (unfold l; rewrite lower_iff by exact Hv; apply (lower_digit v 49); lia).
    assert (H4 : beq l (str "0") = true <-> v = str "0") by (unfold l; rewrite lower_iff by exact Hv; apply (lower_digit v 48); lia).
    destruct (beq l (str "true") || beq l (str "1")) eqn:E1.
    + assert (HT : SameText v "true" \/ v = str "1") by (apply orb_true_iff in E1; tauto). split; [intros H; injection H as <-; now constructor|]. intros H. inversion H as [| | | | |? ?|? HF]; subst; [reflexivity|]. exfalso. unfold SameText in *. destruct HT as [HT|HT], HF as [HF|HF]; try (rewrite HT in HF); try discriminate HF; try (subst v; discriminate).
    + assert (HT : ~ (SameText v "true" \/ v = str "1")) by (apply orb_false_iff in E1 as [E1 E1']; intros [H|H]; [apply H1 in H|apply H3 in H]; congruence).
      destruct (beq l (str "false") || beq l (str "0")) eqn:E2.
      * assert (HF : SameText v "false" \/ v = str "0") by (apply orb_true_iff in E2; tauto). split; [intros H; injection H as <-; now constructor|]. intros H. inversion H; subst; [contradiction|reflexivity].
      * split; [discriminate|]. intros H. inversion H as [| | | | |? ?|? HF]; subst; [contradiction|]. apply orb_false_iff in E2 as [E2 E2']. destruct HF as [HF|HF]; [apply H2 in HF|apply H4 in HF]; congruence.
  - split; [intros H; injection H as <-; constructor|intros H; inversion H; reflexivity].
Qed.
End Props.
