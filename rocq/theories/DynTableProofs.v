(** C13: the ring buffer refines the RFC 7541 table.  C18: static table lookups. *)
From Verif Require Import Base HpackTables HpackModel HpackSpec HpackIntProofs.
Local Open Scope N_scope.

(** ** Abstract tables *)

Lemma table_size_app a b : table_size (a ++ b) = table_size a + table_size b.
Proof. unfold table_size. induction a; cbn [fold_right app]; lia. Qed.

Lemma table_size_cons p t : table_size (p :: t) = entry_size p + table_size t.
Proof. reflexivity. Qed.

Lemma table_size_count t : 32 * N.of_nat (length t) <= table_size t.
Proof.
  induction t as [|p t IH]; [reflexivity|]. rewrite table_size_cons. unfold entry_size. simpl length. lia.
Qed.

Lemma LongestFit_self m t : table_size t <= m -> LongestFit m t t.
Proof.
  intros H. repeat split; auto.
  - exists []. now rewrite app_nil_r.
  - intros longer dropped E Hl. apply (f_equal (@length _)) in E. rewrite app_length in E. lia.
Qed.

Lemma LongestFit_drop m t x kept : m < table_size (t ++ [x]) -> LongestFit m t kept -> LongestFit m (t ++ [x]) kept.
Proof.
  intros Hbig ([d Hd] & Hs & Hmax). repeat split; auto.
  - exists (d ++ [x]). now rewrite Hd, app_assoc.
  - intros longer dropped E Hl. destruct dropped as [|y dropped] using rev_ind.
    + rewrite app_nil_r in E. now rewrite <- E.
    + rewrite app_assoc in E. apply app_inj_tail in E as [E _]. eapply Hmax; eauto.
Qed.

Lemma LongestFit_unique m t a b : LongestFit m t a -> LongestFit m t b -> a = b.
Proof.
  intros ([da Ea] & Sa & Ma) ([db Eb] & Sb & Mb).
  destruct (Nat.lt_trichotomy (length a) (length b)) as [H|[H|H]].
  - specialize (Ma b db Eb H). lia.
  - rewrite Ea in Eb. clear -Eb H. revert b Eb H; induction a as [|x a IH]; intros [|y b] E H; simpl in *; try discriminate; auto.
    injection E as -> E. f_equal. apply IH; auto.
  - specialize (Mb a da Ea H). lia.
Qed.

Lemma LongestFit_nil m : LongestFit m [] [].
Proof. apply LongestFit_self. change (table_size []) with 0. lia. Qed.

(** ** The ring *)

Lemma length_upd {A} (l : list A) i x : length (upd l i x) = length l.
Proof. revert i; induction l as [|y l IH]; intros [|i]; simpl; auto. Qed.

Lemma nth_upd_same {A} (l : list A) i x : (i < length l)%nat -> nth_error (upd l i x) i = Some x.
Proof. revert i; induction l as [|y l IH]; intros [|i] H; simpl in *; try lia; auto. apply IH. lia. Qed.

Lemma nth_upd_other {A} (l : list A) i j x : i <> j -> nth_error (upd l i x) j = nth_error l j.
Proof. revert i j; induction l as [|y l IH]; intros [|i] [|j] H; simpl; auto; try congruence. Qed.

Definition entry_of (p : pair_t) : entry := new_entry (fst p) (snd p).

Lemma entry_of_size p : e_size (entry_of p) = entry_size p.
Proof. reflexivity. Qed.

(** Geometry of the ring (holds in every reachable state). *)
Definition ring_ok (d : dtable) (k : N) : Prop :=
  N.of_nat (length (dt_storage d)) = 2 ^ k /\ dt_mask d = 2 ^ k - 1 /\ dt_head d < 2 ^ k /\
  dt_count d <= 2 ^ k /\ k <= 60.

Definition slots_ok (d : dtable) (t : list pair_t) : Prop :=
  forall i p, nth_error t i = Some p -> dt_get d (N.of_nat i) = Some (entry_of p).

Definition dwf0 (d : dtable) (t : list pair_t) : Prop :=
  dt_count d = N.of_nat (length t) /\ dt_bytes d = table_size t /\ table_size t < 2 ^ 64 /\ slots_ok d t /\
  ((dt_storage d = [] /\ t = [] /\ dt_head d = 0) \/ exists k, ring_ok d k).

Definition dwf (d : dtable) (t : list pair_t) : Prop :=
  dwf0 d t /\ table_size t <= dt_max d /\ dt_max d < 2 ^ 64.

Lemma pow_pos k : 0 < 2 ^ k.
Proof. apply N.neq_0_lt_0, N.pow_nonzero. lia. Qed.

Lemma slot_of_mod d k i : ring_ok d k -> slot_of d i = (dt_head d + i) mod 2 ^ k.
Proof.
  intros (_ & Hm & _ & _ & Hk). unfold slot_of. rewrite Hm, land_mask. unfold w64. rewrite <- pow64.
  pose proof (pow_pos k).
  replace (2 ^ 64) with (2 ^ k * 2 ^ (64 - k)) by (rewrite <- N.pow_add_r; f_equal; lia).
  rewrite N.mod_mul_r by (try apply N.pow_nonzero; lia).
  rewrite (N.mul_comm (2 ^ k)), N.mod_add by lia. apply N.mod_mod. lia.
Qed.

Lemma ring_mod_inj k h i j : i < 2 ^ k -> j < 2 ^ k -> (h + i) mod 2 ^ k = (h + j) mod 2 ^ k -> i = j.
Proof.
  intros Hi Hj E. pose proof (pow_pos k) as HP.
  pose proof (N.div_mod (h + i) (2 ^ k)) as D1. pose proof (N.div_mod (h + j) (2 ^ k)) as D2.
  assert (HP0 : 2 ^ k <> 0) by lia. specialize (D1 HP0). specialize (D2 HP0). rewrite E in D1.
  set (r := (h + j) mod 2 ^ k) in *. set (q1 := (h + i) / 2 ^ k) in *. set (q2 := (h + j) / 2 ^ k) in *.
  destruct (N.lt_trichotomy q1 q2) as [H|[H|H]]; [|subst q1; rewrite H in D1; lia|].
  - assert (2 ^ k * (q1 + 1) <= 2 ^ k * q2) by (apply N.mul_le_mono_l; lia). lia.
  - assert (2 ^ k * (q2 + 1) <= 2 ^ k * q1) by (apply N.mul_le_mono_l; lia). lia.
Qed.

Lemma slot_lt d k i : ring_ok d k -> (N.to_nat (slot_of d i) < length (dt_storage d))%nat.
Proof.
  intros H. rewrite (slot_of_mod d k i H). destruct H as (HL & _).
  pose proof (pow_pos k). assert ((dt_head d + i) mod 2 ^ k < 2 ^ k) by (apply N.mod_lt; lia). lia.
Qed.

Lemma dwf0_nonempty d t x : dwf0 d (t ++ [x]) -> exists k, ring_ok d k.
Proof. intros (_ & _ & _ & _ & [(_ & E & _)|H]); auto. destruct t; discriminate. Qed.

Lemma dt_evict_spec d t x : dwf0 d (t ++ [x]) ->
  exists d', dt_evict d = Some d' /\ dwf0 d' t /\ dt_max d' = dt_max d.
Proof.
  intros W. destruct (dwf0_nonempty _ _ _ W) as [k R]. destruct W as (Hc & Hb & Hlt & Hs & _).
  rewrite app_length in Hc. simpl in Hc.
  assert (Hcnt : dt_count d - 1 = N.of_nat (length t)) by lia.
  unfold dt_evict. rewrite Hcnt.
  assert (Hx : dt_get d (N.of_nat (length t)) = Some (entry_of x)).
  { apply Hs. rewrite nth_error_app2, Nat.sub_diag by lia. reflexivity. }
  unfold dt_get in Hx. rewrite Hx. eexists. split; [reflexivity|]. split; [|reflexivity].
  rewrite table_size_app in *. change (table_size [x]) with (entry_size x + 0) in *. rewrite N.add_0_r in *.
  pose proof (slot_lt d k (N.of_nat (length t)) R) as Hsl.
  unfold dwf0. cbn [dt_count dt_bytes dt_storage dt_head]. repeat split; auto; try lia.
  - rewrite entry_of_size. unfold w64. rewrite Hb, <- pow64.
    replace (table_size t + entry_size x + 2 ^ 64 - entry_size x) with (table_size t + 1 * 2 ^ 64) by lia.
    rewrite N.mod_add by discriminate. apply N.mod_small. lia.
  - intros i p Hi.
    assert (Hil : (i < length t)%nat) by (apply nth_error_Some; congruence).
    unfold dt_get, slot_of. cbn [dt_storage dt_head dt_mask].
    rewrite nth_upd_other.
    + apply Hs. rewrite nth_error_app1 by auto. assumption.
    + intros E. assert (E2 : slot_of d (N.of_nat (length t)) = slot_of d (N.of_nat i)) by (unfold slot_of in *; lia).
      rewrite !(slot_of_mod d k) in E2 by auto. destruct R as (_ & _ & _ & R4 & _).
      apply ring_mod_inj in E2; lia.
  - right. exists k. destruct R as (R1 & R2 & R3 & R4 & R5). unfold ring_ok. cbn. rewrite length_upd.
    repeat split; auto. lia.
Qed.

Lemma evict_while_spec : forall fuel t extra d,
  dwf0 d t -> (length t <= fuel)%nat -> extra <= dt_max d ->
  exists d' t', dt_evict_while fuel extra d = Some d' /\ dwf0 d' t' /\ dt_max d' = dt_max d /\
                LongestFit (dt_max d - extra) t t'.
Proof.
  induction fuel as [|f IH]; intros t extra d W Hf Hx.
  - destruct t; [|simpl in Hf; lia]. pose proof W as (Hc & _).
    exists d, []. cbn [dt_evict_while].
    replace (0 <? dt_count d) with false by (rewrite Hc; reflexivity). rewrite andb_false_r.
    split; [reflexivity|]. split; [exact W|]. split; [reflexivity|]. apply LongestFit_nil.
  - cbn [dt_evict_while]. destruct W as (Hc & Hb & W'). rewrite Hb.
    destruct ((dt_max d <? table_size t + extra) && (0 <? dt_count d)) eqn:E.
    + apply andb_true_iff in E as [E1 E2]. apply N.ltb_lt in E1. apply N.ltb_lt in E2.
      destruct t as [|x t] using rev_ind; [simpl in Hc; lia|]. clear IHt.
      rewrite app_length in Hf. simpl in Hf.
      destruct (dt_evict_spec d t x) as (d1 & Ed & W1 & M1); [unfold dwf0; auto|].
      rewrite Ed. destruct (IH t extra d1 W1) as (d2 & t2 & E3 & W2 & M2 & L2); [lia|rewrite M1; auto|].
      exists d2, t2. split; [exact E3|]. split; [exact W2|]. split; [congruence|].
      rewrite M1 in L2. apply LongestFit_drop; auto. lia.
    + exists d, t. split; [reflexivity|]. split; [unfold dwf0; auto|]. split; [reflexivity|].
      apply LongestFit_self. apply andb_false_iff in E as [E|E]; apply N.ltb_ge in E; [lia|].
      destruct t; [change (table_size []) with 0; lia|simpl in Hc; lia].
Qed.

Lemma nth_error_map_seq {A} (f : nat -> A) n i : (i < n)%nat -> nth_error (map f (seq 0 n)) i = Some (f i).
Proof.
  intros H. rewrite nth_error_map. rewrite nth_error_nth' with (d := 0%nat) by (rewrite seq_length; auto).
  rewrite seq_nth by auto. reflexivity.
Qed.

Lemma dt_ensure_spec d t : dwf0 d t ->
  exists k, ring_ok (dt_ensure d) k /\ dt_count d + 1 <= 2 ^ k /\ dwf0 (dt_ensure d) t /\ dt_max (dt_ensure d) = dt_max d.
Proof.
  intros W. destruct W as (Hc & Hb & Hlt & Hs & HR). unfold dt_ensure.
  destruct HR as [(E1 & -> & Hh)|[k R]].
  - rewrite E1. change (N.of_nat (length (@nil entry)) =? 0) with true. cbn iota. exists 7.
    simpl in Hc.
    assert (R : ring_ok (mk_dt (repeat null_entry 128) (dt_head d) (dt_count d) (dt_bytes d) (dt_max d) 127) 7).
    { unfold ring_ok. cbn [dt_storage dt_mask dt_head dt_count]. rewrite repeat_length, Hh. repeat split; try reflexivity; try lia. }
    repeat split; auto; try apply R.
    + rewrite Hc. discriminate.
    + intros i p Hi. destruct i; discriminate.
    + right. exists 7. exact R.
  - destruct R as (R1 & R2 & R3 & R4 & R5) eqn:ER. pose proof (conj R1 (conj R2 (conj R3 (conj R4 R5)))) as RR. clear ER.
    pose proof (pow_pos k). rewrite R1.
    replace (2 ^ k =? 0) with false by (symmetry; apply N.eqb_neq; lia).
    destruct (dt_count d + 1 <=? 2 ^ k) eqn:E.
    + apply N.leb_le in E. exists k. split; [exact RR|]. split; [lia|]. split; [|reflexivity].
      unfold dwf0. repeat split; auto. right. exists k. exact RR.
    + apply N.leb_gt in E. assert (Hfull : dt_count d = 2 ^ k) by lia.
      assert (Hk : k < 60).
      { apply (N.pow_lt_mono_r_iff 2); [lia|]. rewrite <- Hfull.
        pose proof (table_size_count t). change (2 ^ 60) with 1152921504606846976. rewrite pow64 in *. lia. }
      assert (H2 : 2 ^ (k + 1) = 2 * 2 ^ k) by (rewrite N.pow_add_r; change (2 ^ 1) with 2; lia).
      assert (HL : length (dt_linear d) = length t).
      { unfold dt_linear. rewrite map_length, seq_length. lia. }
      set (d' := mk_dt _ _ _ _ _ _).
      assert (R' : ring_ok d' (k + 1)).
      { unfold ring_ok, d'. cbn [dt_storage dt_mask dt_head dt_count]. rewrite app_length, repeat_length, HL.
        repeat split; try lia. }
      exists (k + 1). split; [exact R'|]. split; [lia|]. split; [|reflexivity].
      unfold dwf0. repeat split; auto; [|right; exists (k+1); exact R'].
      intros i p Hi. assert (Hil : (i < length t)%nat) by (apply nth_error_Some; congruence).
      unfold dt_get. rewrite (slot_of_mod d' (k + 1)) by auto. unfold d' at 1 2. cbn [dt_head dt_storage].
      rewrite N.add_0_l, N.mod_small by lia. rewrite Nat2N.id, nth_error_app1 by lia.
      unfold dt_linear. rewrite nth_error_map_seq by lia. rewrite (Hs i p Hi). reflexivity.
Qed.

Lemma dt_clear_spec d t : dwf d t -> dwf (dt_clear d) [] /\ dt_max (dt_clear d) = dt_max d.
Proof.
  intros ((Hc & Hb & Hlt & Hs & HR) & Hm & Hm2). unfold dt_clear.
  assert (HL : forall n st, length (clear_slots n d st) = length st).
  { induction n; intros st; simpl; auto. now rewrite length_upd. }
  split; [|reflexivity]. unfold dwf, dwf0. cbn [dt_count dt_bytes dt_max dt_storage dt_head].
  change (table_size []) with 0. repeat split; auto; try lia.
  - intros i p Hi. destruct i; discriminate.
  - destruct HR as [(E1 & _ & _)|[k (R1 & R2 & R3 & R4 & R5)]].
    + left. repeat split; auto. rewrite E1. specialize (HL (N.to_nat (dt_count d)) []).
      destruct (clear_slots _ d []); [reflexivity|discriminate].
    + right. exists k. unfold ring_ok. cbn [dt_storage dt_mask dt_head dt_count]. rewrite HL.
      pose proof (pow_pos k). repeat split; auto; lia.
Qed.

Theorem dt_add_spec d t n v : dwf d t ->
  exists d' t', dt_add d n v = Some d' /\ dwf d' t' /\
                TableStep (dt_max d, t) (TAdd (n, v)) (dt_max d', t').
Proof.
  intros W. pose proof W as (W0 & Hm & Hm2). unfold dt_add.
  change (e_size (new_entry n v)) with (entry_size (n, v)).
  destruct (dt_max d <? entry_size (n, v)) eqn:E.
  - apply N.ltb_lt in E. destruct (dt_clear_spec d t W) as [W' M']. exists (dt_clear d), [].
    split; [reflexivity|]. split; [exact W'|]. rewrite M'. now constructor.
  - apply N.ltb_ge in E.
    assert (Hc : dt_count d = N.of_nat (length t)) by apply W0.
    destruct (evict_while_spec (N.to_nat (dt_count d)) t (entry_size (n, v)) d W0) as (d1 & t1 & E1 & W1 & M1 & L1); [lia|auto|].
    rewrite E1. destruct (dt_ensure_spec d1 t1 W1) as (k & R & Hcap & W2 & M2).
    set (d2 := dt_ensure d1) in *.
    pose proof R as (R1 & R2 & R3 & R4 & R5). pose proof (pow_pos k) as HP.
    assert (Hhead : N.land (w64 (dt_head d2 + UINT64_MAX)) (dt_mask d2) = (dt_head d2 + (2 ^ k - 1)) mod 2 ^ k).
    { change (N.land (w64 (dt_head d2 + UINT64_MAX)) (dt_mask d2)) with (slot_of d2 UINT64_MAX).
      rewrite (slot_of_mod d2 k) by auto. change UINT64_MAX with (2 ^ 64 - 1).
      replace (2 ^ 64) with (2 ^ k * 2 ^ (64 - k)) by (rewrite <- N.pow_add_r; f_equal; lia).
      pose proof (pow_pos (64 - k)).
      replace (dt_head d2 + (2 ^ k * 2 ^ (64 - k) - 1)) with ((dt_head d2 + (2 ^ k - 1)) + (2 ^ (64 - k) - 1) * 2 ^ k).
      - apply N.mod_add. lia.
      - rewrite N.mul_sub_distr_r. 
        assert (1 * 2 ^ k <= 2 ^ (64 - k) * 2 ^ k) by (apply N.mul_le_mono_r; lia). lia. }
    rewrite Hhead. set (h := (dt_head d2 + (2 ^ k - 1)) mod 2 ^ k).
    assert (Hh : h < 2 ^ k) by (apply N.mod_lt; lia).
    replace (h <? N.of_nat (length (dt_storage d2))) with true by (symmetry; apply N.ltb_lt; lia).
    pose proof W2 as (C2 & B2 & Hlt2 & S2 & _).
    destruct L1 as (LA & LB & LC).
    eexists _, ((n, v) :: t1). split; [reflexivity|].
    assert (Hc2 : dt_count d2 = dt_count d1) by (destruct W1 as (C1 & _); lia).
    split.
    + unfold dwf, dwf0. cbn [dt_count dt_bytes dt_max dt_storage dt_head]. rewrite M2, M1.
      rewrite table_size_cons. change (dt_count d2) with (dt_count d2).
      assert (Hle : entry_size (n, v) + table_size t1 <= dt_max d) by lia.
      repeat split; try (simpl length; lia).
      * intros i p Hi. unfold dt_get.
        assert (R' : ring_ok (mk_dt (upd (dt_storage d2) (N.to_nat h) (new_entry n v)) h (dt_count d2 + 1)
                     (dt_bytes d2 + entry_size (n, v)) (dt_max d2) (dt_mask d2)) k).
        { unfold ring_ok. cbn. rewrite length_upd. repeat split; auto; lia. }
        rewrite (slot_of_mod _ k) by exact R'. cbn [dt_head dt_storage].
        destruct i as [|i]; simpl in Hi.
        -- injection Hi as <-. change (N.of_nat 0) with 0. rewrite N.add_0_r, N.mod_small by auto.
           apply nth_upd_same. lia.
        -- assert (Hil : (i < length t1)%nat) by (apply nth_error_Some; congruence).
           assert (Es : (h + N.of_nat (S i)) mod 2 ^ k = slot_of d2 (N.of_nat i)).
           { rewrite (slot_of_mod d2 k) by auto. unfold h. rewrite N.add_mod_idemp_l by lia.
             replace (dt_head d2 + (2 ^ k - 1) + N.of_nat (S i)) with (dt_head d2 + N.of_nat i + 1 * 2 ^ k) by lia.
             apply N.mod_add. lia. }
           rewrite Es. rewrite nth_upd_other.
           ++ apply (S2 i p Hi).
           ++ intros EE. assert (EE2 : h = slot_of d2 (N.of_nat i)) by lia.
              rewrite (slot_of_mod d2 k) in EE2 by auto. unfold h in EE2. apply ring_mod_inj in EE2; lia.
      * right. exists k. unfold ring_ok. cbn. rewrite length_upd. repeat split; auto; lia.
    + cbn [dt_max]. rewrite M2, M1. apply TS_add; [assumption|]. repeat split; auto.
Qed.

Theorem dt_set_max_spec d t m : dwf d t -> m < 2 ^ 64 ->
  exists d' t', dt_set_max d m = Some d' /\ dwf d' t' /\ dt_max d' = m /\ LongestFit m t t'.
Proof.
  intros (W0 & Hm & Hm2) Hlt. unfold dt_set_max.
  set (d0 := mk_dt _ _ _ _ m _).
  assert (W1 : dwf0 d0 t) by exact W0.
  assert (Hc : dt_count d = N.of_nat (length t)) by apply W0.
  destruct (evict_while_spec (N.to_nat (dt_count d)) t 0 d0 W1) as (d1 & t1 & E1 & W2 & M1 & L1); [lia|lia|].
  rewrite E1. cbn [dt_max] in M1, L1. rewrite N.sub_0_r in L1.
  eexists _, t1. split; [reflexivity|].
  assert (W3 : dwf d1 t1).
  { split; [exact W2|]. rewrite M1. split; [apply L1|assumption]. }
  destruct (dt_count d1 =? 0) eqn:E0.
  - apply N.eqb_eq in E0. destruct W3 as ((C & B & Hl & S & HR) & Hmm & Hmm2).
    assert (t1 = []) by (destruct t1; [reflexivity|simpl in C; lia]). subst t1.
    split; [|split; [exact M1|exact L1]].
    repeat split; auto.
  - split; [exact W3|split; [exact M1|exact L1]].
Qed.

Lemma dwf_init : dwf dt_init [].
Proof.
  unfold dwf, dwf0, dt_init. cbn. change (table_size []) with 0. repeat split; try lia; try reflexivity.
  - intros i p H. destruct i; discriminate.
  - left. auto.
Qed.

Lemma list_ext {A} (a b : list A) : (forall i, nth_error a i = nth_error b i) -> a = b.
Proof.
  revert b; induction a as [|x a IH]; intros [|y b] H; auto.
  - specialize (H 0%nat). discriminate.
  - specialize (H 0%nat). discriminate.
  - pose proof (H 0%nat) as H0. simpl in H0. injection H0 as ->. f_equal. apply IH. intros i. apply (H (S i)).
Qed.

Lemma dwf_unique d t t' : dwf d t -> dwf d t' -> t = t'.
Proof.
  intros ((C & _ & _ & S & _) & _) ((C' & _ & _ & S' & _) & _).
  assert (HL : length t = length t') by lia. clear C C'.
  apply list_ext. intros i. destruct (nth_error t i) as [p|] eqn:E.
  - destruct (nth_error t' i) as [q|] eqn:E'.
    + pose proof (S i p E) as A. pose proof (S' i q E') as B. rewrite A in B. injection B as B1 B2 _ .
      destruct p, q. simpl in *. congruence.
    + apply nth_error_None in E'. assert (i < length t)%nat by (apply nth_error_Some; congruence). lia.
  - symmetry. apply nth_error_None. apply nth_error_None in E. lia.
Qed.

(** ** Static table *)

Definition slots_sane : bool :=
  forallb (fun x => snd x <=? 61) kStaticNameIndex.
Lemma slots_sane_ok : slots_sane = true.
Proof. vm_compute. reflexivity. Qed.

Definition lowest_index (name : list N) : option N :=
  option_map (fun i => N.of_nat i + 1)
    ((fix go (l : list pair_t) (i : nat) := match l with
       | [] => None | (n, _) :: r => if beq n name then Some i else go r (S i) end) STATIC_TABLE 0%nat).

Definition opt_eqb (a b : option N) : bool :=
  match a, b with Some x, Some y => x =? y | None, None => true | _, _ => false end.

Lemma static_names_found :
  forallb (fun p => opt_eqb (find_name_match (fst p)) (lowest_index (fst p))) STATIC_TABLE = true.
Proof. vm_compute. reflexivity. Qed.

Lemma probe_name_sound : forall fuel slot h name i,
  probe_name fuel slot h name = Some i -> 1 <= i /\ i <= 61 /\ static_name i = name.
Proof.
  induction fuel as [|f IH]; intros slot h name i H; cbn [probe_name] in H; [discriminate|].
  destruct (nth (N.to_nat slot) kStaticNameIndex (0, 0)) as [kh ti] eqn:E.
  destruct (ti =? 0) eqn:E0; [discriminate|]. apply N.eqb_neq in E0.
  destruct ((kh =? h) && beq (static_name ti) name) eqn:E1.
  - injection H as <-. apply andb_true_iff in E1 as [_ E1]. apply beq_eq in E1.
    assert (ti <= 61).
    { pose proof slots_sane_ok as HS. unfold slots_sane in HS. rewrite forallb_forall in HS.
      destruct (nth_in_or_default (N.to_nat slot) kStaticNameIndex (0, 0)) as [Hin|Hd].
      - rewrite E in Hin. apply HS in Hin. simpl in Hin. lia.
      - rewrite E in Hd. injection Hd as _ ->. lia. }
    repeat split; auto; lia.
  - eapply IH; eauto.
Qed.

Lemma opt_eqb_eq a b : opt_eqb a b = true -> a = b.
Proof. destruct a, b; simpl; intros H; try discriminate; auto. apply N.eqb_eq in H. congruence. Qed.

Lemma lowest_go : forall (l : list pair_t) name j,
  match (fix go (l : list pair_t) (i : nat) := match l with
       | [] => None | (n, _) :: r => if beq n name then Some i else go r (S i) end) l j with
  | Some i => (j <= i)%nat /\ (exists v, nth_error l (i - j) = Some (name, v)) /\
              (forall k n v, (k < i - j)%nat -> nth_error l k = Some (n, v) -> n <> name)
  | None => forall k n v, nth_error l k = Some (n, v) -> n <> name
  end.
Proof.
  induction l as [|[n v] l IH]; intros name j.
  - intros k n v H. destruct k; discriminate.
  - destruct (beq n name) eqn:E.
    + apply beq_eq in E. subst. split; [lia|]. rewrite Nat.sub_diag. split; [exists v; reflexivity|]. intros; lia.
    + specialize (IH name (S j)). destruct (_ l (S j)) as [i|].
      * destruct IH as (H1 & [v' H2] & H3). split; [lia|]. split.
        -- exists v'. replace (i - j)%nat with (S (i - S j)) by lia. exact H2.
        -- intros k n' w Hk Hn. destruct k as [|k]; simpl in Hn.
           ++ injection Hn as <- <-. now apply beq_neq in E.
           ++ eapply (H3 k); eauto. lia.
      * intros k n' w Hn. destruct k as [|k]; simpl in Hn.
        -- injection Hn as <- <-. now apply beq_neq in E.
        -- eapply IH; eauto.
Qed.

Theorem find_name_match_spec name :
  match find_name_match name with
  | Some i => 1 <= i /\ (exists v, nth_error STATIC_TABLE (N.to_nat (i - 1)) = Some (name, v)) /\
              (forall k n v, (k < N.to_nat (i - 1))%nat -> nth_error STATIC_TABLE k = Some (n, v) -> n <> name)
  | None => forall k n v, nth_error STATIC_TABLE k = Some (n, v) -> n <> name
  end.
Proof.
  assert (Hin : forall k n v, nth_error STATIC_TABLE k = Some (n, v) -> find_name_match n = lowest_index n).
  { intros k n v H. pose proof static_names_found as HF. rewrite forallb_forall in HF.
    apply nth_error_In in H. specialize (HF _ H). now apply opt_eqb_eq. }
  pose proof (lowest_go STATIC_TABLE name 0) as HL.
  destruct (find_name_match name) as [i|] eqn:E.
  - unfold find_name_match in E. pose proof (probe_name_sound _ _ _ _ _ E) as (H1 & H2 & H3).
    assert (Hn : exists v, nth_error STATIC_TABLE (N.to_nat (i - 1)) = Some (name, v)).
    { unfold static_name in H3. destruct (nth_error STATIC_TABLE (N.to_nat (i - 1))) as [[n v]|] eqn:En.
      - rewrite (nth_error_nth _ _ _ En) in H3. simpl in H3. subst. eauto.
      - apply nth_error_None in En. change (length STATIC_TABLE) with 61%nat in En. lia. }
    destruct Hn as [v Hn]. pose proof (Hin _ _ _ Hn) as HEq. fold (find_name_match name) in E. rewrite E in HEq.
    unfold lowest_index in HEq.
    destruct ((fix go (l : list pair_t) (i : nat) := match l with
       | [] => None | (n, _) :: r => if beq n name then Some i else go r (S i) end) STATIC_TABLE 0%nat) as [j|]; [|discriminate].
    simpl in HEq. injection HEq as ->. destruct HL as (_ & L2 & L3). rewrite Nat.sub_0_r in L2, L3.
    replace (N.to_nat (N.of_nat j + 1 - 1)) with j by lia. repeat split; auto.
  - intros k n v Hk ->. pose proof (Hin _ _ _ Hk) as HEq. rewrite E in HEq. unfold lowest_index in HEq.
    destruct ((fix go (l : list pair_t) (i : nat) := match l with
       | [] => None | (n, _) :: r => if beq n name then Some i else go r (S i) end) STATIC_TABLE 0%nat) as [j|]; [discriminate|].
    eapply HL; eauto.
Qed.

(** Equal names are contiguous in the static table. *)
Definition contiguous : bool :=
  forallb (fun i => forallb (fun j => forallb (fun k =>
    implb ((i <=? k)%nat && (k <=? j)%nat && beq (fst (nth i STATIC_TABLE ([], []))) (fst (nth j STATIC_TABLE ([], []))))
      (beq (fst (nth k STATIC_TABLE ([], []))) (fst (nth i STATIC_TABLE ([], [])))))
    (seq i (j - i))) (seq i (61 - i))) (seq 0 61).
Lemma contiguous_ok : contiguous = true.
Proof. vm_compute. reflexivity. Qed.

Lemma scan_run_spec : forall (entries : list pair_t) i name value,
  match scan_run i entries name value with
  | Some r => exists k, r = i + N.of_nat k + 1 /\ nth_error entries k = Some (name, value)
  | None => forall k, nth_error entries k = Some (name, value) ->
            exists k' n v, (k' < k)%nat /\ nth_error entries k' = Some (n, v) /\ n <> name
  end.
Proof.
  induction entries as [|[n v] rest IH]; intros i name value; cbn [scan_run].
  - intros k H. destruct k; discriminate.
  - destruct (beq n name) eqn:E; simpl negb; cbn iota.
    + apply beq_eq in E. subst n. destruct (beq v value) eqn:E2.
      * apply beq_eq in E2. subst. exists 0%nat. split; [lia|reflexivity].
      * apply beq_neq in E2. specialize (IH (i + 1) name value). destruct (scan_run _ _ _ _) as [r|].
        -- destruct IH as (k & -> & H). exists (S k). split; [lia|exact H].
        -- intros k Hk. destruct k as [|k]; simpl in Hk; [congruence|].
           destruct (IH k Hk) as (k' & n' & v' & H1 & H2 & H3). exists (S k'), n', v'. repeat split; auto. lia.
    + apply beq_neq in E. intros k Hk. destruct k as [|k]; simpl in Hk; [congruence|].
      exists 0%nat, n, v. repeat split; auto. lia.
Qed.

Lemma nth_error_skipn {A} (l : list A) a k : nth_error (skipn a l) k = nth_error l (a + k).
Proof. revert l; induction a as [|a IH]; intros [|x l]; simpl; auto. destruct k; reflexivity. Qed.

Theorem find_exact_match_spec name value :
  match find_exact_match name value with
  | Some i => 1 <= i /\ nth_error STATIC_TABLE (N.to_nat (i - 1)) = Some (name, value)
  | None => forall k, nth_error STATIC_TABLE k <> Some (name, value)
  end.
Proof.
  unfold find_exact_match. pose proof (find_name_match_spec name) as HN.
  destruct (find_name_match name) as [first|].
  - destruct HN as (H1 & [v0 H2] & H3). set (a := N.to_nat (first - 1)) in *.
    pose proof (scan_run_spec (skipn a STATIC_TABLE) (first - 1) name value) as HS.
    destruct (scan_run _ _ _ _) as [r|].
    + destruct HS as (k & -> & Hk). rewrite nth_error_skipn in Hk. split; [lia|].
      replace (N.to_nat (first - 1 + N.of_nat k + 1 - 1)) with (a + k)%nat by lia. exact Hk.
    + intros k Hk.
      assert (Hge : (a <= k)%nat).
      { destruct (Nat.le_gt_cases a k) as [|Hlt]; auto. exfalso. eapply H3; eauto. }
      assert (Hk' : nth_error (skipn a STATIC_TABLE) (k - a) = Some (name, value)).
      { rewrite nth_error_skipn. replace (a + (k - a))%nat with k by lia. exact Hk. }
      destruct (HS _ Hk') as (k' & n' & v' & Hlt & Hn & Hne). rewrite nth_error_skipn in Hn.
      assert (Hkl : (k < 61)%nat) by (change 61%nat with (length STATIC_TABLE); apply nth_error_Some; congruence).
      pose proof contiguous_ok as HC. unfold contiguous in HC. rewrite forallb_forall in HC.
      specialize (HC a). rewrite forallb_forall in HC. specialize (HC ltac:(apply in_seq; lia) k ltac:(apply in_seq; lia)).
      rewrite forallb_forall in HC. specialize (HC (a + k')%nat ltac:(apply in_seq; lia)).
      rewrite (nth_error_nth _ _ _ Hk), (nth_error_nth _ _ _ Hn), (nth_error_nth _ _ _ H2) in HC.
      cbn [fst] in HC. rewrite beq_refl in HC.
      replace ((a <=? a + k')%nat) with true in HC by (symmetry; apply Nat.leb_le; lia).
      replace ((a + k' <=? k)%nat) with true in HC by (symmetry; apply Nat.leb_le; lia).
      simpl in HC. apply beq_eq in HC. congruence.
  - intros k Hk. eapply HN; eauto.
Qed.
