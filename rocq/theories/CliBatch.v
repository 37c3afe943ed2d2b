(** Batches: the invariant behind push_requests. *)
From Coq Require Import Permutation.
From Verif Require Import Base UtilModel CliModel CliSpec CliProofs CliMoves CliInv.
Local Open Scope nat_scope.

(** accounting on the core *)
Definition held (k : core) : list cb := map x_cb (opt (k_ac k) ++ k_pe k).
Definition AccK (k : core) : Prop :=
  forall x, count x (pushed (k_lg k)) = count x (called (k_lg k)) + count x (held k) + count x (fcalls (k_sk k)).
Lemma acck s : Acc s -> AccK (core_of s). Proof. intros (H & _). exact H. Qed.

Lemma list_count_app {A} (f : A -> nat) a b : list_sum (map f (a ++ b)) = list_sum (map f a) + list_sum (map f b).
Proof. now rewrite map_app, list_sum_app. Qed.
Definition size (lg : list ev) (bid : nat) : nat := list_sum (map (fun e => match e with EBatch _ b n => if b =? bid then n else 0 | _ => 0 end) lg).
Definition todo1 (bid j : nat) (f : frame) : nat :=
  match f with FBatchPush b i us => if (b =? bid) && (i <=? j) && (j <? i + length us) then 1 else 0 | _ => 0 end.
Definition todo (bid j : nat) (k : list frame) : nat := list_sum (map (todo1 bid j) k).
Definition ended (bid : nat) (lg : list ev) : nat := list_sum (map (fun e => match e with EBatchCalled _ b _ => if b =? bid then 1 else 0 | _ => 0 end) lg).
Definition ending (bid : nat) (k : list frame) : nat := list_sum (map (fun f => match f with FBatchCall _ b _ => if b =? bid then 1 else 0 | _ => 0 end) k).
Definition somes (l : list (option resp)) : nat := length (filter is_some l).

Lemma size_app a b bid : size (a ++ b) bid = size a bid + size b bid. Proof. apply list_count_app. Qed.
Lemma todo_app a b bid j : todo bid j (a ++ b) = todo bid j a + todo bid j b. Proof. apply list_count_app. Qed.
Lemma ended_app a b bid : ended bid (a ++ b) = ended bid a + ended bid b. Proof. apply list_count_app. Qed.
Lemma ending_app a b bid : ending bid (a ++ b) = ending bid a + ending bid b. Proof. apply list_count_app. Qed.

(** progress of pushing *)
Definition Prog (k : core) : Prop :=
  (forall bid, k_nb k <= bid \/ bid = 0 -> size (k_lg k) bid = 0) /\ 0 < k_nb k /\
  forall bid j, count (CbBatch bid j) (pushed (k_lg k)) + todo bid j (k_sk k) = if j <? size (k_lg k) bid then 1 else 0.
Lemma idle_zero es bid : Forall idle_ev es -> size es bid = 0 /\ ended bid es = 0 /\ pushed es = [] /\ called es = [].
Proof.
  induction 1 as [|e es He _ (A & B & C & D)]; [auto|]. unfold size, ended in *. destruct e; cbn in He; try contradiction; cbn [map list_sum fold_right pushed called flat_map app] in *; auto.
Qed.
Lemma low_todo fs bid j : lows fs -> todo bid j fs = 0 /\ ending bid fs = 0.
Proof. induction 1 as [|f fs Hf _ [A B]]; [auto|]. unfold todo, ending in *. destruct f; cbn in Hf; try discriminate; cbn [map list_sum fold_right todo1] in *; auto. Qed.
Lemma neutrals_todo fs bid j : neutrals fs -> todo bid j fs = 0 /\ ending bid fs = 0.
Proof.
  destruct fs as [|f fs]; [auto|]. intros [Hf Hl]. destruct (low_todo fs bid j Hl) as [A B]. unfold todo, ending in *.
  destruct f; cbn in Hf; try discriminate; cbn [map list_sum fold_right todo1] in *; auto.
Qed.
Lemma pops_todo p bid j : pops p -> todo bid j p = 0 /\ ending bid p = 0.
Proof.
  destruct p as [|f [|g p]]; cbn [pops]; [auto| |contradiction]. intros Hf. unfold todo, ending in *.
  destruct f; cbn in Hf; try discriminate; auto.
Qed.
Ltac tsimp := repeat (rewrite ?size_app, ?todo_app, ?ended_app, ?ending_app, ?pushed_app, ?called_app in * ).
Ltac tc := unfold size, todo, ended, ending in *; cbn [map list_sum fold_right todo1 pushed called flat_map app] in *.
Lemma todo_cons bid j f k : todo bid j (f :: k) = todo1 bid j f + todo bid j k. Proof. reflexivity. Qed.
Lemma ending_cons bid f k : ending bid (f :: k) = (match f with FBatchCall _ b _ => if b =? bid then 1 else 0 | _ => 0 end) + ending bid k. Proof. reflexivity. Qed.
Lemma todo1_low f bid j : low f = true -> todo1 bid j f = 0. Proof. destruct f; try discriminate; reflexivity. Qed.
Lemma size1 e bid : size [e] bid = match e with EBatch _ b n => if b =? bid then n else 0 | _ => 0 end.
Proof. unfold size. cbn [map list_sum fold_right]. apply Nat.add_0_r. Qed.
Lemma ended1 e bid : ended bid [e] = match e with EBatchCalled _ b _ => if b =? bid then 1 else 0 | _ => 0 end.
Proof. unfold ended. cbn [map list_sum fold_right]. apply Nat.add_0_r. Qed.
Lemma pushed1 e : pushed [e] = match e with EPushed c => [c] | _ => [] end. Proof. destruct e; reflexivity. Qed.
Lemma called1 e : called [e] = match e with ECalled c _ => [c] | _ => [] end. Proof. destruct e; reflexivity. Qed.
Lemma site_todo u c k k' bid j : Site u c k k' -> todo bid j k = todo bid j k' + count (CbBatch bid j) [c].
Proof.
  intros [? t ? H|? us b i ?].
  - rewrite count_cons, count_nil. unfold one. destruct (cb_dec _ _); [discriminate|lia].
  - rewrite !todo_cons. cbn [todo1 length]. rewrite count_cons, count_nil. unfold one. destruct (cb_dec (CbBatch b i) (CbBatch bid j)) as [E|E].
    + injection E as -> ->. rewrite Nat.eqb_refl.
      replace (j <=? j) with true by (symmetry; apply Nat.leb_le; lia). replace (j <? j + S (length us)) with true by (symmetry; apply Nat.ltb_lt; lia).
      replace (S j <=? j) with false by (symmetry; apply Nat.leb_gt; lia). cbn [andb]. lia.
    + destruct (b =? bid) eqn:EB; [|cbn [andb]; lia]. apply Nat.eqb_eq in EB. subst b. assert (i <> j) by congruence. cbn [andb].
      destruct (i <=? j) eqn:E1; destruct (S i <=? j) eqn:E2; destruct (j <? i + S (length us)) eqn:E3; destruct (j <? S i + length us) eqn:E4;
        rewrite ?Nat.leb_le, ?Nat.leb_gt, ?Nat.ltb_lt, ?Nat.ltb_ge in *; cbn [andb]; lia.
Qed.
Definition ProgP (nb : nat) (sk : list frame) (lg : list ev) : Prop :=
  (forall bid, nb <= bid \/ bid = 0 -> size lg bid = 0) /\ 0 < nb /\
  forall bid j, count (CbBatch bid j) (pushed lg) + todo bid j sk = if j <? size lg bid then 1 else 0.
Lemma prog_same nb sk lg sk' lg' : ProgP nb sk lg -> (forall bid, size lg' bid = size lg bid) ->
  (forall bid j, count (CbBatch bid j) (pushed lg') + todo bid j sk' = count (CbBatch bid j) (pushed lg) + todo bid j sk) -> ProgP nb sk' lg'.
Proof.
  intros (H1 & H2 & H3) HS HT. refine (conj _ (conj H2 _)).
  - intros bid HB. rewrite HS. auto.
  - intros bid j. rewrite HS, HT. apply H3.
Qed.
Lemma prog_move l k k' : Prog k -> Move l k k' -> Prog k'.
Proof.
  intros HP HM. change (ProgP (k_nb k) (k_sk k) (k_lg k)) in HP. change (ProgP (k_nb k') (k_sk k') (k_lg k')). destruct HM; kg.
  - eapply prog_same; [exact HP|intros; rewrite size_app; destruct (idle_zero es bid) as (-> & _); [assumption|lia]|].
    intros. rewrite pushed_app, !todo_app. destruct (idle_zero es 0) as (_ & _ & -> & _); [assumption|]. rewrite app_nil_r.
    destruct (neutrals_todo fs bid j ltac:(assumption)) as [-> _]. destruct (pops_todo p bid j ltac:(assumption)) as [-> _]. reflexivity.
  - exact HP.
  - exact HP.
  - eapply prog_same; [exact HP|intros; now rewrite size_app, size1, Nat.add_0_r|]. intros. rewrite pushed_app, pushed1, count_app, todo_cons.
    cbn [todo1]. rewrite (site_todo u c k k' bid j H). lia.
  - eapply prog_same; [exact HP|intros; now rewrite size_app, size1, Nat.add_0_r|]. intros. rewrite pushed_app, pushed1, count_app, !todo_cons.
    cbn [todo1]. rewrite (site_todo u c k k' bid j H). lia.
  - destruct HP as (H1 & H2 & H3). refine (conj _ (conj _ _)); [|lia|].
    + intros bid HB. rewrite size_app, size1. rewrite (H1 bid) by lia. destruct (nb =? bid) eqn:E; [apply Nat.eqb_eq in E; lia|lia].
    + intros bid j. rewrite size_app, size1, pushed_app, pushed1, app_nil_r, todo_cons. specialize (H3 bid j). cbn [todo1].
      destruct (nb =? bid) eqn:E; cbn [andb].
      * apply Nat.eqb_eq in E. subst bid. rewrite (H1 nb) in * by lia. cbn [Nat.leb andb Nat.add]. cbn [Nat.ltb Nat.leb] in H3.
        replace (j <? 0) with false in H3 by (symmetry; apply Nat.ltb_ge; lia). destruct (j <? length us); lia.
      * rewrite Nat.add_0_r. exact H3.
  - eapply prog_same; [exact HP|intros; rewrite size_app, size1; destruct (0 =? bid); lia|]. intros. rewrite pushed_app, pushed1, app_nil_r, !todo_cons. reflexivity.
  - eapply prog_same; [exact HP|reflexivity|]. intros. rewrite todo_cons. cbn [todo1 length]. destruct (bid =? bid0) eqn:EB; cbn [andb]; [|lia].
    destruct (i <=? j) eqn:E1; destruct (j <? i + 0) eqn:E2; rewrite ?Nat.leb_le, ?Nat.leb_gt, ?Nat.ltb_lt, ?Nat.ltb_ge in *; cbn [andb]; lia.
  - eapply prog_same; [exact HP|reflexivity|]. intros. rewrite !todo_cons, todo_app. destruct (low_todo fs bid j ltac:(assumption)) as [-> _].
    rewrite (todo1_low f) by assumption. reflexivity.
  - eapply prog_same; [exact HP|reflexivity|]. intros. rewrite !todo_cons. destruct (low_todo fs bid j ltac:(assumption)) as [-> _]. reflexivity.
  - exact HP.
  - eapply prog_same; [exact HP|reflexivity|]. intros. reflexivity.
  - eapply prog_same; [exact HP|intros; now rewrite size_app, size1, Nat.add_0_r|]. intros. rewrite pushed_app, pushed1, app_nil_r, todo_cons. reflexivity.
  - eapply prog_same; [exact HP|reflexivity|]. intros. rewrite !todo_cons, todo_app. destruct (low_todo fs bid j ltac:(assumption)) as [-> _].
    destruct H as [->|[HL|(m & kp & ->)]]; [reflexivity| |reflexivity]. rewrite (todo1_low f) by assumption. reflexivity.
  - eapply prog_same; [exact HP|reflexivity|]. intros. reflexivity.
  - eapply prog_same; [exact HP|intros; now rewrite size_app, size1, Nat.add_0_r|]. intros. rewrite pushed_app, pushed1, app_nil_r, !todo_cons. reflexivity.
  - eapply prog_same; [exact HP|intros; now rewrite size_app, size1, Nat.add_0_r|]. intros. rewrite pushed_app, pushed1, app_nil_r, ?todo_cons. reflexivity.
  - eapply prog_same; [exact HP|intros; now rewrite size_app, size1, Nat.add_0_r|]. intros. rewrite pushed_app, pushed1, app_nil_r, ?todo_cons. reflexivity.
  - eapply prog_same; [exact HP|intros; now rewrite size_app, size1, Nat.add_0_r|]. intros. rewrite pushed_app, pushed1, app_nil_r, ?todo_cons. reflexivity.
  - eapply prog_same; [exact HP|intros; now rewrite size_app, size1, Nat.add_0_r|]. intros. rewrite pushed_app, pushed1, app_nil_r, ?todo_cons. reflexivity.
Qed.

(** ** The table of batches *)
Definition logged (lg : list ev) (bid j : nat) (r : resp) : Prop := In (ECalled (CbBatch bid j) r) lg.
Definition Live (lg : list ev) (e : nat * batch) : Prop :=
  let '(bid, b) := e in
  In (EBatch (b_tok b) bid (length (b_resps b))) lg /\ length (b_resps b) = size lg bid /\ 0 < length (b_resps b) /\
  b_done b = somes (b_resps b) /\ b_done b < length (b_resps b) /\
  forall j r, nth_error (b_resps b) j = Some (Some r) <-> logged lg bid j r.
Definition Full (lg : list ev) (tok bid : nat) (rs : list (option resp)) : Prop :=
  In (EBatch tok bid (length rs)) lg /\ length rs = size lg bid /\ forall j, j < length rs -> exists r, nth_error rs j = Some (Some r) /\ logged lg bid j r.
Definition BatP (ba : list (nat * batch)) (sk : list frame) (lg : list ev) : Prop :=
  NoDup (map fst ba) /\ Forall (Live lg) ba /\
  (forall bid, 0 < bid -> (exists b, In (bid, b) ba) -> ended bid lg + ending bid sk = 0) /\
  (forall bid, 0 < bid -> ~ (exists b, In (bid, b) ba) -> ended bid lg + ending bid sk = if size lg bid =? 0 then 0 else 1) /\
  (forall tok bid rs, In (EBatchCalled tok bid rs) lg \/ headed (FBatchCall tok bid rs) sk -> Full lg tok bid rs).
Lemma in_count {A} (f : A -> list cb) (l : list A) x e : In e l -> In x (f e) -> 0 < count x (flat_map f l).
Proof. intros H1 H2. unfold count. apply count_occ_In. apply in_flat_map. eauto. Qed.
(** a request of a batch about to be answered was not answered before *)
Lemma fresh_call k bid j r rest : AccK k -> Prog k -> k_sk k = FCall (CbBatch bid j) r :: rest ->
  j < size (k_lg k) bid /\ forall r', ~ logged (k_lg k) bid j r'.
Proof.
  intros HA (_ & _ & HP) HK. specialize (HA (CbBatch bid j)). specialize (HP bid j). rewrite HK in HA. unfold fcalls in HA. cbn [flat_map fcall app] in HA.
  rewrite count_cons in HA. unfold one in HA. destruct (cb_dec _ _) as [_|N]; [|congruence].
  destruct (j <? size (k_lg k) bid) eqn:E; [apply Nat.ltb_lt in E|lia]. split; [exact E|]. intros r' HI.
  assert (0 < count (CbBatch bid j) (called (k_lg k))); [|lia]. unfold called. eapply in_count; [exact HI|now left].
Qed.
Lemma logged_snoc lg e bid j r : logged (lg ++ [e]) bid j r <-> logged lg bid j r \/ e = ECalled (CbBatch bid j) r.
Proof.
  unfold logged. split.
  - intros H. apply in_app_or in H as [H|[H|[]]]; auto.
  - intros [H|H]; apply in_or_app; [now left|right; left; exact H].
Qed.
Lemma live_snoc lg e x : (forall b n, e <> EBatch b (fst x) n) -> (forall j r, e <> ECalled (CbBatch (fst x) j) r) -> Live lg x -> Live (lg ++ [e]) x.
Proof.
  intros H1 H2. destruct x as [bid b]. cbn [fst] in *. intros (A & B & C & D & E & F). unfold Live.
  assert (ES : size (lg ++ [e]) bid = size lg bid).
  { rewrite size_app, size1. destruct e; try lia. destruct (bid0 =? bid) eqn:EB; [|lia]. apply Nat.eqb_eq in EB. subst. now contradiction (H1 tok n). }
  rewrite ES. refine (conj _ (conj B (conj C (conj D (conj E _))))); [apply in_or_app; now left|].
  intros j r. rewrite logged_snoc, F. split; [auto|]. intros [H|H]; [exact H|now contradiction (H2 j r)].
Qed.
Lemma full_snoc lg e tok bid rs : (forall b n, e = EBatch b bid n -> n = 0) -> Full lg tok bid rs -> Full (lg ++ [e]) tok bid rs.
Proof.
  intros H (A & B & C). unfold Full. rewrite size_app, size1.
  assert (EZ : match e with EBatch _ b n => if b =? bid then n else 0 | _ => 0 end = 0).
  { destruct e; try reflexivity. destruct (bid0 =? bid) eqn:E; [|reflexivity]. apply Nat.eqb_eq in E. subst. eapply H. reflexivity. }
  rewrite EZ, Nat.add_0_r. refine (conj _ (conj B _)); [apply in_or_app; now left|].
  intros j Hj. destruct (C j Hj) as (r & R1 & R2). exists r. split; [exact R1|]. apply logged_snoc. now left.
Qed.

(** events and frames of no concern *)
Definition calm (e : ev) : Prop :=
  match e with EBatch _ _ _ | ECalled (CbBatch _ _) _ | EBatchCalled _ _ _ => False | _ => True end.
Lemma bat_log ba sk lg e : calm e -> BatP ba sk lg -> BatP ba sk (lg ++ [e]).
Proof.
  intros HE (A & B & C & D & F).
  assert (ES : forall bid, size (lg ++ [e]) bid = size lg bid) by (intros; rewrite size_app, size1; destruct e; cbn in HE; try contradiction; lia).
  assert (EE : forall bid, ended bid (lg ++ [e]) = ended bid lg) by (intros; rewrite ended_app, ended1; destruct e; cbn in HE; try contradiction; lia).
  refine (conj A (conj _ (conj _ (conj _ _)))).
  - revert B. apply Forall_impl. intros x. apply live_snoc; [intros b n ->; contradiction HE|intros j r ->; contradiction HE].
  - intros bid HB HI. rewrite EE. auto.
  - intros bid HB HI. rewrite EE, ES. auto.
  - intros tok bid rs HI. apply full_snoc; [intros b n ->; contradiction HE|]. apply F. destruct HI as [HI|HI]; [|now right].
    apply in_snoc in HI as [HI|HI]; [now left|]. subst e. contradiction HE.
Qed.
Lemma bat_idle ba sk lg es : Forall idle_ev es -> BatP ba sk lg -> BatP ba sk (lg ++ es).
Proof.
  intros HE. revert lg. induction HE as [|e es He _ IH]; intros lg H; [now rewrite app_nil_r|].
  change (e :: es) with ([e] ++ es). rewrite app_assoc. apply IH. apply bat_log; [|exact H]. destruct e; cbn in *; auto; contradiction.
Qed.
Lemma bat_stack ba sk sk' lg : (forall bid, ending bid sk' = ending bid sk) -> (forall tok bid rs, ~ headed (FBatchCall tok bid rs) sk') ->
  BatP ba sk lg -> BatP ba sk' lg.
Proof.
  intros H1 H2 (A & B & C & D & F). refine (conj A (conj B (conj _ (conj _ _)))).
  - intros. rewrite H1. auto.
  - intros. rewrite H1. auto.
  - intros tok bid rs [HI|HI]; [apply F; now left|]. now apply H2 in HI.
Qed.
Lemma unders_calm k : unders k -> forall tok bid rs, ~ headed (FBatchCall tok bid rs) k.
Proof. intros H tok bid rs (t & ->). inversion H; discriminate. Qed.
Lemma unders_ending k bid : unders k -> ending bid k = 0.
Proof.
  induction 1 as [|f k Hf _ IH]; [reflexivity|]. rewrite ending_cons, IH. destruct f; cbn in Hf; try discriminate; reflexivity.
Qed.
Lemma upd_nth {A} (l : list A) i v j : i < length l -> nth_error (upd l i v) j = if j =? i then Some v else nth_error l j.
Proof.
  revert i j. induction l as [|x l IH]; intros i j; cbn [length upd]; [lia|]. destruct i as [|i]; destruct j as [|j]; cbn [nth_error Nat.eqb]; try reflexivity.
  intros H. apply IH. lia.
Qed.
Lemma upd_somes l i r : nth_error l i = Some None -> somes (upd l i (Some r)) = S (somes l).
Proof.
  revert i. unfold somes. induction l as [|x l IH]; intros [|i]; cbn [nth_error]; try discriminate.
  - intros H. injection H as ->. reflexivity.
  - intros H. cbn [upd filter]. destruct x; cbn [is_some length]; now rewrite (IH i H).
Qed.
Lemma somes_full l : somes l = length l -> forall j, j < length l -> exists r, nth_error l j = Some (Some r).
Proof.
  unfold somes. induction l as [|x l IH]; cbn [filter length]; intros H j Hj; [lia|]. 
  assert (HL : length (filter is_some l) <= length l) by (clear; induction l as [|y l IH]; cbn [filter length]; [lia|]; destruct (is_some y); cbn [length]; lia).
  destruct x as [r|]; cbn [is_some length] in H; [|lia]. destruct j as [|j]; cbn [nth_error]; [eauto|]. apply IH; lia.
Qed.
Lemma find_in ba bid (b0 : nat) (b : batch) : find (fun e => fst e =? bid) ba = Some (b0, b) -> b0 = bid /\ In (bid, b) ba.
Proof. intros H. apply find_some in H as [H1 H2]. cbn [fst] in H2. apply Nat.eqb_eq in H2. subst. auto. Qed.
Lemma site_ending u c k k' bid : Site u c k k' -> ending bid k' = ending bid k.
Proof. intros [|]; reflexivity. Qed.

Lemma ended_cons bid e lg : ended bid (e :: lg) = (match e with EBatchCalled _ b _ => if b =? bid then 1 else 0 | _ => 0 end) + ended bid lg.
Proof. reflexivity. Qed.
Lemma in_ended tok bid rs lg : In (EBatchCalled tok bid rs) lg -> 0 < ended bid lg.
Proof.
  induction lg as [|e lg IH]; [contradiction|]. rewrite ended_cons. intros [->|HI]; [rewrite Nat.eqb_refl; lia|]. specialize (IH HI). lia.
Qed.
Lemma ended_in bid lg : 0 < ended bid lg -> exists tok rs, In (EBatchCalled tok bid rs) lg.
Proof.
  induction lg as [|e lg IH]; [cbn; lia|]. rewrite ended_cons. intros H.
  destruct e; try (destruct IH as (t & rs' & HI); [exact H|exists t, rs'; now right]).
  destruct (bid0 =? bid) eqn:E; [apply Nat.eqb_eq in E; subst; exists tok, rs; now left|].
  destruct IH as (t & rs' & HI); [exact H|exists t, rs'; now right].
Qed.
Lemma bat_move l k k' : Shape k -> AccK k -> Prog k -> Move l k k' -> BatP (k_ba k) (k_sk k) (k_lg k) -> BatP (k_ba k') (k_sk k') (k_lg k').
Proof.
  intros HS HA HP HM. assert (HS' : Shape k') by (eapply shape_move; eauto).
  pose proof (fun bid j r rest => fresh_call k bid j r rest HA HP) as HFC.
  unfold Shape in *. destruct HM; kg; cbn [tl] in *; intros HB.
  - assert (HU : unders k) by (eapply pops_unders; eauto). apply bat_idle; [assumption|]. revert HB. apply bat_stack.
    + intros bid. rewrite !ending_app. destruct (neutrals_todo fs bid 0 ltac:(assumption)) as [_ ->]. destruct (pops_todo p bid 0 ltac:(assumption)) as [_ ->]. reflexivity.
    + intros tok bid rs. destruct fs as [|f fs]; cbn [app]; [now apply unders_calm|]. destruct H0 as [H0 _]. intros (r & E). injection E as -> _. discriminate H0.
  - exact HB.
  - exact HB.
  - apply bat_log; [exact I|]. revert HB. apply bat_stack; [|intros ? ? ? (? & E); discriminate E]. intros b. rewrite ending_cons. cbn [Nat.add]. eapply site_ending; eauto.
  - apply bat_log; [exact I|]. revert HB. apply bat_stack; [|intros ? ? ? (? & E); discriminate E]. intros b. rewrite !ending_cons. cbn [Nat.add]. eapply site_ending; eauto.
  - (* a new batch *)
    destruct HB as (A & B & C & D & F). destruct HP as (P1 & P2 & P3). kg.
    assert (HN : forall b, ~ In (nb, b) ba).
    { intros b HI. rewrite Forall_forall in B. destruct (B _ HI) as (_ & L2 & L3 & _). rewrite (P1 nb) in L2 by lia. lia. }
    assert (EL : length us > 0) by (destruct us; [congruence|cbn [length]; lia]).
    assert (HNC : forall j r, ~ logged lg nb j r).
    { intros j r HI. specialize (HA (CbBatch nb j)). specialize (P3 nb j). kg. rewrite (P1 nb) in P3 by lia.
      replace (j <? 0) with false in P3 by (symmetry; apply Nat.ltb_ge; lia).
      assert (0 < count (CbBatch nb j) (called lg)) by (unfold called; eapply in_count; [exact HI|now left]). lia. }
    assert (ES : forall bid, size (lg ++ [EBatch tok nb (length us)]) bid = size lg bid + if nb =? bid then length us else 0)
      by (intros; now rewrite size_app, size1).
    refine (conj _ (conj _ (conj _ (conj _ _)))).
    + rewrite map_app. cbn [map fst]. apply (Permutation_NoDup (l := nb :: map fst ba)); [apply Permutation_cons_append|]. constructor; [|exact A].
      intros HI. apply in_map_iff in HI as ([x b] & E & HI). cbn [fst] in E. subst x. now apply HN in HI.
    + apply Forall_app. split.
      * rewrite Forall_forall in *. intros [x b] HI. apply live_snoc; [intros t n E|intros; discriminate|auto]. injection E as _ <- _.
        cbn [fst] in *. now apply HN in HI.
      * constructor; [|constructor]. unfold Live. cbn [b_tok b_resps b_done]. rewrite repeat_length, ES, Nat.eqb_refl, (P1 nb) by lia. cbn [Nat.add].
        refine (conj _ (conj eq_refl (conj EL (conj _ (conj EL _))))).
        -- apply in_or_app. right. now left.
        -- unfold somes. clear. induction (length us); [reflexivity|exact IHn].
        -- intros j r. rewrite logged_snoc. split.
           ++ intros HE. apply nth_error_In in HE. apply repeat_spec in HE. discriminate HE.
           ++ intros [HI|HI]; [now apply HNC in HI|discriminate HI].
    + intros bid Hpos (b & HI). rewrite ended_app, ended1, ending_cons. cbn [Nat.add]. rewrite Nat.add_0_r.
      apply in_app_or in HI as [HI|[HI|[]]]; [apply C; eauto|]. injection HI as <- _. rewrite D; [now rewrite (P1 nb) by lia|lia|]. intros (b' & HI). now apply HN in HI.
    + intros bid Hpos HI. rewrite ended_app, ended1, ending_cons, ES. cbn [Nat.add]. rewrite Nat.add_0_r. destruct (nb =? bid) eqn:E.
      * apply Nat.eqb_eq in E. subst bid. exfalso. apply HI. eexists. apply in_or_app. right. left. reflexivity.
      * rewrite Nat.add_0_r. apply D; [exact Hpos|]. intros (b & HB). apply HI. exists b. apply in_or_app. now left.
    + intros tok' bid rs [HI|(t & E)]; [|discriminate E]. apply in_snoc in HI as [HI|HI]; [|discriminate HI].
      pose proof (F tok' bid rs (or_introl HI)) as HFu. apply full_snoc; [|exact HFu]. intros b n E. injection E as _ <- _. exfalso.
      apply in_ended in HI.
      specialize (D nb P2). rewrite (P1 nb) in D by lia. cbn [Nat.eqb] in D. assert (~ (exists b', In (nb, b') ba)) by (intros (b' & HI'); now apply HN in HI').
      specialize (D ltac:(assumption)). lia.
  - (* an empty batch *)
    destruct HB as (A & B & C & D & F).
    assert (ES : forall bid, size (lg ++ [EBatch tok 0 0]) bid = size lg bid) by (intros; rewrite size_app, size1; destruct (0 =? bid); lia).
    assert (HK : forall bid, 0 < bid -> ending bid (FBatchCall tok 0 [] :: FScope :: k) = ending bid k).
    { intros bid Hb. rewrite !ending_cons. destruct (0 =? bid) eqn:E; [apply Nat.eqb_eq in E; lia|reflexivity]. }
    refine (conj A (conj _ (conj _ (conj _ _)))).
    + rewrite Forall_forall in *. intros [x b] HI. apply live_snoc; [intros t n E|intros; discriminate|auto]. injection E as _ <- <-.
      destruct (B _ HI) as (_ & L2 & L3 & _). destruct HP as (P1 & _). kg. rewrite (P1 0) in L2 by auto. lia.
    + intros bid Hpos HI. rewrite ended_app, ended1, HK by assumption. rewrite Nat.add_0_r. auto.
    + intros bid Hpos HI. rewrite ended_app, ended1, HK, ES by assumption. rewrite Nat.add_0_r. auto.
    + intros tok' bid rs [HI|(t & E)].
      * apply in_snoc in HI as [HI|HI]; [|discriminate HI]. apply full_snoc; [|apply F; now left]. intros b n E. injection E as _ _ <-. reflexivity.
      * injection E as <- <- <- _. unfold Full. cbn [length]. rewrite ES. destruct HP as (P1 & _). kg. rewrite (P1 0) by auto.
        refine (conj _ (conj eq_refl _)); [apply in_or_app; right; now left|]. intros; lia.
  - revert HB. apply bat_stack; [reflexivity|now apply unders_calm].
  - revert HB. apply bat_stack; [|intros ? ? ? (? & E); discriminate E]. intros bid. rewrite !ending_cons, ending_app.
    destruct (low_todo fs bid 0 ltac:(assumption)) as [_ ->]. destruct f; try discriminate; reflexivity.
  - revert HB. apply bat_stack; [|intros ? ? ? (? & E); discriminate E]. intros bid. rewrite !ending_cons.
    destruct (low_todo fs bid 0 ltac:(assumption)) as [_ ->]. reflexivity.
  - exact HB.
  - revert HB. apply bat_stack; [|intros ? ? ? (? & E); discriminate E]. reflexivity.
  - apply bat_log; [exact I|]. revert HB. apply bat_stack; [reflexivity|now apply unders_calm].
  - revert HB. apply bat_stack; [|intros ? ? ? (? & E); discriminate E]. intros bid. rewrite !ending_cons, ending_app.
    destruct (low_todo fs bid 0 ltac:(assumption)) as [_ ->]. destruct H as [->|[HL|(m & kp & ->)]]; [reflexivity| |reflexivity]. destruct f; try discriminate; reflexivity.
  - revert HB. apply bat_stack; [reflexivity|now apply unders_calm].
  - apply bat_log; [exact I|]. revert HB. apply bat_stack; [reflexivity|intros ? ? ? (? & E); discriminate E].
  - (* no such batch: its requests are all answered, so this does not happen *)
    exfalso. specialize (HFC bid i r k eq_refl). kg. destruct HFC as [H1 H2]. destruct HB as (A & B & C & D & F).
    assert (HN : ~ exists b, In (bid, b) ba).
    { intros (b & HI). pose proof (find_none _ _ H (bid, b) HI) as HX. cbn [fst] in HX. now rewrite Nat.eqb_refl in HX. }
    destruct HP as (P1 & P2 & _). kg. assert (Hb : 0 < bid) by (destruct bid; [rewrite (P1 0) in H1 by auto; lia|lia]).
    specialize (D bid Hb HN). rewrite ending_cons in D. rewrite (unders_ending k) in D by assumption. destruct (size lg bid =? 0) eqn:E; [apply Nat.eqb_eq in E; lia|].
    assert (HE : exists tok rs, In (EBatchCalled tok bid rs) lg).
    { apply ended_in. lia. }
    destruct HE as (tok & rs & HI). destruct (F tok bid rs (or_introl HI)) as (F1 & F2 & F3). destruct (F3 i) as (r' & _ & R); [lia|]. now apply (H2 r').
  - (* one more answer *)
    specialize (HFC bid i r k eq_refl). kg. destruct HFC as [H1 H2]. destruct HB as (A & B & C & D & F).
    apply find_in in H as [-> HI]. pose proof B as B0. rewrite Forall_forall in B0. destruct (B0 _ HI) as (L1 & L2 & L3 & L4 & L5 & L6).
    assert (HNone : nth_error (b_resps b) i = Some None).
    { destruct (nth_error (b_resps b) i) as [[r'|]|] eqn:E; [|reflexivity|apply nth_error_None in E; lia]. apply L6 in E. now apply H2 in E. }
    set (nb' := mkBatch (b_tok b) (upd (b_resps b) i (Some r)) (S (b_done b))).
    set (g := fun e : nat * batch => if fst e =? bid then (bid, nb') else e).
    assert (HG : map fst (map g ba) = map fst ba).
    { rewrite map_map. apply map_ext. intros [x d]. subst g. cbn [fst]. destruct (x =? bid) eqn:E; [apply Nat.eqb_eq in E; auto|reflexivity]. }
    assert (HGI : forall x, (exists b, In (x, b) (map g ba)) <-> (exists b, In (x, b) ba)).
    { intros x. split; intros (d & Hd).
      - assert (In x (map fst (map g ba))) as HX by (apply in_map_iff; exists (x, d); auto). rewrite HG in HX. apply in_map_iff in HX as ([y d'] & E & HX). cbn in E. subst. eauto.
      - assert (In x (map fst ba)) as HX by (apply in_map_iff; exists (x, d); auto). rewrite <- HG in HX. apply in_map_iff in HX as ([y d'] & E & HX). cbn in E. subst. eauto. }
    assert (ES : forall x, size (lg ++ [ECalled (CbBatch bid i) r]) x = size lg x) by (intros; rewrite size_app, size1; lia).
    assert (EE : forall x, ended x (lg ++ [ECalled (CbBatch bid i) r]) = ended x lg) by (intros; rewrite ended_app, ended1; lia).
    refine (conj _ (conj _ (conj _ (conj _ _)))).
    + rewrite HG. exact A.
    + rewrite Forall_forall. intros e He. apply in_map_iff in He as ([x d] & <- & He). subst g. cbn [fst]. destruct (x =? bid) eqn:EX.
      * unfold Live, nb'. cbn [b_tok b_resps b_done]. rewrite upd_length, ES. refine (conj _ (conj L2 (conj L3 (conj _ (conj _ _))))).
        -- apply in_or_app. now left.
        -- rewrite upd_somes by exact HNone. lia.
        -- lia.
        -- intros j r'. rewrite logged_snoc, upd_nth by lia. destruct (j =? i) eqn:EJ.
           ++ apply Nat.eqb_eq in EJ. subst j. split; [intros E; injection E as ->; now right|]. intros [HX|HX]; [now apply H2 in HX|injection HX as ->; reflexivity].
           ++ apply Nat.eqb_neq in EJ. rewrite L6. split; [auto|]. intros [HX|HX]; [exact HX|injection HX as E _; congruence].
      * apply Nat.eqb_neq in EX. apply live_snoc; [intros; discriminate| |apply B0; exact He]. intros j r' E. injection E as E _ _. cbn [fst] in E. congruence.
    + intros x Hx HX. apply HGI in HX. rewrite EE. specialize (C x Hx HX). rewrite ending_cons in C. exact C.
    + intros x Hx HX. rewrite HGI in HX. rewrite EE, ES. specialize (D x Hx HX). rewrite ending_cons in D. exact D.
    + intros tok x rs [HX|HX]; [|exfalso; revert HX; now apply unders_calm]. apply full_snoc; [intros; discriminate|].
      apply in_snoc in HX as [HX|HX]; [apply F; now left|discriminate HX].
  - (* the last answer *)
    specialize (HFC bid i r k eq_refl). kg. destruct HFC as [H1 H2]. destruct HB as (A & B & C & D & F).
    apply find_in in H as [-> HI]. pose proof B as B0. rewrite Forall_forall in B0. destruct (B0 _ HI) as (L1 & L2 & L3 & L4 & L5 & L6).
    assert (HNone : nth_error (b_resps b) i = Some None).
    { destruct (nth_error (b_resps b) i) as [[r'|]|] eqn:E; [|reflexivity|apply nth_error_None in E; lia]. apply L6 in E. now apply H2 in E. }
    assert (ES : forall x, size (lg ++ [ECalled (CbBatch bid i) r]) x = size lg x) by (intros; rewrite size_app, size1; lia).
    assert (EE : forall x, ended x (lg ++ [ECalled (CbBatch bid i) r]) = ended x lg) by (intros; rewrite ended_app, ended1; lia).
    destruct HP as (P1 & P2 & _). kg. assert (Hb : 0 < bid) by (destruct bid; [rewrite (P1 0) in H1 by auto; lia|lia]).
    assert (HW : forall x d, In (x, d) (without bid ba) <-> In (x, d) ba /\ x <> bid).
    { intros x d. unfold without. rewrite filter_In. cbn [fst]. rewrite negb_true_iff, Nat.eqb_neq. reflexivity. }
    assert (HE0 : forall x, ending x k = 0) by (intros; now apply unders_ending).
    refine (conj _ (conj _ (conj _ (conj _ _)))).
    + unfold without. clear - A. induction ba as [|[x d] ba IH]; [constructor|]. cbn [map fst] in A. inversion A; subst. cbn [filter fst]. destruct (negb _); [|auto].
      cbn [map fst]. constructor; [|auto]. intros HI. apply H1. apply in_map_iff in HI as (e & E & HI). apply filter_In in HI as [HI _]. apply in_map_iff. eauto.
    + rewrite Forall_forall. intros [x d] He. apply HW in He as [He Hx]. apply live_snoc; [intros; discriminate| |auto]. intros j r' E. injection E as E _ _. cbn [fst] in E. congruence.
    + intros x Hx (d & Hd). apply HW in Hd as [Hd Hne]. rewrite EE, !ending_cons, HE0. specialize (C x Hx (ex_intro _ d Hd)). rewrite ending_cons, HE0 in C.
      destruct (bid =? x) eqn:E; [apply Nat.eqb_eq in E; congruence|lia].
    + intros x Hx HX. rewrite EE, ES, !ending_cons, HE0. destruct (bid =? x) eqn:E.
      * apply Nat.eqb_eq in E. subst x. specialize (C bid Hb (ex_intro _ b HI)). rewrite ending_cons, HE0 in C.
        destruct (size lg bid =? 0) eqn:E0; [apply Nat.eqb_eq in E0; lia|lia].
      * apply Nat.eqb_neq in E. specialize (D x Hx). rewrite ending_cons, HE0 in D. apply D. intros (d & Hd). apply HX. exists d. apply HW. auto.
    + intros tok x rs [HX|(t & E)].
      * apply full_snoc; [intros; discriminate|]. apply in_snoc in HX as [HX|HX]; [apply F; now left|discriminate HX].
      * injection E as <- <- <- _. unfold Full. rewrite upd_length, ES. refine (conj _ (conj L2 _)); [apply in_or_app; now left|].
        intros j Hj. assert (HS2 : somes (upd (b_resps b) i (Some r)) = length (upd (b_resps b) i (Some r))) by (rewrite upd_somes, upd_length by exact HNone; lia).
        destruct (somes_full _ HS2 j) as (r' & Hr'); [rewrite upd_length; lia|]. exists r'. split; [exact Hr'|]. apply logged_snoc.
        rewrite upd_nth in Hr' by lia. destruct (j =? i) eqn:EJ; [injection Hr' as <-; apply Nat.eqb_eq in EJ; subst; now right|left; now apply L6].
  - (* the batch callback is called *)
    destruct HB as (A & B & C & D & F).
    assert (ES : forall x, size (lg ++ [EBatchCalled tok bid rs]) x = size lg x) by (intros; rewrite size_app, size1; lia).
    assert (EE : forall x, ended x (lg ++ [EBatchCalled tok bid rs]) + ending x (FUser :: k) = ended x lg + ending x (FBatchCall tok bid rs :: k)).
    { intros. rewrite ended_app, ended1, !ending_cons. lia. }
    refine (conj A (conj _ (conj _ (conj _ _)))).
    + revert B. apply Forall_impl. intros x. apply live_snoc; intros; discriminate.
    + intros x Hx HX. rewrite EE. auto.
    + intros x Hx HX. rewrite EE, ES. auto.
    + intros t x rs' [HX|(y & E)]; [|discriminate E]. apply full_snoc; [intros; discriminate|]. apply F.
      apply in_snoc in HX as [HX|HX]; [now left|]. injection HX as -> -> ->. right. eexists. reflexivity.
Qed.
