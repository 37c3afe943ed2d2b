(** No writing after an announced close; no destruction of a connection inside its own dispatch. *)
From Verif Require Import Base UtilModel CliModel CliSpec CliProofs CliMoves CliInv CliBatch2 CliConn CliCorr.
Local Open Scope nat_scope.

(** ** Announced close *)
Fixpoint doomed (ac : option ctx) (sk : list frame) : Prop :=
  match sk with
  | FRespTail false :: _ | FDisc1 :: _ => True
  | FResponse _ keep :: r => keep = false /\ (ac <> None \/ doomed ac r)
  | FCall _ _ :: r | FUser :: r | FScope :: r | FBatchCall _ _ _ :: r => doomed None r
  | _ => False
  end.
Lemma doomed_any ac sk : doomed None sk -> doomed ac sk.
Proof.
  induction sk as [|f sk IH]; [auto|]. destruct f; cbn [doomed]; auto. intros [E H]. split; [exact E|]. right. destruct H as [H|H]; [contradiction|auto].
Qed.
Definition CA (cn : option cobj) (cd : bool) (ac : option ctx) (lg : list ev) (sk : list frame) : Prop :=
  cd = true -> forall c, cn = Some c -> announced (c_wire c) lg -> doomed ac sk.
Definition Cl (s : st) : Prop :=
  (s_connected s = true -> s_intent s = false) /\ CA (s_conn s) (s_connected s) (s_active s) (s_log s) (s_stack s) /\
  (headed FSend (s_stack s) -> s_connected s = true /\ is_open s = true) /\ NoAfter (s_log s) /\ Wires (s_conn s) (s_next_wire s) (s_log s).
Definition dumb (e : ev) : Prop := match e with EGot _ _ false => False | _ => True end.
Lemma ann_snoc w lg e : dumb e -> announced w (lg ++ [e]) -> announced w lg.
Proof. intros HE (n & HI). apply in_snoc in HI as [HI|HI]; [now exists n|]. subst e. contradiction HE. Qed.
Lemma ca_log cn cd ac lg sk e : dumb e -> CA cn cd ac lg sk -> CA cn cd ac (lg ++ [e]) sk.
Proof. intros HE H H1 c H2 H3. apply (H H1 c H2). now apply ann_snoc in H3. Qed.
Lemma ca_off cn ac lg sk : CA cn false ac lg sk. Proof. intros H. discriminate H. Qed.
Lemma ca_none cd ac lg sk : CA None cd ac lg sk. Proof. intros _ c H. discriminate H. Qed.
Lemma ca_same c cd ac lg sk id o at_ : CA (Some c) cd ac lg sk -> CA (Some (mkC id (c_wire c) o at_)) cd ac lg sk.
Proof. intros H H1 d H2 H3. injection H2 as <-. exact (H H1 c eq_refl H3). Qed.
Lemma ca_new cn nw cd ac lg sk id o at_ : Wires cn nw lg -> CA (Some (mkC id nw o at_)) cd ac lg sk.
Proof.
  intros (_ & B & _) _ d H2 (n & H3). injection H2 as <-. exfalso. cbn [c_wire] in H3. destruct (B nw (le_n _)) as [_ HG].
  assert (HI : In n (gots nw lg)); [|now rewrite HG in HI]. unfold gots. apply in_flat_map. exists (EGot nw n false). rewrite Nat.eqb_refl. split; [exact H3|now left].
Qed.
Lemma ca_stack cn cd ac lg sk ac' sk' : (doomed ac sk -> doomed ac' sk') -> CA cn cd ac lg sk -> CA cn cd ac' lg sk'.
Proof. intros HD H H1 c H2 H3. apply HD. eapply H; eauto. Qed.
Definition unsentev (e : ev) : Prop := match e with ESent _ _ _ => False | _ => True end.
Lemma na_log lg e : unsentev e -> NoAfter lg -> NoAfter (lg ++ [e]).
Proof.
  intros HE H a w n b E c u HI. apply snoc_split in E as [(-> & _ & _)|(b' & -> & E)]; [contradiction|]. apply in_snoc in HI as [HI|HI]; [eapply H; eauto|].
  subst e. contradiction HE.
Qed.
Lemma na_sent lg w c u : ~ announced w lg -> NoAfter lg -> NoAfter (lg ++ [ESent w c u]).
Proof.
  intros HA H a v n b E c' u' HI. apply snoc_split in E as [(-> & _ & _)|(b' & -> & E)]; [contradiction|]. apply in_snoc in HI as [HI|HI]; [eapply H; eauto|].
  injection HI as -> _ _. apply HA. exists n. rewrite E. apply in_or_app. right. now left.
Qed.
Ltac na := repeat first [ assumption | apply na_log; [exact I|] ].
Ltac ca := repeat first [ assumption | apply ca_off | apply ca_none | apply ca_log; [exact I|] | eapply ca_new; eassumption | apply ca_same ];
  try (eapply ca_stack; [|eassumption]; cbn [doomed]; solve [auto | tauto | intuition congruence]).
Ltac hs := let r := fresh in let H := fresh in first [ assumption | intros (r & H); discriminate H ].
Ltac int := try assumption; try discriminate; try (intros; reflexivity).
Lemma cl_api s a : Cl s -> s_stack s = [] -> Cl (api s a).
Proof.
  intros (HI & HC & HF & HN & HW) HK. revert HI HC HF HN HW HK. unfold is_open. ds s. sg. intros HI HC HF HN HW HK. subst sk.
  destruct a; unf; sg; cbn zeta; sg; explode1; unfold Cl, is_open; sg; (refine (conj _ (conj _ (conj _ (conj _ _)))); [int|ca|hs|na|wir]).
Qed.
Lemma unders_hs k : unders k -> forall P : Prop, headed FSend k -> P.
Proof. intros H P HH. now apply unders_no_send in HH. Qed.
Lemma cl_exec s f k ch : Cl s -> s_stack s = f :: k -> unders k -> later s (LRun ch) -> Cl (exec (set_stack s k) f ch).
Proof.
  intros (HI & HC & HF & HN & HW) HK HU HL. unfold later in HL. rewrite HK in *. revert HI HC HF HN HW HL. clear HK. unfold is_open. ds s. sg. intros HI HC HF HN HW HL.
  destruct f; unf; sg; cbn zeta; sg; explode1; unfold Cl, is_open; sg; (refine (conj _ (conj _ (conj _ (conj _ _)))); [int|ca|try hs; try (now apply unders_hs)|na|wir]).
  all: try (eapply ca_stack; [|eassumption]; cbn [doomed]; apply doomed_any).
  - intros _. apply orb_false_iff in HB1 as [H1 H2]. apply negb_false_iff in H1, H2. auto.
  - destruct HF as [H1 H2]; [eexists; reflexivity|]. apply na_sent; [|exact HN]. intros HA. exact (HC H1 c0 eq_refl HA).
  - destruct HF as [H1 H2]; [eexists; reflexivity|]. now apply wires_sent.
  - intros Hc. specialize (HI Hc). discriminate HI.
  - eapply ca_stack; [|exact HC]. cbn [doomed]. intros [-> _]. exact I.
Qed.
Lemma cl_io s e s' : Cl s -> s_stack s = [] -> io s e = Some s' -> (forall n, e = IResp n false -> s_active s <> None) -> Cl s'.
Proof.
  intros (HI & HC & HF & HN & HW) HK. revert HI HC HF HN HW HK. unfold is_open. ds s. sg. intros HI HC HF HN HW HK. subst sk.
  destruct e; unfold io; unf; sg; cbn zeta; sg; explode1; intros HE HM; try discriminate HE; try (injection HE as <-); unfold Cl, is_open; sg;
    (refine (conj _ (conj _ (conj _ (conj _ _)))); [int|ca|hs|na|wir]).
  - destruct keep; [apply ca_log; [exact I|]; eapply ca_stack; [|exact HC]; contradiction|]. intros _ d _ _. cbn [doomed]. split; [reflexivity|]. left. apply (HM n eq_refl).
  - now apply wires_got.
  - destruct b; [apply ca_log; [exact I|]; eapply ca_stack; [|exact HC]; contradiction|]. intros _ d _ _. cbn [doomed]. split; [reflexivity|]. now right.
  - now apply wires_got.
  - exfalso. match goal with H : _ || _ = false |- _ => discriminate H end.
  - exfalso. match goal with H : _ || _ = false |- _ => discriminate H end.
Qed.
Lemma cl_step s l s' : Cl s /\ Shape (core_of s) -> modest s l -> step s l = Some s' -> Cl s' /\ Shape (core_of s').
Proof.
  intros (HC & HS) (HA & HL & HM) E. split; [|eapply shape_move; [exact HS|eapply move_step; exact E]].
  unfold Shape, core_of in HS. cbn [k_sk] in HS. unfold step in E. destruct l as [a| |ch|e].
  - specialize (HA a eq_refl). rewrite HA in E. injection E as <-. now apply cl_api.
  - destruct (s_stack s) as [|f k] eqn:EK; [discriminate E|]. destruct f; try discriminate E. injection E as <-. cbn [tl] in HS.
    destruct HC as (HI & HC & HF & HN & HW). rewrite EK in *. unfold Cl. sg. refine (conj HI (conj _ (conj _ (conj HN HW)))).
    + eapply ca_stack; [|exact HC]. cbn [doomed]. apply doomed_any.
    + now apply unders_hs.
  - destruct (s_stack s) as [|f k] eqn:EK; [discriminate E|]. cbn [tl] in HS.
    assert (E' : Some (exec (set_stack s k) f ch) = Some s') by (destruct f; auto; discriminate E). injection E' as <-. now apply cl_exec.
  - destruct (s_stack s) as [|f k] eqn:EK; [|discriminate E]. eapply cl_io; eauto. intros n ->. now apply (HM n).
Qed.
Lemma run_inv_if (P : st -> Prop) (Q : st -> label -> Prop) : (forall s l s', P s -> Q s l -> step s l = Some s' -> P s') ->
  forall ls s s', P s -> obeys Q s ls -> run s ls = Some s' -> P s'.
Proof.
  intros HP. induction ls as [|l ls IH]; cbn [run obeys]; intros s s' H HO E; [congruence|]. destruct HO as [HQ HO]. destruct (step s l) as [s1|] eqn:ES; [|discriminate E]. eauto.
Qed.
Lemma cl_reach base ls s : obeys modest (init base) ls -> reaches base ls s -> NoAfter (s_log s).
Proof.
  intros HO H. assert (HC : Cl s /\ Shape (core_of s)); [|apply HC].
  apply (run_inv_if (fun s => Cl s /\ Shape (core_of s)) modest cl_step ls (init base) s); [|exact HO|exact H]. split; [|constructor]. unfold Cl. cbn [init s_connected s_intent s_conn s_active s_log s_stack s_next_wire].
  refine (conj _ (conj _ (conj _ (conj _ _)))).
  - discriminate.
  - apply ca_off.
  - intros (r & E). discriminate E.
  - intros a w n b E. destruct a; discriminate E.
  - refine (conj _ (conj _ (conj eq_refl _))); cbn [c_wire c_open]; [lia|auto|split; [lia|discriminate]].
Qed.

(** ** The connection object in its own dispatch *)
Definition inframe (f : frame) : nat := match f with FIn _ _ => 1 | _ => 0 end.
Definition guarded (f : frame) : bool := match f with FUser | FCall _ _ | FBatchCall _ _ _ | FConnCall _ _ | FReset => true | _ => false end.
Fixpoint sc (sk : list frame) : Prop :=
  match sk with [] => True | f :: r => (guarded f = true -> 0 < tot inframe r -> 0 < tot scoped r) /\ sc r end.
Definition Inside (s : st) : Prop :=
  sc (s_stack s) /\ tot inframe (s_stack s) <= 1 /\
  (forall cid g, In (FIn cid g) (s_stack s) -> exists c, s_conn s = Some c /\ c_id c = cid /\ c_open c = true).

Definition Ins (cn : option cobj) (sk : list frame) : Prop :=
  sc sk /\ tot inframe sk <= 1 /\ (forall cid g, In (FIn cid g) sk -> exists c, cn = Some c /\ c_id c = cid /\ c_open c = true).
Lemma ins_pop cn f k : Ins cn (f :: k) -> Ins cn k.
Proof. intros (A & B & C). rewrite tot_cons in B. refine (conj (proj2 A) (conj _ _)); [lia|]. intros cid g H. apply (C cid g). now right. Qed.
Lemma ins_conn c k id w at_ : id = c_id c -> Ins (Some c) k -> Ins (Some (mkC id w (c_open c) at_)) k.
Proof.
  intros -> (A & B & C). refine (conj A (conj B _)). intros cid g H. destruct (C cid g H) as (d & E & E1 & E2). injection E as <-. eexists. split; [reflexivity|]. auto.
Qed.
Lemma ins_conn1 c k id w at_ : id = c_id c -> Ins (Some c) k -> Ins (Some (mkC id w true at_)) k.
Proof.
  intros -> (A & B & C). refine (conj A (conj B _)). intros cid g H. destruct (C cid g H) as (d & E & E1 & E2). injection E as <-. eexists. split; [reflexivity|]. auto.
Qed.
Lemma ins_free cn cn' k : tot inframe k = 0 -> Ins cn k -> Ins cn' k.
Proof.
  intros H0 (A & B & C). refine (conj A (conj B _)). intros cid g H. exfalso. clear - H0 H. induction k as [|f k IH]; [contradiction|].
  rewrite tot_cons in H0. destruct H as [->|H]; [cbn [inframe] in H0; lia|]. apply IH; [lia|exact H].
Qed.
Lemma ins_push cn f k : inframe f = 0 -> (guarded f = true -> 0 < tot inframe k -> 0 < tot scoped k) -> Ins cn k -> Ins cn (f :: k).
Proof.
  intros HF HG (A & B & C). refine (conj (conj HG A) (conj _ _)); [rewrite tot_cons, HF; exact B|]. intros cid g [->|H]; [discriminate HF|eauto].
Qed.
Lemma ins_closed c k : c_open c = false -> Ins (Some c) k -> tot inframe k = 0.
Proof.
  intros HO (A & B & C). destruct (tot inframe k) eqn:E; [reflexivity|]. exfalso. assert (exists cid g, In (FIn cid g) k) as (cid & g & H).
  { clear - E. revert n E. induction k as [|f k IH]; intros n E; [discriminate E|]. rewrite tot_cons in E. destruct f; try (destruct (IH n E) as (a & b & H); exists a, b; now right).
    exists cid, gone. now left. }
  destruct (C cid g H) as (d & E1 & _ & E2). injection E1 as <-. congruence.
Qed.
Lemma ins_none k : Ins None k -> tot inframe k = 0.
Proof.
  intros (A & B & C). destruct (tot inframe k) eqn:E; [reflexivity|]. exfalso. assert (exists cid g, In (FIn cid g) k) as (cid & g & H).
  { clear - E. revert n E. induction k as [|f k IH]; intros n E; [discriminate E|]. rewrite tot_cons in E. destruct f; try (destruct (IH n E) as (a & b & H); exists a, b; now right).
    exists cid, gone. now left. }
  destruct (C cid g H) as (d & E1 & _). discriminate E1.
Qed.
(** nothing was destroyed *)
Definition kept (lg lg' : list ev) : Prop := exists es, lg' = lg ++ es /\ forall cid, ~ In (EDestroyed cid) es.
Lemma kept_refl lg : kept lg lg. Proof. exists []. split; [now rewrite app_nil_r|auto]. Qed.
Lemma kept_snoc lg lg' e : (forall cid, e <> EDestroyed cid) -> kept lg lg' -> kept lg (lg' ++ [e]).
Proof. intros HE (es & -> & H). exists (es ++ [e]). split; [now rewrite app_assoc|]. intros cid HI. apply in_snoc in HI as [HI|HI]; [now apply (H cid)|]. now apply (HE cid). Qed.
Ltac kp := repeat first [ apply kept_refl | apply kept_snoc; [discriminate|] ].
Ltac tots3 := repeat (rewrite ?tot_app, ?tot_cons, ?tot_nil in * ); cbn [scoped inframe] in *.
Ltac insg HG := repeat first [ assumption
  | apply ins_push; [reflexivity|cbn [guarded]; first [discriminate | intros _; intros; tots3; first [lia | specialize (HG ltac:(lia)); lia]]|]
  | eapply ins_conn1; [reflexivity|] | apply ins_conn; [reflexivity|]
  | eapply ins_free; [|eassumption]; first [assumption | eapply ins_closed; [|eassumption]; now apply negb_true_iff | now apply ins_none] ].
Lemma ins_api s a : Ins (s_conn s) (s_stack s) -> (0 < tot inframe (s_stack s) -> 0 < tot scoped (s_stack s)) ->
  Ins (s_conn (api s a)) (s_stack (api s a)) /\ (0 < tot inframe (s_stack s) -> kept (s_log s) (s_log (api s a))).
Proof.
  ds s. sg. intros HI HG. destruct a; unf; sg; cbn zeta; sg; explode1; (split; [insg HG|intros HT; kp]).
  all: exfalso; apply negb_true_iff in HB2; apply (ins_closed _ _ HB2) in HI; lia.
Qed.
Lemma ins_exec s f k ch : Depth s -> Ins (s_conn s) (s_stack s) -> s_stack s = f :: k -> (f = FClose -> ch = C0) ->
  Ins (s_conn (exec (set_stack s k) f ch)) (s_stack (exec (set_stack s k) f ch)) /\ (0 < tot inframe (s_stack s) -> kept (s_log s) (s_log (exec (set_stack s k) f ch))).
Proof.
  intros HD HI HK HC. unfold Depth in HD. rewrite HK in *. pose proof (ins_pop _ _ _ HI) as HI'. assert (HG : guarded f = true -> 0 < tot inframe k -> 0 < tot scoped k) by apply HI.
  assert (HB1 : tot inframe (f :: k) <= 1) by apply HI. revert HD HI HI'. clear HK. ds s. sg. intros HD HI HI'. subst dp.
  destruct f; cbn [guarded] in HG; try specialize (HG eq_refl); unf; sg; cbn zeta; sg; explode1; (split; [insg HG|intros HT; kp]).
  - exfalso. apply negb_true_iff in HB8. apply (ins_closed _ _ HB8) in HI. lia.
  - discriminate (HC eq_refl).
  - discriminate (HC eq_refl).
  - match goal with H : (_ =? 0) = true |- _ => apply Nat.eqb_eq in H; rewrite tot_cons in H; cbn [scoped] in H end. eapply ins_free; [|exact HI']. destruct (tot inframe k); [reflexivity|]. specialize (HG ltac:(lia)). lia.
  - exfalso. match goal with H : (_ =? 0) = true |- _ => apply Nat.eqb_eq in H; rewrite tot_cons in H; cbn [scoped] in H end. rewrite tot_cons in HT. cbn [inframe] in HT. specialize (HG HT). lia.
  - eapply ins_free; [|exact HI']. rewrite tot_cons in HB1. cbn [inframe] in HB1. lia.
Qed.
Lemma ins_io s e s' : Ins (s_conn s) (s_stack s) -> s_stack s = [] -> io s e = Some s' -> (forall flush closed, e = IDisc flush closed -> closed = false) ->
  (e = ITimeout -> is_open s = true) -> Ins (s_conn s') (s_stack s').
Proof.
  intros HI HK. revert HI HK. unfold is_open. ds s. sg. intros HI HK. subst sk.
  assert (HF : forall cn, Ins cn []). { intros cn'. refine (conj I (conj _ _)); [cbn; lia|]. intros ? ? []. }
  assert (HIn : forall c g, c_open c = true -> Ins (Some c) [FIn (c_id c) g]).
  { intros c g HO. refine (conj _ (conj _ _)); [split; [discriminate|exact I]|cbn; lia|]. intros cid g' [E|[]]. injection E as <- _. eauto. }
  destruct e; unfold io; unf; sg; cbn zeta; sg; explode1; intros HE HQ HT; try discriminate HE; try (injection HE as <-); sg; insg HI; try apply HF; try (apply HIn; auto; now apply HT).
  all: rewrite (HQ _ closed eq_refl); apply (HIn (mkC (c_id c) (c_wire c) true (c_attempts c)) true); reflexivity.
Qed.
Lemma ins_step s l s' : Depth s /\ Ins (s_conn s) (s_stack s) -> gentle s l -> step s l = Some s' ->
  (Depth s' /\ Ins (s_conn s') (s_stack s')) /\ (0 < tot inframe (s_stack s) -> kept (s_log s) (s_log s')).
Proof.
  intros (HD & HI) (HQ1 & HQ2 & HQ3) E. assert (HD' : Depth s') by (eapply depth_step; eauto).
  enough (Ins (s_conn s') (s_stack s') /\ (0 < tot inframe (s_stack s) -> kept (s_log s) (s_log s'))) by tauto.
  unfold step in E. destruct l as [a| |ch|e].
  - assert (HT : 0 < tot inframe (s_stack s) -> 0 < tot scoped (s_stack s)).
    { destruct (s_stack s) as [|f k] eqn:EK; [auto|]. destruct f; try discriminate E. rewrite !tot_cons. cbn [inframe scoped Nat.add]. apply HI. reflexivity. }
    assert (E' : api s a = s') by (destruct (s_stack s) as [|f k]; [congruence|]; destruct f; try discriminate E; congruence). subst s'. now apply ins_api.
  - destruct (s_stack s) as [|f k] eqn:EK; [discriminate E|]. destruct f; try discriminate E. injection E as <-. sg. split; [now apply ins_pop in HI|]. intros _. apply kept_refl.
  - destruct (s_stack s) as [|f k] eqn:EK; [discriminate E|].
    assert (E' : Some (exec (set_stack s k) f ch) = Some s') by (destruct f; auto; discriminate E). injection E' as <-. rewrite <- EK in HI. rewrite <- EK. apply ins_exec; auto.
    intros ->. eapply HQ1; eauto.
  - destruct (s_stack s) as [|f k] eqn:EK; [|discriminate E]. split; [|cbn; lia]. rewrite <- EK in HI. eapply ins_io; eauto; [intros; subst; eapply HQ2; eauto|intros ->; now apply HQ3].
Qed.
Lemma in_tot cid g sk : In (FIn cid g) sk -> 0 < tot inframe sk.
Proof. induction sk as [|f sk IH]; [contradiction|]. rewrite tot_cons. intros [->|H]; [cbn [inframe]; lia|]. apply IH in H. lia. Qed.
