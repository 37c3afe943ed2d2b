(** Invariants of the client, proved over the moves. *)
From Coq Require Import Permutation.
From Verif Require Import Base UtilModel CliModel CliSpec CliProofs CliMoves.
Local Open Scope nat_scope.

Ltac kg := cbn [k_pe k_ac k_ba k_nr k_nb k_mx k_td k_ti k_sk k_lg k_bs] in *.

(** ** Shape of the stack *)
Definition under (f : frame) : bool := low f || match f with FBatchPush _ _ _ => true | _ => false end.
Definition unders (k : list frame) : Prop := Forall (fun f => under f = true) k.
Definition Shape (k : core) : Prop := unders (tl (k_sk k)).
Lemma unders_app a b : unders a -> unders b -> unders (a ++ b). Proof. intros. now apply Forall_app. Qed.
Lemma lows_unders l : lows l -> unders l.
Proof. apply Forall_impl. intros f H. unfold under. now rewrite H. Qed.
Lemma under_low f : low f = true -> under f = true. Proof. intros H. unfold under. now rewrite H. Qed.
Lemma atop_unders k : atop k -> unders (tl k) -> unders k.
Proof. destruct k as [|f k]; [constructor|]. destruct f; cbn [atop tl]; try contradiction. intros _ H. constructor; [reflexivity|exact H]. Qed.
(** what is left of the stack in a neutral move *)
Lemma pops_unders p k : pops p -> (p = [] -> atop k) -> unders (tl (p ++ k)) -> unders k.
Proof. destruct p as [|f [|g p]]; cbn [pops app tl]; [intros _ H; auto using atop_unders|auto|contradiction]. Qed.
Lemma site_unders u c k k' : Site u c k k' -> unders (tl k) -> unders k'.
Proof. intros [? ? ? H|] HU; [now apply atop_unders|]. cbn [tl] in HU. constructor; [reflexivity|exact HU]. Qed.
Lemma shape_move l k k' : Shape k -> Move l k k' -> Shape k'.
Proof.
  unfold Shape. intros HS HM. destruct HM; kg; cbn [tl] in *; auto using atop_unders.
  - assert (HU : unders k) by (eapply pops_unders; eauto). destruct fs as [|f fs]; cbn [app tl].
    + destruct k; [exact HU|]. now inversion HU.
    + destruct H0. apply unders_app; [now apply lows_unders|exact HU].
  - eapply site_unders; eauto.
  - constructor; [reflexivity|]. eapply site_unders; eauto.
  - constructor; [reflexivity|]. now apply atop_unders.
  - destruct k; [exact HS|]. now inversion HS.
  - apply unders_app; [now apply lows_unders|exact HS].
  - now apply lows_unders.
  - constructor; [reflexivity|exact HS].
  - destruct k; [exact HS|]. now inversion HS.
  - apply unders_app; [now apply lows_unders|exact HS].
  - destruct k; [exact HS|]. now inversion HS.
  - destruct k; [exact HS|]. now inversion HS.
  - destruct k; [exact HS|]. now inversion HS.
  - constructor; [reflexivity|exact HS].
Qed.
Definition headed (f : frame) (k : list frame) : Prop := exists r, k = f :: r.
Lemma unders_no_send k : unders k -> ~ headed FSend k.
Proof. intros H (r & ->). inversion H; discriminate. Qed.
Lemma unders_no_call k c r : unders k -> ~ headed (FCall c r) k.
Proof. intros H (t & ->). inversion H; discriminate. Qed.

(** ** One request at a time *)
Definition Flying (lg : list ev) (x : cb) : Prop := exists a w u b, lg = a ++ ESent w x u :: b /\ forall r, ~ In (ECalled x r) b.
Definition SingleFlight (lg : list ev) : Prop :=
  forall a w x u b w' y v d, lg = a ++ ESent w x u :: b ++ ESent w' y v :: d -> exists r, In (ECalled x r) b.
Lemma snoc_split {A} (l : list A) e a x b : l ++ [e] = a ++ x :: b -> (b = [] /\ e = x /\ l = a) \/ (exists b', b = b' ++ [e] /\ l = a ++ x :: b').
Proof.
  destruct (@exists_last A (x :: b)) as (b' & y & E); [discriminate|]. rewrite E. rewrite app_assoc. intros H. apply app_inj_tail in H as [-> ->].
  destruct b' as [|z b']; cbn [app] in E.
  - injection E as -> ->. left. rewrite app_nil_r. auto.
  - injection E as -> ->. right. eauto.
Qed.
Lemma flying_snoc lg e x : Flying (lg ++ [e]) x -> (Flying lg x /\ forall r, e <> ECalled x r) \/ exists w u, e = ESent w x u.
Proof.
  intros (a & w & u & b & E & H). apply snoc_split in E as [(-> & -> & ->)|(b' & -> & ->)]; [right; eauto|]. left. split.
  - exists a, w, u, b'. split; [reflexivity|]. intros r HI. apply (H r). apply in_or_app. now left.
  - intros r ->. apply (H r). apply in_or_app. right. now left.
Qed.
Lemma flying_idle lg es x : Forall idle_ev es -> Flying (lg ++ es) x -> Flying lg x.
Proof.
  intros HE. revert lg. induction HE as [|e es He _ IH]; intros lg; [now rewrite app_nil_r|].
  change (e :: es) with ([e] ++ es). rewrite app_assoc. intros H. apply IH in H. apply flying_snoc in H as [[H _]|(w & u & ->)]; [exact H|contradiction He].
Qed.
Lemma single_snoc lg e : SingleFlight lg -> (forall w x u y, e = ESent w x u -> ~ Flying lg y) -> SingleFlight (lg ++ [e]).
Proof.
  intros HS HF a w x u b w' y v d E.
  change (a ++ ESent w x u :: b ++ ESent w' y v :: d) with (a ++ (ESent w x u :: b) ++ (ESent w' y v :: d)) in E. rewrite app_assoc in E.
  apply snoc_split in E as [(-> & -> & E)|(d' & -> & E)].
  - destruct (in_dec cb_dec x (called b)) as [HI|HN].
    + unfold called in HI. apply in_flat_map in HI as (e & H1 & H2). destruct e; cbn in H2; try contradiction. destruct H2 as [->|[]]. eauto.
    + exfalso. apply (HF _ _ _ x eq_refl). exists a, w, u, b. split; [exact E|]. intros r HI. apply HN. unfold called. apply in_flat_map.
      exists (ECalled x r). split; [exact HI|now left].
  - rewrite <- app_assoc in E. apply (HS a w x u b w' y v d'). exact E.
Qed.
Lemma single_idle lg es : Forall idle_ev es -> SingleFlight lg -> SingleFlight (lg ++ es).
Proof.
  intros HE. revert lg. induction HE as [|e es He _ IH]; intros lg H; [now rewrite app_nil_r|].
  change (e :: es) with ([e] ++ es). rewrite app_assoc. apply IH. apply single_snoc; [exact H|]. intros w x u y ->. contradiction He.
Qed.
Definition Held (k : core) (x : cb) : Prop := (exists c, k_ac k = Some c /\ x_cb c = x) \/ (exists r, headed (FCall x r) (k_sk k)).
Definition Flight (k : core) : Prop :=
  Shape k /\ SingleFlight (k_lg k) /\ forall x, Flying (k_lg k) x -> ~ headed FSend (k_sk k) /\ Held k x.
Ltac notsend := let r := fresh in let E := fresh in
  first [ intros (r & E); discriminate E | apply unders_no_send; assumption ].
Ltac noflight H := let w := fresh in let x := fresh in let u := fresh in let y := fresh in let E := fresh in intros w x u y E; discriminate E.
Lemma atop_plain k x r : atop k -> ~ headed (FCall x r) k.
Proof. intros H (t & ->). exact H. Qed.
Lemma flight_move l k k' : Flight k -> Move l k k' -> Flight k'.
Proof.
  intros (HS & SF & FL) HM. assert (HS' : Shape k') by (eapply shape_move; eauto). split; [exact HS'|]. unfold Shape, Held in *.
  destruct HM; kg; cbn [tl] in *.
  - split; [now apply single_idle|]. intros x HF. apply flying_idle in HF; [|assumption]. destruct (FL x HF) as [NS HD].
    assert (HU : unders k) by (eapply pops_unders; eauto). split.
    + destruct fs as [|f fs]; cbn [app]; [now apply unders_no_send|]. destruct H0 as [H0 _]. intros (r & E). injection E as -> _. discriminate H0.
    + destruct HD as [HD|(r & r' & E)]; [now left|]. exfalso. destruct p as [|f [|g p]]; cbn [app pops] in *; try contradiction.
      * subst k. match goal with HX : [] = [] -> atop _ |- _ => exact (HX eq_refl) end.
      * injection E as -> _. discriminate H.
  - split; [exact SF|]. exact FL.
  - split; [exact SF|]. exact FL.
  - split; [apply single_snoc; [exact SF|noflight H]|]. intros x HF. apply flying_snoc in HF as [[HF _]|(w & u' & E)]; [|discriminate E].
    destruct (FL x HF) as [NS HD]. split; [notsend|]. destruct HD as [HD|(r & HH)]; [now left|]. exfalso.
    destruct H; [now apply (atop_plain k x r)|destruct HH as (? & E); discriminate E].
  - split; [apply single_snoc; [exact SF|noflight H]|]. intros x HF. apply flying_snoc in HF as [[HF _]|(w & u' & E)]; [|discriminate E].
    destruct (FL x HF) as [NS HD]. split; [notsend|]. destruct HD as [HD|(r & HH)]; [now left|]. exfalso.
    destruct H; [now apply (atop_plain k x r)|destruct HH as (? & E); discriminate E].
  - split; [apply single_snoc; [exact SF|noflight H]|]. intros x HF. apply flying_snoc in HF as [[HF _]|(w & u' & E)]; [|discriminate E].
    destruct (FL x HF) as [NS HD]. split; [notsend|]. destruct HD as [HD|(r & HH)]; [now left|]. exfalso. now apply (atop_plain k x r).
  - split; [apply single_snoc; [exact SF|noflight H]|]. intros x HF. apply flying_snoc in HF as [[HF _]|(w & u' & E)]; [|discriminate E].
    destruct (FL x HF) as [NS HD]. split; [notsend|]. destruct HD as [HD|(r & HH)]; [now left|]. exfalso. now apply (atop_plain k x r).
  - split; [exact SF|]. intros x HF. destruct (FL x HF) as [NS HD]. split; [notsend|]. destruct HD as [HD|(r & r' & E)]; [now left|discriminate E].
  - split; [exact SF|]. intros y HF. destruct (FL y HF) as [NS HD]. split; [notsend|]. destruct HD as [HD|(r & r' & E)]; [now left|].
    injection E as -> _. discriminate H.
  - split; [exact SF|]. intros y HF. destruct (FL y HF) as [NS HD]. split; [notsend|]. destruct HD as [HD|(r & r' & E)]; [now left|discriminate E].
  - split; [exact SF|]. exact FL.
  - split; [exact SF|]. intros y HF. destruct (FL y HF) as [NS [(c & E & _)|(r & r' & E)]]; discriminate E.
  - assert (HN : forall y, ~ Flying lg y) by (intros y HF; destruct (FL y HF) as [NS _]; apply NS; exists k; reflexivity).
    split; [apply single_snoc; [exact SF|auto]|]. intros y HF. apply flying_snoc in HF as [[HF _]|(w' & u' & E)]; [now apply HN in HF|].
    injection E as _ <- _. split; [notsend|]. left. eauto.
  - split; [exact SF|]. intros y HF. destruct (FL y HF) as [NS HD]. split; [notsend|]. destruct HD as [(c & E & <-)|(r' & r'' & E)].
    + injection E as <-. right. exists r. eexists. reflexivity.
    + injection E as -> _. destruct H as [H|[H|(? & ? & H)]]; discriminate H.
  - split; [exact SF|]. intros y HF. destruct (FL y HF) as [NS HD]. exfalso. apply NS. exists k. reflexivity.
  - split; [apply single_snoc; [exact SF|noflight H]|]. intros y HF. apply flying_snoc in HF as [[HF HE]|(w' & u' & E)]; [|discriminate E].
    destruct (FL y HF) as [NS HD]. split; [notsend|]. destruct HD as [HD|(r' & r'' & E)]; [now left|]. injection E as <- <- _. now contradiction (HE r).
  - split; [apply single_snoc; [exact SF|noflight H]|]. intros y HF. apply flying_snoc in HF as [[HF HE]|(w' & u' & E)]; [|discriminate E].
    destruct (FL y HF) as [NS HD]. split; [notsend|]. destruct HD as [HD|(r' & r'' & E)]; [now left|]. injection E as <- <- _. now contradiction (HE r).
  - split; [apply single_snoc; [exact SF|noflight H]|]. intros y HF. apply flying_snoc in HF as [[HF HE]|(w' & u' & E)]; [|discriminate E].
    destruct (FL y HF) as [NS HD]. split; [notsend|]. destruct HD as [HD|(r' & r'' & E)]; [now left|]. injection E as <- <- _. now contradiction (HE r).
  - split; [apply single_snoc; [exact SF|noflight H]|]. intros y HF. apply flying_snoc in HF as [[HF HE]|(w' & u' & E)]; [|discriminate E].
    destruct (FL y HF) as [NS HD]. split; [notsend|]. destruct HD as [HD|(r' & r'' & E)]; [now left|]. injection E as <- <- _. now contradiction (HE r).
  - split; [apply single_snoc; [exact SF|noflight H]|]. intros y HF. apply flying_snoc in HF as [[HF HE]|(w' & u' & E)]; [|discriminate E].
    destruct (FL y HF) as [NS HD]. split; [notsend|]. destruct HD as [HD|(r' & r'' & E)]; [now left|]. discriminate E.
Qed.

(** ** Order *)
Lemma sub_refl {A} (l : list A) : Subseq l l. Proof. induction l; constructor; assumption. Qed.
Lemma sub_trans {A} (a b c : list A) : Subseq a b -> Subseq b c -> Subseq a c.
Proof.
  intros H1 H2. revert a H1. induction H2 as [l|x l l' _ IH|x l l' _ IH]; intros a H1.
  - inversion H1; constructor.
  - inversion H1; subst; [constructor|apply sub_keep; auto|apply sub_skip; auto].
  - apply sub_skip. auto.
Qed.
Lemma sub_app {A} (a b a' b' : list A) : Subseq a a' -> Subseq b b' -> Subseq (a ++ b) (a' ++ b').
Proof.
  intros H1 H2. induction H1 as [l|x l l' _ IH|x l l' _ IH]; cbn [app].
  - induction l; cbn [app]; [exact H2|now apply sub_skip].
  - now apply sub_keep.
  - now apply sub_skip.
Qed.
Lemma sub_more {A} (a b c : list A) : Subseq a b -> Subseq a (b ++ c).
Proof. intros H. rewrite <- (app_nil_r a). apply sub_app; [exact H|constructor]. Qed.
Lemma sub_drop {A} (a : list A) x b : Subseq (a ++ b) (a ++ x :: b).
Proof. apply sub_app; [apply sub_refl|]. apply sub_skip. apply sub_refl. Qed.
Lemma sent_app a b : sent (a ++ b) = sent a ++ sent b. Proof. apply flat_map_app. Qed.
Definition unsent (k : core) : list cb := match k_sk k with FSend :: _ => map x_cb (opt (k_ac k)) | _ => [] end.
Definition Fifo (k : core) : Prop := Shape k /\ Subseq (sent (k_lg k) ++ unsent k ++ map x_cb (k_pe k)) (pushed (k_lg k)).
Lemma unsent_nil pe ac ba nr nb mx td ti sk lg bs : ~ headed FSend sk -> unsent (mkK pe ac ba nr nb mx td ti sk lg bs) = [].
Proof. intros H. unfold unsent. kg. destruct sk as [|f sk]; [reflexivity|]. destruct f; try reflexivity. exfalso. apply H. eexists. reflexivity. Qed.
Lemma sent_idle es : Forall idle_ev es -> sent es = [] /\ pushed es = [].
Proof. induction 1 as [|e es He _ [IH1 IH2]]; [auto|]. destruct e; cbn in He; try contradiction; auto. Qed.
Lemma site_nosend u c k k' : Site u c k k' -> ~ headed FSend k.
Proof. intros [? ? ? H|]; intros (r & E); subst; [contradiction|discriminate E]. Qed.
Lemma atop_nosend k : atop k -> ~ headed FSend k.
Proof. intros H (r & E). subst. contradiction. Qed.
Lemma neutrals_nosend fs k : neutrals fs -> unders k -> ~ headed FSend (fs ++ k).
Proof. destruct fs as [|f fs]; cbn [app]; [intros _; apply unders_no_send|]. intros [H _] _ (r & E). injection E as -> _. discriminate H. Qed.
Lemma pops_nosend p k : pops p -> (p = [] -> atop k) -> ~ headed FSend (p ++ k).
Proof. destruct p as [|f [|g p]]; cbn [pops app]; [intros _ H; apply atop_nosend; auto| |contradiction]. intros H _ (r & E). injection E as -> _. discriminate H. Qed.
Ltac ns := first [ intros (? & ?E); discriminate
                 | now apply atop_nosend | now apply unders_no_send | eapply site_nosend; eassumption | apply neutrals_nosend; assumption | apply pops_nosend; assumption ].
Lemma fifo_move l k k' : Fifo k -> Move l k k' -> Fifo k'.
Proof.
  intros (HS & HF) HM. assert (HS' : Shape k') by (eapply shape_move; eauto). split; [exact HS'|]. unfold Shape in *.
  destruct HM; kg; cbn [tl] in *.
  - assert (HU : unders k) by (eapply pops_unders; eauto). rewrite unsent_nil in * by ns. rewrite sent_app, pushed_app.
    destruct (sent_idle es) as [-> ->]; [assumption|]. rewrite !app_nil_r. exact HF.
  - rewrite unsent_nil in * by ns. exact HF.
  - rewrite unsent_nil in * by ns. exact HF.
  - rewrite unsent_nil in * by ns. rewrite sent_app, pushed_app. cbn [sent pushed flat_map app]. rewrite app_nil_r, map_app, app_assoc. cbn [map x_cb app] in *.
    apply sub_app; [exact HF|apply sub_refl].
  - rewrite unsent_nil in * by ns. rewrite sent_app, pushed_app. cbn [sent pushed flat_map app]. rewrite app_nil_r. now apply sub_more.
  - rewrite unsent_nil in * by ns. rewrite sent_app, pushed_app. cbn [sent pushed flat_map app]. rewrite !app_nil_r. exact HF.
  - rewrite unsent_nil in * by ns. rewrite sent_app, pushed_app. cbn [sent pushed flat_map app]. rewrite !app_nil_r. exact HF.
  - rewrite unsent_nil in * by ns. exact HF.
  - rewrite unsent_nil in HF by (intros (? & E); injection E as -> _; discriminate H). rewrite unsent_nil by ns.
    cbn [map app] in *. eapply sub_trans; [apply sub_drop|exact HF].
  - rewrite unsent_nil in * by ns. cbn [app] in *. rewrite map_app in *. cbn [map] in HF. rewrite app_assoc in *. eapply sub_trans; [apply sub_drop|exact HF].
  - rewrite unsent_nil in * by ns. exact HF.
  - rewrite unsent_nil in HF by ns. unfold unsent. kg. cbn [opt map app] in *. exact HF.
  - rewrite (unsent_nil pe (Some x)) by ns. unfold unsent in HF. kg. cbn [opt map app] in *. rewrite sent_app, pushed_app. cbn [sent pushed flat_map app].
    rewrite app_nil_r, <- app_assoc. exact HF.
  - rewrite unsent_nil by ns. cbn [app]. destruct f; try (rewrite unsent_nil in HF by ns; exact HF).
    unfold unsent in HF. kg. cbn [opt map app] in *. eapply sub_trans; [apply sub_drop|exact HF].
  - unfold unsent in HF. kg. cbn [opt map app] in HF. rewrite unsent_nil by ns. exact HF.
  - rewrite unsent_nil in * by ns. rewrite sent_app, pushed_app. cbn [sent pushed flat_map app]. rewrite !app_nil_r. exact HF.
  - rewrite unsent_nil in * by ns. rewrite sent_app, pushed_app. cbn [sent pushed flat_map app]. rewrite !app_nil_r. exact HF.
  - rewrite unsent_nil in * by ns. rewrite sent_app, pushed_app. cbn [sent pushed flat_map app]. rewrite !app_nil_r. exact HF.
  - rewrite unsent_nil in * by ns. rewrite sent_app, pushed_app. cbn [sent pushed flat_map app]. rewrite !app_nil_r. exact HF.
  - rewrite unsent_nil in * by ns. rewrite sent_app, pushed_app. cbn [sent pushed flat_map app]. rewrite !app_nil_r. exact HF.
Qed.

(** ** Origin *)
Definition Origin (base : uri) (k : core) : Prop :=
  k_bs k = base /\ Forall (fun x => same_origin (x_uri x) base = true) (opt (k_ac k) ++ k_pe k) /\
  forall w c u, In (ESent w c u) (k_lg k) -> same_origin u base = true.
Lemma in_snoc {A} (x : A) l e : In x (l ++ [e]) -> In x l \/ x = e.
Proof. intros H. apply in_app_or in H as [H|[<-|[]]]; auto. Qed.
Lemma in_idle lg es w c u : Forall idle_ev es -> In (ESent w c u) (lg ++ es) -> In (ESent w c u) lg.
Proof. intros HE H. apply in_app_or in H as [H|H]; [exact H|]. rewrite Forall_forall in HE. now apply HE in H. Qed.
Lemma origin_move base l k k' : Origin base k -> Move l k k' -> Origin base k'.
Proof.
  intros (HB & HA & HL) HM. unfold Origin. destruct HM; kg; subst; (split; [reflexivity|]); split; auto;
    try (intros w' c' u' HI; apply in_snoc in HI as [HI|HI]; [eauto|try discriminate HI]).
  - intros w c u HI. eapply HL. eapply in_idle; eauto.
  - rewrite app_assoc. apply Forall_app. split; [exact HA|]. constructor; [|constructor]. cbn [x_uri].
    match goal with HP : prepare_request _ _ = true |- _ => unfold prepare_request in HP end. destruct (u_host _); [discriminate|assumption].
  - apply Forall_app in HA as [H1 H2]. inversion H2; subst. apply Forall_app. auto.
  - apply Forall_app in HA as [H1 H2]. apply Forall_app in H2 as [H2 H3]. inversion H3; subst. apply Forall_app. split; [exact H1|]. apply Forall_app. auto.
  - injection HI as _ _ ->. cbn [opt app] in HA. inversion HA; subst. assumption.
  - cbn [opt app] in *. now inversion HA.
Qed.

(** ** Bound *)
Definition Bound (M : nat) (k : core) : Prop := k_mx k <= M /\ length (k_pe k) + length (opt (k_ac k)) <= M.
Definition limits (M : nat) (l : label) : Prop := forall n, l = LApi (ASetMax n) -> n <= M.
Lemma bound_move M l k k' : limits M l -> Bound M k -> Move l k k' -> Bound M k'.
Proof.
  intros HQ (H1 & H2) HM. unfold Bound. destruct HM; kg; try (split; [assumption|]); cbn [opt length] in *; rewrite ?app_length in *; cbn [length] in *; auto; try lia.
Qed.

(** ** Timers *)
Definition stays_timed (l : label) : Prop := l <> LApi (ASetTimed false).
Definition Timed (k : core) : Prop :=
  k_td k = true /\ Forall (fun x => In (x_id x) (k_ti k) /\ x_id x < k_nr k) (k_pe k) /\ NoDup (map x_id (k_pe k)).
Lemma remove1_in i j l : In j l -> j <> i -> In j (remove1 i l).
Proof.
  induction l as [|x l IH]; cbn [remove1]; [auto|]. intros [->|H] Hne.
  - destruct (j =? i) eqn:E; [apply Nat.eqb_eq in E; contradiction|now left].
  - destruct (x =? i); [exact H|right; auto].
Qed.
Lemma timed_move l k k' : stays_timed l -> Timed k -> Move l k k' -> Timed k'.
Proof.
  intros HQ (H1 & H2 & H3) HM. unfold Timed. destruct HM; kg; auto.
  - split; [|auto]. destruct td'; [reflexivity|]. now contradiction HQ.
  - subst td. refine (conj eq_refl (conj _ _)).
    + apply Forall_app. split.
      * revert H2. apply Forall_impl. intros x [A B]. split; [apply in_or_app; now left|lia].
      * constructor; [|constructor]. cbn [x_id]. split; [apply in_or_app; right; now left|lia].
    + rewrite map_app. cbn [map x_id].       apply (Permutation_NoDup (l := nr :: map x_id pe)); [apply Permutation_cons_append|]. constructor; [|exact H3].
      intros HI. apply in_map_iff in HI as (x & Ex & Hx). rewrite Forall_forall in H2. destruct (H2 x Hx). lia.
  - inversion H2; subst. cbn [map] in H3. inversion H3; subst. auto.
  - refine (conj H1 (conj _ _)).
    + rewrite map_app in H3. cbn [map] in H3. apply NoDup_remove_2 in H3. rewrite <- map_app in H3.
      assert (H4 : Forall (fun y => In (x_id y) ti /\ x_id y < nr) (a ++ b)).
      { apply Forall_app in H2 as [A B]. inversion B; subst. apply Forall_app. auto. }
      rewrite Forall_forall in *. intros y Hy. destruct (H4 y Hy) as [A B]. split; [|exact B]. apply remove1_in; [exact A|].
      intros E. apply H3. rewrite <- E. apply in_map. exact Hy.
    + rewrite map_app in *. cbn [map] in H3. now apply NoDup_remove_1 in H3.
  - refine (conj H1 (conj _ H3)). rewrite Forall_forall in *. intros y Hy. destruct (H2 y Hy) as [A B]. split; [|exact B].
    apply remove1_in; [exact A|]. match goal with HX : forall x, In x pe -> x_id x <> id |- _ => apply HX; exact Hy end.
  - inversion H2; subst. cbn [map] in H3. inversion H3; subst. auto.
Qed.
