(** Which response goes to which request. *)
From Verif Require Import Base UtilModel CliModel CliSpec CliProofs CliMoves CliInv CliBatch2 CliConn.
Local Open Scope nat_scope.

Lemma sents_app w a b : sents w (a ++ b) = sents w a ++ sents w b. Proof. apply flat_map_app. Qed.
Lemma gots_app w a b : gots w (a ++ b) = gots w a ++ gots w b. Proof. apply flat_map_app. Qed.
Lemma sents1 w e : sents w [e] = match e with ESent v c _ => if v =? w then [c] else [] | _ => [] end.
Proof. unfold sents. cbn [flat_map]. apply app_nil_r. Qed.
Lemma gots1 w e : gots w [e] = match e with EGot v n _ => if v =? w then [n] else [] | _ => [] end.
Proof. unfold gots. cbn [flat_map]. apply app_nil_r. Qed.
Lemma polite_le lg w : Polite lg -> length (gots w lg) <= length (sents w lg).
Proof.
  induction lg as [|e lg IH] using rev_ind; intros H; [cbn; lia|]. rewrite sents_app, gots_app, !app_length, sents1, gots1.
  assert (HP : Polite lg). { intros a v n keep b ->. apply (H a v n keep (b ++ [e])). now rewrite <- app_assoc. }
  specialize (IH HP). destruct e; cbn [length]; try lia.
  destruct (wire =? w) eqn:E; cbn [length app]; [|lia]. apply Nat.eqb_eq in E. subst wire. specialize (H lg w n keep [] eq_refl). lia.
Qed.
Lemma polite_prefix a b : Polite (a ++ b) -> Polite a.
Proof. intros H x w n keep y ->. apply (H x w n keep (y ++ b)). now rewrite <- app_assoc. Qed.
Definition muted (e : ev) : Prop := match e with ESent _ _ _ | EGot _ _ _ => False | _ => True end.
Lemma muted_snoc w lg e : muted e -> sents w (lg ++ [e]) = sents w lg /\ gots w (lg ++ [e]) = gots w lg.
Proof. intros H. rewrite sents_app, gots_app, sents1, gots1. destruct e; cbn in H; try contradiction; rewrite !app_nil_r; auto. Qed.

Definition Jo (cn : option cobj) (cd : bool) (ac : option ctx) (lg : list ev) : Prop :=
  match cn with
  | None => True
  | Some c => cd = true \/ ac <> None ->
      length (sents (c_wire c) lg) <= length (gots (c_wire c) lg) \/
      exists x l, ac = Some x /\ sents (c_wire c) lg = l ++ [x_cb x] /\ length l = length (gots (c_wire c) lg)
  end.
Definition Jsend (cn : option cobj) (lg : list ev) : Prop :=
  match cn with None => True | Some c => c_open c = true /\ length (sents (c_wire c) lg) <= length (gots (c_wire c) lg) end.
Definition Jresp (cn : option cobj) (cd : bool) (ac : option ctx) (lg : list ev) (n : nat) : Prop :=
  (ac = None /\ cd = false) \/
  exists c x l m, cn = Some c /\ ac = Some x /\ sents (c_wire c) lg = l ++ [x_cb x] /\ gots (c_wire c) lg = m ++ [n] /\ length l = length m.
Definition Jk (cn : option cobj) (cd : bool) (ac : option ctx) (lg : list ev) (sk : list frame) : Prop :=
  match sk with
  | FSend :: _ => Jsend cn lg
  | FResponse n _ :: _ => Jresp cn cd ac lg n
  | _ => Jo cn cd ac lg
  end.
(** wires *)
Definition Wires (cn : option cobj) (nw : nat) (lg : list ev) : Prop :=
  0 < nw /\ (forall w, nw <= w -> sents w lg = [] /\ gots w lg = []) /\ sents 0 lg = [] /\
  match cn with None => True | Some c => c_wire c < nw /\ (c_open c = true -> 0 < c_wire c) end.
Definition offf (f : frame) : bool := match f with FConnFailTail | FFailActive _ => true | _ => false end.
Definition Quietly (sk : list frame) (cd : bool) : Prop := existsb offf sk = true -> cd = false.
(** delivered responses *)
Definition Match (lg : list ev) (c : cb) (n : nat) : Prop := exists w i, nth_error (sents w lg) i = Some c /\ nth_error (gots w lg) i = Some n.
Definition Delivered (sk : list frame) (lg : list ev) : Prop :=
  forall c n, In (ECalled c (Remote n)) lg \/ headed (FCall c (Remote n)) sk -> Match lg c n.
Lemma match_more lg es c n : Match lg c n -> Match (lg ++ es) c n.
Proof.
  intros (w & i & H1 & H2). exists w, i. rewrite sents_app, gots_app. split; rewrite nth_error_app1; auto; apply nth_error_Some; congruence.
Qed.
Definition Corr (s : st) : Prop :=
  Jk (s_conn s) (s_connected s) (s_active s) (s_log s) (s_stack s) /\ Wires (s_conn s) (s_next_wire s) (s_log s) /\ Quietly (s_stack s) (s_connected s).

(** *** wires *)
Lemma wires_log cn nw lg e : muted e -> Wires cn nw lg -> Wires cn nw (lg ++ [e]).
Proof.
  intros HE (A & B & C & D). refine (conj A (conj _ (conj _ D))).
  - intros w Hw. destruct (muted_snoc w lg e HE) as [-> ->]. auto.
  - destruct (muted_snoc 0 lg e HE) as [-> _]. auto.
Qed.
Lemma wires_sent c nw lg x u : c_open c = true -> Wires (Some c) nw lg -> Wires (Some c) nw (lg ++ [ESent (c_wire c) x u]).
Proof.
  intros HO (A & B & C & D1 & D2). specialize (D2 HO). refine (conj A (conj _ (conj _ (conj D1 (fun _ => D2))))).
  - intros w Hw. rewrite sents_app, gots_app, sents1, gots1. destruct (B w Hw) as [-> ->]. destruct (c_wire c =? w) eqn:E; [apply Nat.eqb_eq in E; lia|auto].
  - rewrite sents_app, sents1, C. destruct (c_wire c =? 0) eqn:E; [apply Nat.eqb_eq in E; lia|auto].
Qed.
Lemma wires_got c nw lg n keep : Wires (Some c) nw lg -> Wires (Some c) nw (lg ++ [EGot (c_wire c) n keep]).
Proof.
  intros (A & B & C & D1 & D2). refine (conj A (conj _ (conj _ (conj D1 D2)))).
  - intros w Hw. rewrite sents_app, gots_app, sents1, gots1. destruct (B w Hw) as [-> ->]. destruct (c_wire c =? w) eqn:E; [apply Nat.eqb_eq in E; lia|auto].
  - rewrite sents_app, sents1, C. reflexivity.
Qed.
Lemma wires_none cn nw lg : Wires cn nw lg -> Wires None nw lg.
Proof. intros (A & B & C & D). exact (conj A (conj B (conj C I))). Qed.
Lemma wires_fresh cn nw lg id at_ : Wires cn nw lg -> Wires (Some (mkC id 0 false at_)) nw lg.
Proof. intros (A & B & C & D). refine (conj A (conj B (conj C _))). cbn [c_wire c_open]. split; [exact A|discriminate]. Qed.
Lemma wires_same c nw lg id o at_ : (o = true -> c_open c = true) -> Wires (Some c) nw lg -> Wires (Some (mkC id (c_wire c) o at_)) nw lg.
Proof. intros HO (A & B & C & D1 & D2). refine (conj A (conj B (conj C _))). cbn [c_wire c_open]. split; [exact D1|auto]. Qed.
Lemma wires_new cn nw lg id at_ : Wires cn nw lg -> Wires (Some (mkC id nw true at_)) (S nw) lg.
Proof. intros (A & B & C & D). refine (conj _ (conj _ (conj C _))); [lia|intros w Hw; apply B; lia|]. cbn [c_wire c_open]. split; [lia|auto]. Qed.
(** *** the matching *)
Lemma jo_log cn cd ac lg e : muted e -> Jo cn cd ac lg -> Jo cn cd ac (lg ++ [e]).
Proof. intros HE. unfold Jo. destruct cn as [c|]; [|auto]. destruct (muted_snoc (c_wire c) lg e HE) as [-> ->]. auto. Qed.
Lemma jo_off cn lg : Jo cn false None lg.
Proof. unfold Jo. destruct cn; [|exact I]. intros [H|H]; [discriminate|contradiction]. Qed.
Lemma jo_none cd ac lg : Jo None cd ac lg. Proof. exact I. Qed.
Lemma jo_down cn cd ac lg : Jo cn cd ac lg -> Jo cn false ac lg.
Proof. unfold Jo. destruct cn as [c|]; [|auto]. intros H [E|E]; [discriminate|]. apply H. now right. Qed.
Lemma jo_same c cd ac lg id o at_ : Jo (Some c) cd ac lg -> Jo (Some (mkC id (c_wire c) o at_)) cd ac lg.
Proof. exact (fun H => H). Qed.
Lemma jo_fresh cn nw cd ac lg id o at_ : Wires cn nw lg -> Jo (Some (mkC id 0 o at_)) cd ac lg.
Proof. intros (_ & _ & C & _) _. left. cbn [c_wire]. rewrite C. cbn. lia. Qed.
Lemma jo_new cn nw cd ac lg id o at_ : Wires cn nw lg -> Jo (Some (mkC id nw o at_)) cd ac lg.
Proof. intros (_ & B & _) _. left. cbn [c_wire]. destruct (B nw (le_n _)) as [-> _]. cbn. lia. Qed.
Lemma jo_send cn cd lg : Jsend cn lg -> Jo cn cd None lg.
Proof. unfold Jsend, Jo. destruct cn; [|auto]. intros [_ H] _. now left. Qed.
Lemma jsend c lg : Jo (Some c) true None lg -> c_open c = true -> Jsend (Some c) lg.
Proof. intros H HO. split; [exact HO|]. destruct H as [H|(x & l & E & _)]; [now left|exact H|discriminate E]. Qed.
Lemma jo_sent c cd x lg u : Polite lg -> Jsend (Some c) lg -> Jo (Some c) cd (Some x) (lg ++ [ESent (c_wire c) (x_cb x) u]).
Proof.
  intros HP [_ H] _. right. exists x, (sents (c_wire c) lg). pose proof (polite_le lg (c_wire c) HP).
  rewrite sents_app, gots_app, sents1, gots1, Nat.eqb_refl, app_nil_r. refine (conj eq_refl (conj eq_refl _)). lia.
Qed.
Lemma jresp c cd ac lg n keep : Polite (lg ++ [EGot (c_wire c) n keep]) -> Jo (Some c) cd ac lg -> Jresp (Some c) cd ac (lg ++ [EGot (c_wire c) n keep]) n.
Proof.
  intros HP HJ. unfold Jresp. specialize (HP lg (c_wire c) n keep [] eq_refl).
  destruct ac as [x|]; [|destruct cd; [|now left]].
  - destruct HJ as [HJ|(y & l & E & HS & HL)]; [right; discriminate|lia|]. injection E as <-. right. exists c, x, l, (gots (c_wire c) lg).
    rewrite sents_app, gots_app, sents1, gots1, Nat.eqb_refl, app_nil_r. auto.
  - destruct HJ as [HJ|(y & l & E & _)]; [now left|lia|discriminate E].
Qed.
Lemma jresp_conn c cd ac lg n id o at_ : Jresp (Some c) cd ac lg n -> Jresp (Some (mkC id (c_wire c) o at_)) cd ac lg n.
Proof.
  intros [H|(d & x & l & m & E & H)]; [now left|]. injection E as <-. right. exists (mkC id (c_wire c) o at_), x, l, m. auto.
Qed.
Lemma jresp_done cn cd x lg n : Jresp cn cd (Some x) lg n -> Jo cn cd None lg /\ Match lg (x_cb x) n.
Proof.
  intros [[H _]|(c & y & l & m & -> & E & HS & HG & HL)]; [discriminate H|]. injection E as <-. split.
  - intros _. left. rewrite HS, HG, !app_length. cbn. lia.
  - exists (c_wire c), (length l). rewrite HS, HG. split; [|rewrite HL]; now rewrite nth_error_app2, Nat.sub_diag by lia.
Qed.
Lemma jresp_none cn cd lg n : Jresp cn cd None lg n -> Jo cn cd None lg.
Proof. intros [[_ ->]|(c & y & l & m & _ & E & _)]; [apply jo_off|discriminate E]. Qed.

(** *** one step *)
Definition plainhead (sk : list frame) : Prop := match sk with FSend :: _ | FResponse _ _ :: _ => False | _ => True end.
Lemma jk_plain cn cd ac lg sk : plainhead sk -> Jo cn cd ac lg -> Jk cn cd ac lg sk.
Proof. destruct sk as [|[] sk]; cbn [plainhead Jk]; tauto. Qed.
Lemma plain_jk cn cd ac lg sk : plainhead sk -> Jk cn cd ac lg sk -> Jo cn cd ac lg.
Proof. destruct sk as [|[] sk]; cbn [plainhead Jk]; tauto. Qed.
Lemma unders_plain k : unders k -> plainhead k.
Proof. intros H. destruct k as [|f k]; [exact I|]. inversion H as [|? ? HF _]; subst. destruct f; try exact I; discriminate HF. Qed.
Lemma atop_plainhead k : atop k -> plainhead k.
Proof. destruct k as [|[] k]; cbn; tauto. Qed.
Ltac wir := repeat first [ assumption | apply wires_log; [exact I|] | eapply wires_fresh; eassumption | eapply wires_new; eassumption
                         | apply wires_same; [try reflexivity; try discriminate; auto|] | eapply wires_none; eassumption ].
Ltac joo := repeat first [ exact I | assumption | apply jo_log; [exact I|] | apply jo_off | eapply jo_fresh; eassumption | eapply jo_new; eassumption
                        | apply jo_same | eapply jo_down; eassumption ].
Ltac brk1 := match goal with |- context [match ?x with _ => _ end] => let E := fresh "HB" in destruct x eqn:E; sv E end.
Ltac clean := repeat match goal with
  | H : s_conn _ = _ |- _ => progress sv H
  | H : c_open _ = _ |- _ => progress sv H
  | H : s_connected _ = _ |- _ => progress sv H
  | H : s_connecting _ = _ |- _ => progress sv H
  | H : Some _ = Some _ |- _ => injection H as H
  | H : None = Some _ |- _ => discriminate H
  | H : Some _ = None |- _ => discriminate H
  end; subst.
Ltac explode1 := repeat (brk1; sg); clean.
Ltac qui HQ := unfold Quietly in *; cbn [existsb offf orb] in *; try assumption; intros; try reflexivity; try (apply HQ; first [reflexivity|assumption]).
Lemma corr_api s a : Corr s -> atop (s_stack s) -> Corr (api s a).
Proof.
  intros (HJ & HW & HQ) HT. pose proof (plain_jk _ _ _ _ _ (atop_plainhead _ HT) HJ) as HO. clear HJ. revert HO HW HQ HT. ds s. sg. intros HO HW HQ HT.
  assert (HP : forall cn cd ac lg, Jo cn cd ac lg -> Jk cn cd ac lg sk) by (intros; apply jk_plain; [now apply atop_plainhead|assumption]).
  destruct a; unf; sg; cbn zeta; sg; explode1; unfold Corr; sg; cbn [Jk]; (refine (conj _ (conj _ _)); [try apply HP; joo|wir|qui HQ]).
Qed.
Lemma open_some s : is_open s = true -> exists c, s_conn s = Some c /\ c_open c = true.
Proof. unfold is_open. destruct (s_conn s) as [c|]; [eauto|discriminate]. Qed.
Lemma corr_exec s f k ch : Corr s -> s_stack s = f :: k -> unders k -> later s (LRun ch) ->
  Polite (s_log (exec (set_stack s k) f ch)) -> Corr (exec (set_stack s k) f ch).
Proof.
  intros (HJ & HW & HQ) HK HU HL HP. assert (HPk : forall cn cd ac lg, Jo cn cd ac lg -> Jk cn cd ac lg k) by (intros; apply jk_plain; [now apply unders_plain|assumption]).
  rewrite HK in HJ, HQ. unfold later in HL. rewrite HK in HL. revert HJ HW HQ HP HL. clear HK. ds s. sg. intros HJ HW HQ HP HL.
  destruct f; cbn [Jk] in HJ; unf; sg; cbn zeta; sg; explode1; unfold Corr; sg; cbn [Jk]; (refine (conj _ (conj _ _)); [try apply HPk; joo|wir|qui HQ]).
  all: try solve [now apply jo_send
    | exfalso; now apply (HL eq_refl k)
    | pose proof (HQ eq_refl); subst; apply jo_off
    | apply (jresp_done _ _ _ _ _ HJ) | apply (jresp_none _ _ _ _ HJ)].
  - apply orb_false_iff in HB1 as [H1 H2]. apply negb_false_iff in H1, H2. destruct cn as [c1|]; [|discriminate H2]. subst cd. now apply jsend.
  - apply jo_sent; [|exact HJ]. apply polite_prefix in HP. exact HP.
  - apply wires_sent; [apply HJ|exact HW].
Qed.
Lemma corr_io s e s' : Corr s -> s_stack s = [] -> io s e = Some s' -> e <> ITimeout -> Polite (s_log s') -> Corr s'.
Proof.
  intros (HJ & HW & HQ) HK. rewrite HK in HJ, HQ. cbn [Jk] in HJ. revert HJ HW HQ HK. ds s. sg. intros HJ HW HQ HK. subst sk.
  destruct e; unfold io; unf; sg; cbn zeta; sg; explode1; intros HE HN HP; try discriminate HE; try (injection HE as <-); sv HP; unfold Corr; sg; cbn [Jk];
    (refine (conj _ (conj _ _)); [joo|wir|qui HQ]).
  - discriminate.
  - now apply jresp.
  - now apply wires_got.
  - now contradiction HN.
  - apply jresp_conn. now apply jresp.
  - now apply wires_got.
Qed.
Lemma delivered_move l k k' cn cd : Jk cn cd (k_ac k) (k_lg k) (k_sk k) -> Shape k -> Delivered (k_sk k) (k_lg k) -> Move l k k' -> Delivered (k_sk k') (k_lg k').
Proof.
  intros HJ HS HD HM. assert (HS' : Shape k') by (eapply shape_move; eauto). unfold Shape in *. destruct HM; kg; cbn [tl] in *.
  - intros c n [HI|HH].
    + apply match_more. apply HD. left. apply in_app_or in HI as [HI|HI]; [exact HI|]. rewrite Forall_forall in *. match goal with HE : forall x, In x es -> _ |- _ => apply HE in HI end. contradiction HI.
    + exfalso. destruct fs as [|f fs]; cbn [app] in HH.
      * assert (HU : unders k) by (eapply pops_unders; eauto). eapply unders_no_call; eauto.
      * destruct H0 as [H0 _]. destruct HH as (r & E). injection E as -> _. discriminate H0.
  - exact HD.
  - exact HD.
  - intros c' n [HI|(r & E)]; [|discriminate E]. apply in_snoc in HI as [HI|HI]; [|discriminate HI]. apply match_more. apply HD. now left.
  - intros c' m [HI|(r & E)]; [|discriminate E]. apply in_snoc in HI as [HI|HI]; [|discriminate HI]. apply match_more. apply HD. now left.
  - intros c' m [HI|(r & E)]; [|discriminate E]. apply in_snoc in HI as [HI|HI]; [|discriminate HI]. apply match_more. apply HD. now left.
  - intros c' m [HI|(r & E)]; [|discriminate E]. apply in_snoc in HI as [HI|HI]; [|discriminate HI]. apply match_more. apply HD. now left.
  - intros c' m [HI|HH]; [apply HD; now left|exfalso; eapply unders_no_call; [|exact HH]; assumption].
  - intros c' m [HI|(r & E)]; [apply HD; now left|discriminate E].
  - intros c' m [HI|(r & E)]; [apply HD; now left|discriminate E].
  - exact HD.
  - intros c' m [HI|(r & E)]; [apply HD; now left|discriminate E].
  - intros c' m [HI|HH]; [|exfalso; eapply unders_no_call; [|exact HH]; assumption]. apply in_snoc in HI as [HI|HI]; [|discriminate HI]. apply match_more. apply HD. now left.
  - intros c' m [HI|(r' & E)]; [apply HD; now left|]. injection E as <- -> _. destruct (H1 m eq_refl) as (keep & ->). cbn [Jk] in HJ.
    now apply jresp_done in HJ.
  - intros c' m [HI|HH]; [apply HD; now left|exfalso; eapply unders_no_call; [|exact HH]; assumption].
  - intros c' m [HI|(r' & E)]; [|discriminate E]. apply match_more. apply HD. apply in_snoc in HI as [HI|HI]; [now left|]. injection HI as -> <-. right. eexists. reflexivity.
  - intros c' m [HI|HH]; [|exfalso; eapply unders_no_call; [|exact HH]; assumption]. apply match_more. apply HD. apply in_snoc in HI as [HI|HI]; [now left|]. injection HI as -> <-. right. eexists. reflexivity.
  - intros c' m [HI|HH]; [|exfalso; eapply unders_no_call; [|exact HH]; assumption]. apply match_more. apply HD. apply in_snoc in HI as [HI|HI]; [now left|]. injection HI as -> <-. right. eexists. reflexivity.
  - intros c' m [HI|(r' & E)]; [|discriminate E]. apply match_more. apply HD. apply in_snoc in HI as [HI|HI]; [now left|]. injection HI as -> <-. right. eexists. reflexivity.
  - intros c' m [HI|(r' & E)]; [|discriminate E]. apply in_snoc in HI as [HI|HI]; [|discriminate HI]. apply match_more. apply HD. now left.
Qed.
Definition patient (s : st) (l : label) : Prop := l <> LIo ITimeout /\ later s l.
Lemma step_log s l s' : step s l = Some s' -> exists es, s_log s' = s_log s ++ es.
Proof.
  intros E. apply move_step in E. change (s_log s) with (k_lg (core_of s)). change (s_log s') with (k_lg (core_of s')). destruct E; kg; eauto; exists []; now rewrite app_nil_r.
Qed.
Lemma run_log ls : forall s s', run s ls = Some s' -> exists es, s_log s' = s_log s ++ es.
Proof.
  induction ls as [|l ls IH]; cbn [run]; intros s s' H; [injection H as <-; exists []; now rewrite app_nil_r|].
  destruct (step s l) as [s1|] eqn:E; [|discriminate H]. apply IH in H as (es & ->). apply step_log in E as (es' & ->). exists (es' ++ es). now rewrite app_assoc.
Qed.
Definition CorrInv (s : st) : Prop := Corr s /\ Shape (core_of s) /\ Delivered (s_stack s) (s_log s).
Lemma corr_step s l s' : CorrInv s -> patient s l -> step s l = Some s' -> Polite (s_log s') -> CorrInv s'.
Proof.
  intros (HC & HS & HD) (HN & HL) E HP. pose proof (move_step _ _ _ E) as HM. refine (conj _ (conj (shape_move _ _ _ HS HM) _)).
  - unfold Shape, core_of in HS. cbn [k_sk] in HS. unfold step in E. destruct l as [a| |ch|e].
    + destruct (s_stack s) as [|f k] eqn:EK; [injection E as <-; apply corr_api; [exact HC|rewrite EK; exact I]|].
      destruct f; try discriminate E. injection E as <-. apply corr_api; [exact HC|rewrite EK; exact I].
    + destruct (s_stack s) as [|f k] eqn:EK; [discriminate E|]. destruct f; try discriminate E. injection E as <-. cbn [tl] in HS.
      destruct HC as (HJ & HW & HQ). rewrite EK in HJ, HQ. cbn [Jk] in HJ. unfold Corr. sg. refine (conj _ (conj HW _)); [|exact HQ].
      apply jk_plain; [now apply unders_plain|exact HJ].
    + destruct (s_stack s) as [|f k] eqn:EK; [discriminate E|]. cbn [tl] in HS.
      assert (E' : Some (exec (set_stack s k) f ch) = Some s') by (destruct f; auto; discriminate E). injection E' as <-. now apply corr_exec.
    + destruct (s_stack s) as [|f k] eqn:EK; [|discriminate E]. eapply corr_io; eauto. congruence.
  - exact (delivered_move l (core_of s) (core_of s') (s_conn s) (s_connected s) (proj1 HC) HS HD HM).
Qed.
Lemma corr_reach base ls s : reaches base ls s -> obeys patient (init base) ls -> Polite (s_log s) -> CorrInv s.
Proof.
  unfold reaches. assert (H0 : CorrInv (init base)).
  { refine (conj (conj _ (conj _ _)) (conj _ _)).
    - intros _. left. cbn. lia.
    - refine (conj _ (conj _ (conj eq_refl _))); cbn [init s_next_wire s_conn c_wire c_open]; [lia|auto|split; [lia|discriminate]].
    - intros HX. discriminate HX.
    - constructor.
    - intros c n [[]|(r & E)]. discriminate E. }
  revert H0. generalize (init base). induction ls as [|l ls IH]; cbn [run obeys]; intros s0 H0 H HO HP; [congruence|].
  destruct HO as [HQ HO]. destruct (step s0 l) as [s1|] eqn:E; [|discriminate H]. apply (IH s1); auto. eapply corr_step; eauto.
  apply run_log in H as (es & HE). rewrite HE in HP. now apply polite_prefix in HP.
Qed.
