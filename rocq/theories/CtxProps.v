(** Properties of the life of a request context (C61-C66). The code of tasks, hooks, cancel handlers and of the
    finalisation callback is arbitrary (any calls on the context, in any order, nested), as is the number of
    later turns of the event loop in which user code touches the context. *)
From Coq Require Import Sorted.
From Verif Require Import Base CtxModel CtxProofs.
Open Scope N_scope.

(** ** Small specification *)

Definition responses (t : list event) : list N :=
  flat_map (fun e => match e with Responded s => [s] | _ => [] end) t.

(** The request is over: finalised (hooks run), answered or detached. *)
Definition Over (e : event) : Prop := e = Hooked \/ (exists s, e = Responded s) \/ e = Suppressed.

(** Something happens on behalf of the request: a task is run or cancelled, or a cancellation takes effect. *)
Definition Work (e : event) : Prop :=
  (exists k i, e = Executed k i) \/ (exists k i, e = TaskCancelled k i) \/ e = CancelRequested.

(** The last task run in a list of events. *)
Fixpoint last_run (t : list event) (d : option (chain_kind * nat)) : option (chain_kind * nat) :=
  match t with [] => d | Executed k i :: t' => last_run t' (Some (k, i)) | _ :: t' => last_run t' d end.

(** ** From the monitors to the statements *)

Lemma mrun_split a e b m m' : mrun (a ++ e :: b) m = Some m' ->
  exists m1 m2, mrun a m = Some m1 /\ mstep m1 e = Some m2 /\ mrun b m2 = Some m'.
Proof.
  rewrite mrun_app. destruct (mrun a m) as [m1|]; [|discriminate]. cbn [mrun]. destruct (mstep m1 e) as [m2|] eqn:E; [|discriminate].
  intros H. exists m1, m2. auto.
Qed.

Lemma mstep_inv m e m' : mstep m e = Some m' ->
  match e with
  | Made _ => m' = m
  | Executed _ _ => m' = m /\ mc m = false /\ mo m = false
  | CancelRequested => m' = mkMon true (mo m) (mr m) (ms m) (mt m) /\ mc m = false /\ mo m = false
  | TaskCancelled _ _ => m' = mkMon (mc m) (mo m) (mr m) (ms m) true /\ mc m = true /\ mo m = false /\ mt m = false
  | Hooked => m' = mkMon (mc m) true (mr m) (ms m) (mt m) /\ mo m = false
  | Suppressed => m' = mkMon (mc m) true (mr m) true (mt m)
  | Responded _ => m' = mkMon (mc m) (mo m) true (ms m) (mt m) /\ mo m = true /\ mr m = false /\ ms m = false
  end.
Proof.
  destruct e; cbn [mstep].
  - now intros [= <-].
  - destruct (mc m), (mo m); cbn; try discriminate. now intros [= <-].
  - destruct (mc m), (mo m), (mt m); cbn; try discriminate. now intros [= <-].
  - destruct (mc m), (mo m); cbn; try discriminate. now intros [= <-].
  - now intros [= <-].
  - destruct (mo m); [discriminate|]. now intros [= <-].
  - destruct (mo m), (mr m), (ms m); cbn; try discriminate. now intros [= <-].
Qed.

Lemma mstep_mono m e m' : mstep m e = Some m' ->
  (mo m = true -> mo m' = true) /\ (mc m = true -> mc m' = true) /\ (mr m = true -> mr m' = true) /\ (ms m = true -> ms m' = true) /\ (mt m = true -> mt m' = true).
Proof.
  intros E. apply mstep_inv in E. destruct e; [subst|destruct E as [-> E]..|subst|destruct E as [-> E]|destruct E as [-> E]]; cbn; repeat split; auto.
Qed.

Lemma mrun_mono t m m' : mrun t m = Some m' -> (mo m = true -> mo m' = true) /\ (mc m = true -> mc m' = true) /\ (mr m = true -> mr m' = true) /\ (mt m = true -> mt m' = true).
Proof.
  revert m. induction t as [|e t IH]; intros m; cbn [mrun]; [intros [= <-]; auto|]. destruct (mstep m e) as [m1|] eqn:E; [|discriminate].
  intros R. destruct (IH _ R) as (A & B & C & D). destruct (mstep_mono _ _ _ E) as (A' & B' & C' & _ & D'). repeat split; auto.
Qed.

(** An event that no state with property P allows does not happen once P holds. *)
Lemma mrun_never (P : mon -> Prop) (Q : event -> Prop) :
  (forall m e m', P m -> mstep m e = Some m' -> P m' /\ ~ Q e) -> forall t m m', P m -> mrun t m = Some m' -> Forall (fun e => ~ Q e) t.
Proof.
  intros H. induction t as [|e t IH]; intros m m' Hp; cbn [mrun]; [constructor|]. destruct (mstep m e) as [m1|] eqn:E; [|discriminate].
  destruct (H _ _ _ Hp E) as [A B]. intros R. constructor; eauto.
Qed.

Lemma over_no_work t m m' : mo m = true -> mrun t m = Some m' -> Forall (fun e => ~ Work e /\ e <> Hooked) t.
Proof.
  intros Ho Hr. enough (F : Forall (fun e => ~ (Work e \/ e = Hooked)) t) by (eapply Forall_impl; [|exact F]; cbn; tauto).
  revert m m' Ho Hr. apply (mrun_never (fun m => mo m = true)). intros m e m' Ho Hs. split; [now apply (mstep_mono _ _ _ Hs)|].
  intros [[(k & i & ->)|[(k & i & ->)| ->]]| ->]; cbn [mstep] in Hs; rewrite Ho in Hs; try discriminate.
  - rewrite Bool.orb_true_r in Hs. discriminate.
  - rewrite Bool.andb_false_r in Hs. discriminate.
  - rewrite Bool.orb_true_r in Hs. discriminate.
Qed.

Lemma cancel_no_exec t m m' : mc m = true -> mrun t m = Some m' -> Forall (fun e => ~ ((exists k i, e = Executed k i) \/ e = CancelRequested)) t.
Proof.
  revert m m'. apply (mrun_never (fun m => mc m = true)). intros m e m' Ho Hs. split; [now apply (mstep_mono _ _ _ Hs)|].
  intros [(k & i & ->)| ->]; cbn [mstep] in Hs; rewrite Ho in Hs; discriminate.
Qed.

Lemma done_no_response t m m' : mr m = true \/ ms m = true -> mrun t m = Some m' -> Forall (fun e => ~ (exists s, e = Responded s)) t.
Proof.
  revert m m'. apply (mrun_never (fun m => mr m = true \/ ms m = true)). intros m e m' Ho Hs. split.
  - destruct (mstep_mono _ _ _ Hs) as (_ & _ & A & B & _). intuition.
  - intros (s & ->). cbn [mstep] in Hs. destruct Ho as [Ho|Ho]; rewrite Ho in Hs; cbn in Hs; rewrite ?Bool.andb_false_r in Hs; discriminate.
Qed.

Lemma cancelled_once t m m' : mt m = true -> mrun t m = Some m' -> Forall (fun e => ~ (exists k i, e = TaskCancelled k i)) t.
Proof.
  revert m m'. apply (mrun_never (fun m => mt m = true)). intros m e m' Ho Hs. split; [now apply (mstep_mono _ _ _ Hs)|].
  intros (k & i & ->). cbn [mstep] in Hs. rewrite Ho, Bool.andb_false_r in Hs. discriminate.
Qed.

Lemma responses_none t : Forall (fun e => ~ (exists s, e = Responded s)) t -> responses t = [].
Proof. induction 1 as [|e t H F IH]; [reflexivity|]. destruct e; cbn; auto. destruct H. now exists status. Qed.

Lemma responses_app a b : responses (a ++ b) = responses a ++ responses b.
Proof. apply flat_map_app. Qed.

Lemma responses_count t m m' : mrun t m = Some m' -> mr m = false -> length (responses t) = if mr m' then 1%nat else 0%nat.
Proof.
  revert m. induction t as [|e t IH]; intros m; cbn [mrun].
  - intros [= <-] ->. reflexivity.
  - destruct (mstep m e) as [m1|] eqn:E; [|discriminate]. intros R Hf. apply mstep_inv in E.
    assert (S : (exists s, e = Responded s) \/ mr m1 = false /\ responses (e :: t) = responses t).
    { destruct e; [subst|destruct E as [-> E]..|subst|destruct E as [-> E]|destruct E as [-> E]]; auto. left. eauto. }
    destruct S as [(s & ->)|[S1 S2]]; [|rewrite S2; eapply IH; eauto]. destruct E as [-> E].
    cbn [responses flat_map]. assert (N : responses t = []) by (apply responses_none; eapply done_no_response; [|exact R]; left; reflexivity).
    unfold responses in N. rewrite N. cbn. destruct (mrun_mono _ _ _ R) as (_ & _ & X & _). now rewrite X.
Qed.

Lemma suppressed_iff t m m' : mrun t m = Some m' -> ms m' = true -> ms m = true \/ In Suppressed t.
Proof.
  revert m. induction t as [|e t IH]; intros m; cbn [mrun]; [intros [= <-]; auto|]. destruct (mstep m e) as [m1|] eqn:E; [|discriminate].
  intros R Hs. destruct (IH _ R Hs) as [A|A]; [|right; now right]. apply mstep_inv in E.
  destruct e; [subst|destruct E as [-> E]..|subst|destruct E as [-> E]|destruct E as [-> E]]; cbn in A; auto. right. now left.
Qed.

Section Ctx.
Variable route_chain error_chain : list bool.
Variable task_code : chain_kind -> nat -> list ucall -> bool -> Prop.
Variable hook_code callback_code cancel_code : list ucall -> Prop.
Notation Runs := (Runs route_chain error_chain task_code hook_code callback_code cancel_code).
Notation Starts := (Starts route_chain error_chain task_code hook_code callback_code cancel_code).
Notation Routed := (Routed route_chain error_chain task_code hook_code callback_code cancel_code).
Notation Life := (Life route_chain error_chain task_code hook_code callback_code cancel_code).
Notation Destroyed := (Destroyed route_chain error_chain task_code hook_code callback_code cancel_code).

Lemma whole_life t1 t2 c t3 c' : Life t1 t2 c -> Destroyed c t3 c' ->
  exists m m', mrun (t1 ++ t2) mon0 = Some m /\ MR m c /\ MQ mon0 m /\ mrun t3 m = Some m' /\ MR m' c' /\ MQ m m' /\ mrun (t1 ++ t2 ++ t3) mon0 = Some m'.
Proof.
  intros L D. destruct (life_monitor _ _ _ _ _ _ _ _ _ L mon0 fresh_MR) as (m & E & R & Q).
  destruct (destroyed_monitor _ _ _ _ _ _ _ _ _ D m R) as (m' & E' & R' & Q'). exists m, m'.
  repeat (split; [assumption|]). rewrite app_assoc, mrun_app, E. exact E'.
Qed.

Lemma destroyed_final c t c' : Destroyed c t c' -> depth c = 0%nat -> finalised c' = true.
Proof.
  intros [c0 H|c0 t0 c0' H A] Hd; [exact H|]. destruct (runs_seals _ _ _ _ _ _ _ _ _ _ A) as (_ & _ & _ & S).
  inversion A as [| |x S0|x S0 S1|x hs u1 w S0 S1 S2 S3 S4|x hs u1 w cs u2 w2 S0 S1 S2 S3 S4 S5 S6| | | | | | | | | | | | | | | | | | | | | | |]; subst.
  - now apply finalised_iff in S0.
  - lia.
  - destruct (runs_monitor _ _ _ _ _ _ _ _ _ _ S3 (mkMon false true false (negb (callback c0)) false)) as (m' & _ & (R & _) & (Q & _)).
    { unfold MR. cbn. rewrite Bool.negb_involutive. repeat split; auto; intros; congruence. }
    rewrite <- R. now apply Q.
  - destruct (runs_monitor _ _ _ _ _ _ _ _ _ _ S3 (mkMon false true false (negb (callback c0)) false)) as (m' & _ & MR' & (Q & _)).
    { unfold MR. cbn. rewrite Bool.negb_involutive. repeat split; auto; intros; congruence. }
    destruct (runs_monitor _ _ _ _ _ _ _ _ _ _ S6 m' MR') as (m2 & _ & (R & _) & (Q2 & _)).
    rewrite <- R. apply Q2. now apply Q.
Qed.

(** ** C61: one response per request *)

Theorem context_one_response : forall t1 t2 c t3 c', Life t1 t2 c -> Destroyed c t3 c' ->
  let t := t1 ++ t2 ++ t3 in
  (length (responses t) <= 1)%nat
  /\ (depth c = 0%nat -> ~ In Suppressed t -> length (responses t) = 1%nat)
  /\ (forall a b, t = a ++ Suppressed :: b -> responses b = []).
Proof.
  intros t1 t2 c t3 c' L D t. destruct (whole_life _ _ _ _ _ L D) as (m & m' & E & R & Q & E' & R' & Q' & W). fold t in W.
  pose proof (responses_count _ _ _ W eq_refl) as N. split; [|split].
  - rewrite N. destruct (mr m'); lia.
  - intros Hd Hs. rewrite N. assert (Ho : mo m' = true) by (destruct R' as (-> & _); now apply (destroyed_final c t3)).
    assert (Hq : MQ mon0 m') by now apply MQ_trans with m. destruct Hq as (_ & _ & _ & Hq).
    destruct (Hq eq_refl Ho) as [X|X]; [now rewrite X|]. exfalso. apply Hs. destruct (suppressed_iff _ _ _ W X); [discriminate|assumption].
  - intros a b Et. rewrite Et in W. apply mrun_split in W as (m1 & m2 & _ & S & B). cbn in S. injection S as <-.
    apply responses_none. eapply done_no_response; [|exact B]. now right.
Qed.

(** ** C62: nothing happens on behalf of a request that is over, and no task starts after cancellation *)

Theorem context_quiet_after_end : forall t1 t2 c t3 c', Life t1 t2 c -> Destroyed c t3 c' ->
  forall a e b, t1 ++ t2 ++ t3 = a ++ e :: b ->
  (Over e -> forall x, In x b -> ~ Work x /\ x <> Hooked)
  /\ (e = CancelRequested -> forall x, In x b -> x <> CancelRequested /\ forall k i, x <> Executed k i).
Proof.
  intros t1 t2 c t3 c' L D a e b Et. destruct (whole_life _ _ _ _ _ L D) as (m & m' & E & R & Q & E' & R' & Q' & W).
  rewrite Et in W. apply mrun_split in W as (m1 & m2 & A & S & B). split.
  - intros He. assert (Ho : mo m2 = true).
    { destruct He as [->|[(s & ->)| ->]]; cbn [mstep] in S.
      - destruct (mo m1); [discriminate|]. now inversion S.
      - destruct (mo m1) eqn:Eo; [|discriminate]. destruct (true && negb (mr m1) && negb (ms m1)); [|discriminate]. now inversion S.
      - now inversion S. }
    apply Forall_forall. exact (over_no_work _ _ _ Ho B).
  - intros ->. cbn [mstep] in S. destruct (mc m1 || mo m1); [discriminate|]. assert (Hm : mc m2 = true) by now inversion S.
    apply Forall_forall. eapply Forall_impl; [|exact (cancel_no_exec _ _ _ Hm B)]. cbn. intros x Hx. split; [|intros k i]; intros ->; apply Hx; eauto.
Qed.

(** ** C63: ending a request is never lost *)

Theorem context_end_not_lost : forall t1 t2 c, Life t1 t2 c ->
  forall u, In (Made u) (t1 ++ t2) -> ends u = true -> depth c = 0%nat ->
  finalised c = true /\ (~ In Suppressed (t1 ++ t2) -> length (responses (t1 ++ t2)) = 1%nat).
Proof.
  intros t1 t2 c L u Hin Hu Hd. pose proof (life_seals _ _ _ _ _ _ _ _ _ L) as (_ & _ & S & _).
  assert (Hf : finalised c = true) by (destruct (proj2 (S eq_refl) u Hin Hu) as [X|[_ X]]; [exact X|lia]). split; [exact Hf|].
  intros Hs. destruct (life_monitor _ _ _ _ _ _ _ _ _ L mon0 fresh_MR) as (m & E & R & Q).
  rewrite (responses_count _ _ _ E eq_refl). destruct Q as (_ & _ & _ & Hq). destruct R as (R & _). rewrite Hf in R.
  destruct (Hq eq_refl R) as [X|X]; [now rewrite X|]. exfalso. apply Hs. destruct (suppressed_iff _ _ _ E X); [discriminate|assumption].
Qed.

(** ** C64: tasks run in order, each at most once *)

Lemma life_order t1 t2 c : Life t1 t2 c -> execs t1 = [] -> Forall taskless t1 /\ exists k x, k <> ErrorChain /\ orun t2 (k, 0%nat) = Some x.
Proof.
  intros [b s c1 l us c' A B] He. destruct A as [us0 a d1 e d2 A1 A2|us0 a d1 na us' a' d1' e d2 A1 A2 A3].
  - destruct (runs_noexec _ _ _ _ _ _ _ _ _ _ A1 He eq_refl) as [_ F]. split; [exact F|].
    destruct (runs_order _ _ _ _ _ _ _ _ _ _ A1 (NoChain, 0%nat)) as (y & E & Y).
    { cbn. repeat split; auto; try lia; try discriminate; now intros. }
    rewrite taskless_orun in E by exact F. injection E as <-.
    destruct (runs_order _ _ _ _ _ _ _ _ _ _ A2 (NoChain, 0%nat) Y) as (y & E2 & Y2).
    destruct (runs_order _ _ _ _ _ _ _ _ _ _ B y Y2) as (z & E3 & _). exists NoChain, z. split; [discriminate|]. now rewrite orun_app, E2.
  - rewrite execs_app in He. apply app_nil_both in He as [He1 He2].
    destruct (runs_noexec _ _ _ _ _ _ _ _ _ _ A1 He1 eq_refl) as [F1 G1].
    destruct (runs_noexec _ _ _ _ _ _ _ _ _ _ A2 He2) as [F2 G2]; [destruct na; exact F1|].
    split; [now apply Forall_app|]. exists RouteChain. destruct A3 as [d H|d t d' H Hr].
    + destruct (runs_stopped _ _ _ _ _ _ _ _ _ _ B H) as [_ Q]. exists (RouteChain, 0%nat). split; [discriminate|]. now apply taskless_orun.
    + destruct (runs_order _ _ _ _ _ _ _ _ _ _ Hr (RouteChain, 0%nat)) as (y & E2 & Y2).
      { cbn. repeat split; auto; try lia; try discriminate; try congruence. }
      destruct (runs_order _ _ _ _ _ _ _ _ _ _ B y Y2) as (z & E3 & _). exists z. split; [discriminate|]. now rewrite orun_app, E2.
Qed.

Lemma life_tasks t1 t2 c : Life t1 t2 c -> Forall (fun x => nth_error (tasks route_chain error_chain (fst x)) (snd x) = Some true) (execs (t1 ++ t2)).
Proof.
  intros [b s c1 l us c' A B]. rewrite app_assoc, execs_app. apply Forall_app. split; [|now apply runs_tasks in B].
  destruct A as [us0 a d1 e d2 A1 A2|us0 a d1 na us' a' d1' e d2 A1 A2 A3]; rewrite ?execs_app, ?Forall_app.
  - apply runs_tasks in A1, A2. now split.
  - apply runs_tasks in A1, A2. split; [now split|]. destruct A3 as [d H|d t d' H Hr]; [constructor|now apply runs_tasks in Hr].
Qed.

(** If the hooks that run before the route's chain started no task, then the tasks run are tasks of the
    route's chain, in increasing order, then tasks of the error chain, in increasing order. *)
Theorem context_task_order : forall t1 t2 c, Life t1 t2 c -> execs t1 = [] ->
  exists l1 l2, execs t2 = map (fun i => (RouteChain, i)) l1 ++ map (fun i => (ErrorChain, i)) l2
    /\ StronglySorted lt l1 /\ StronglySorted lt l2
    /\ Forall (fun i => nth_error route_chain i = Some true) l1 /\ Forall (fun i => nth_error error_chain i = Some true) l2.
Proof.
  intros t1 t2 c L He. destruct (life_order _ _ _ L He) as (_ & k & x & Hk & Ho). apply order_shape in Ho as (l1 & l2 & A & _ & B & C & D).
  pose proof (life_tasks _ _ _ L) as T. rewrite execs_app, He in T. cbn [app] in T. rewrite A in T. apply Forall_app in T as [T1 T2].
  rewrite Forall_map in T1, T2. cbn in T2. destruct k; [|clear Hk|congruence].
  - assert (E : l1 = []). { destruct l1 as [|i l1]; [reflexivity|]. apply Forall_inv in T1. cbn in T1. destruct i; discriminate. }
    subst l1. exists [], l2. cbn in *. repeat split; auto; constructor.
  - exists l1, l2. cbn in T1. repeat split; auto.
Qed.

(** ** C65: cancelling *)

Lemma orun_split a e b x y : orun (a ++ e :: b) x = Some y -> exists x1 x2, orun a x = Some x1 /\ ostep x1 e = Some x2.
Proof.
  rewrite orun_app. destruct (orun a x) as [x1|]; [|discriminate]. cbn [orun]. destruct (ostep x1 e) as [x2|] eqn:E; [|discriminate]. eauto.
Qed.

Lemma orun_last t k n x : orun t (k, n) = Some x ->
  last_run t None = None /\ x = (k, n) \/ exists i, last_run t None = Some (fst x, i) /\ snd x = S i.
Proof.
  assert (G : forall t k n d x, orun t (k, n) = Some x -> (last_run t d = d /\ x = (k, n)) \/ exists i, last_run t d = Some (fst x, i) /\ snd x = S i).
  { clear t k n x. induction t as [|e t IH]; intros k n d x; cbn [orun]; [intros [= <-]; left; auto|]. destruct (ostep (k, n) e) as [[k1 n1]|] eqn:E; [|discriminate].
    intros R. destruct e; cbn [ostep last_run] in E |- *; try (injection E as <- <-; now apply IH).
    - assert (X : k1 = k0 /\ n1 = S i) by (destruct (kind_eqb k0 k && (n <=? i)%nat); [injection E as <- <-; auto|]; destruct (kind_eqb k0 ErrorChain && negb (kind_eqb k ErrorChain)); [injection E as <- <-; auto|discriminate]).
      destruct X as [-> ->]. right. destruct (IH _ _ (Some (k0, i)) _ R) as [[A ->]|A]; [exists i; now split|exact A].
    - destruct (kind_eqb k0 k && (S i =? n)%nat); [|discriminate]. injection E as <- <-. now apply IH. }
  intros H. destruct (G _ _ _ None _ H) as [A|A]; auto.
Qed.

(** A task's cancel() is called at most once, only right after cancel() was called on the context, before the
    request is over, and only on the task run last. *)
Theorem context_cancel_target : forall t1 t2 c a k i b, Life t1 t2 c -> execs t1 = [] -> t1 ++ t2 = a ++ TaskCancelled k i :: b ->
  In CancelRequested a /\ (forall e, In e a -> ~ Over e) /\ (forall e, In e (a ++ b) -> forall k' i', e <> TaskCancelled k' i')
  /\ last_run a None = Some (k, i).
Proof.
  intros t1 t2 c a k i b L He Et. destruct (life_monitor _ _ _ _ _ _ _ _ _ L mon0 fresh_MR) as (m & E & R & Q). rewrite Et in E.
  apply mrun_split in E as (m1 & m2 & A & S & B). cbn [mstep] in S. destruct (mc m1) eqn:E1; [|discriminate]. destruct (mo m1) eqn:E2; [discriminate|].
  destruct (mt m1) eqn:E3; [discriminate|]. cbn in S. injection S as <-. split; [|split; [|split]].
  - clear - A E1. revert A E1. generalize mon0 (eq_refl : mc mon0 = false). induction a as [|e a IH]; intros x Hx; cbn [mrun]; [intros [= <-]; congruence|].
    destruct (mstep x e) as [y|] eqn:E; [|discriminate]. intros R Hm. destruct (mc y) eqn:Ey; [left|right; eapply IH; eauto].
    apply mstep_inv in E. destruct e; [subst|destruct E as [-> E]..|subst|destruct E as [-> E]|destruct E as [-> E]]; cbn in Ey; auto; congruence.
  - intros e Hin Ho. apply in_split in Hin as (p & q & ->). apply mrun_split in A as (x1 & x2 & _ & X & Y).
    assert (Hx : mo x2 = true).
    { destruct Ho as [->|[(s & ->)| ->]]; cbn [mstep] in X.
      - destruct (mo x1); [discriminate|]. now inversion X.
      - destruct (mo x1) eqn:Eo; [|discriminate]. destruct (true && negb (mr x1) && negb (ms x1)); [|discriminate]. now inversion X.
      - now inversion X. }
    destruct (mrun_mono _ _ _ Y) as (Z & _). rewrite Z in E2; [discriminate|exact Hx].
  - intros e Hin k' i' ->. apply in_app_iff in Hin as [Hin|Hin].
    + apply in_split in Hin as (p & q & ->). apply mrun_split in A as (x1 & x2 & _ & X & Y). cbn [mstep] in X.
      destruct (mc x1 && negb (mo x1) && negb (mt x1)); [|discriminate]. assert (Hx : mt x2 = true) by now inversion X.
      destruct (mrun_mono _ _ _ Y) as (_ & _ & _ & Z). rewrite Z in E3; [discriminate|exact Hx].
    + assert (F := cancelled_once b _ _ (eq_refl : mt (mkMon true false (mr m1) (ms m1) true) = true) B).
      rewrite Forall_forall in F. apply (F _ Hin). eauto.
  - destruct (life_order _ _ _ L He) as (Ht1 & k0 & x & Hk & Ho).
    assert (Ha : exists a2, a = t1 ++ a2 /\ t2 = a2 ++ TaskCancelled k i :: b).
    { clear - Et Ht1. revert a Et. induction Ht1 as [|e t1 He F IH]; intros a Et; [exists a; auto|]. destruct a as [|e' a].
      - cbn in Et. injection Et as -> _. destruct He.
      - cbn in Et. injection Et as <- Et. destruct (IH a Et) as (a2 & -> & X). exists a2. now split. }
    destruct Ha as (a2 & -> & ->). apply orun_split in Ho as ([k1 n1] & x2 & X & Y). cbn [ostep] in Y.
    destruct (kind_eqb k k1 && (S i =? n1)%nat) eqn:Ek; [|discriminate]. apply andb_prop in Ek as [Ek1 Ek2]. apply kind_eqb_eq in Ek1. apply Nat.eqb_eq in Ek2. subst k1 n1.
    assert (Hl : last_run (t1 ++ a2) None = last_run a2 None).
    { clear - He. induction t1 as [|e t1 IH]; [reflexivity|]. destruct e; cbn in He; try discriminate; exact (IH He). }
    rewrite Hl. apply orun_last in X as [[X1 X2]|(j & X1 & X2)]; cbn in *; [discriminate|]. now injection X2 as <-.
Qed.

End Ctx.

(** ** The limits of C64: a hook that runs before routing and reports an error starts the error chain, and
    then the route's chain is started all the same: tasks of both are active at once. *)

Theorem context_task_order_refuted : exists task_code hook_code callback_code cancel_code t1 t2 c,
  Life [true] [true] task_code hook_code callback_code cancel_code t1 t2 c
  /\ execs (t1 ++ t2) = [(ErrorChain, 0%nat); (RouteChain, 0%nat)].
Proof.
  exists (fun _ _ us b => us = [] /\ b = false), (fun us => us = []), (fun us => us = []), (fun us => us = []).
  exists [Made (UComplete ERROR); Executed ErrorChain 0], [Executed RouteChain 0]. eexists. split; [|reflexivity].
  change [Executed RouteChain 0] with ([Executed RouteChain 0] ++ []). eapply L_life; [|apply R_user_nil].
  change [Made (UComplete ERROR); Executed ErrorChain 0] with ((Made (UComplete ERROR) :: [Executed ErrorChain 0] ++ []) ++ []).
  eapply (Ro_chain _ _ _ _ _ _ [UComplete ERROR] _ _ false []).
  - eapply R_user; [|apply R_user_nil]. apply R_complete_error_chain; [reflexivity|reflexivity|discriminate|].
    match goal with |- Runs _ _ _ _ _ _ Proceed ?C _ _ => apply (R_next_run [true] [true] _ _ _ _ C [] []) end; [reflexivity|reflexivity|split; reflexivity|]. apply R_user_nil.
  - apply R_user_nil.
  - apply S_go; [reflexivity|].
    match goal with |- Runs _ _ _ _ _ _ Proceed ?C _ _ => apply (R_next_run [true] [true] _ _ _ _ C [] []) end; [reflexivity|reflexivity|split; reflexivity|]. apply R_user_nil.
Qed.

(** ** C66: tasks that each finish by one call *)

(** What a task does: it may set the status, then reports a result, or throws. *)
Record outcome := mkOutcome { sets : option N; reports : option result }.
Definition calls (o : outcome) : list ucall :=
  match sets o with Some s => [USetStatus s] | None => [] end ++ match reports o with Some r => [UComplete r] | None => [] end.

(** What must be observed, from task i of a chain on, the status being st. *)
Fixpoint follow (k : chain_kind) (i : nat) (outs : list outcome) (st : N) (on_error : N -> list event) : list event :=
  match outs with
  | [] => [Hooked; Responded st]
  | o :: rest =>
      let st' := match sets o with Some s => s | None => st end in
      Executed k i ::
      match reports o with
      | Some CONTINUE => follow k (S i) rest st' on_error
      | Some COMPLETE | Some CANCELLED => [Hooked; Responded st']
      | Some FATAL => [Hooked; Responded 500]
      | Some ERROR | None => on_error st'
      end
  end.

Definition expected (route errors : list outcome) (st : N) : list event :=
  follow RouteChain 0 route st (fun st' =>
    match errors with [] => [Hooked; Responded 500]
    | _ => follow ErrorChain 0 errors st' (fun _ => [Hooked; Responded 500]) end).

Definition observed (t : list event) : list event := filter (fun e => match e with Made _ => false | _ => true end) t.

Section Simple.
Variable route errors : list outcome.
Definition outs (k : chain_kind) : list outcome := match k with NoChain => [] | RouteChain => route | ErrorChain => errors end.
Definition simple_task (k : chain_kind) (i : nat) (us : list ucall) (throws : bool) : Prop :=
  exists o, nth_error (outs k) i = Some o /\ us = calls o /\ throws = match reports o with None => true | _ => false end.
Definition silent (us : list ucall) : Prop := us = [].
Definition real (l : list outcome) : list bool := map (fun _ => true) l.
Notation SRuns := (Runs (real route) (real errors) simple_task silent silent silent).
Notation SStarts := (Starts (real route) (real errors) simple_task silent silent silent).

Definition Live (k : chain_kind) (c : ctx) : Prop :=
  stopped c = false /\ depth c = 0%nat /\ callback c = true /\ chain c = k /\ error_phase c = kind_eqb k ErrorChain.

Lemma user_nil c t c' : SRuns (User []) c t c' -> t = [] /\ c' = c.
Proof. intros H. inversion H; subst. auto. Qed.

Lemma user_cons u us c t c' : SRuns (User (u :: us)) c t c' -> exists t1 c1 t2, t = Made u :: t1 ++ t2 /\ SRuns (Call u) c t1 c1 /\ SRuns (User us) c1 t2 c'.
Proof. intros H. inversion H; subst. eauto 8. Qed.

Lemma call_status s c t c' : SRuns (Call (USetStatus s)) c t c' -> t = [] /\ c' = set_status s c.
Proof. intros H. inversion H; subst. auto. Qed.

Lemma fin_det c t c' : finalised c = false -> depth c = 0%nat -> callback c = true -> SRuns Finalize c t c' ->
  t = [Hooked; Responded (status c)] /\ finalised c' = true.
Proof.
  intros Hf Hd Hc H. inversion H; subst; try lia.
  - apply finalised_iff in H0. congruence.
  - red in H2. subst hs. apply user_nil in H3 as [-> ->]. cbn in H4. congruence.
  - red in H2. subst hs. apply user_nil in H3 as [-> ->]. red in H5. subst cs. apply user_nil in H6 as [-> ->]. auto.
Qed.

Lemma fin_ex c : finalised c = false -> depth c = 0%nat -> callback c = true -> exists c', SRuns Finalize c [Hooked; Responded (status c)] c' /\ finalised c' = true.
Proof.
  intros Hf Hd Hc. eexists. split.
  - refine (R_fin_respond (real route) (real errors) simple_task silent silent silent c [] [] _ [] [] _ _ Hd eq_refl (R_user_nil _ _ _ _ _ _ _) Hc eq_refl (R_user_nil _ _ _ _ _ _ _)).
    intros E. apply finalised_iff in E. congruence.
  - reflexivity.
Qed.

Lemma tasks_nth k i : nth_error (tasks (real route) (real errors) k) i = option_map (fun _ => true) (nth_error (outs k) i).
Proof. destruct k; cbn; [now destruct i|apply nth_error_map..]. Qed.

(** The three ways a chain ends or goes on, given what errors do. *)
Definition ErrorsDo (k : chain_kind) (on_error : N -> list event) : Prop :=
  forall c, Live k c -> (forall t c', SRuns (Call (UComplete ERROR)) c t c' -> observed t = on_error (status c) /\ finalised c' = true)
    /\ (exists t c', SRuns (Call (UComplete ERROR)) c t c').

Lemma live_same k c d : stopped d = stopped c -> depth d = depth c -> callback d = callback c -> chain d = chain c -> error_phase d = error_phase c ->
  Live k c -> Live k d.
Proof. unfold Live. intros -> -> -> -> ->. auto. Qed.

Lemma observed_app a b : observed (a ++ b) = observed a ++ observed b.
Proof. apply filter_app. Qed.

Ltac onrun p tac := match goal with H : Runs _ _ _ _ _ _ p _ _ _ |- _ => tac H end.

Lemma chain_exact k on_error : k <> NoChain -> ErrorsDo k on_error ->
  forall rest i c, Live k c -> index c = i -> skipn i (outs k) = rest ->
  (forall t c', SRuns Proceed c t c' -> observed t = follow k i rest (status c) on_error /\ finalised c' = true)
  /\ (exists t c', SRuns Proceed c t c').
Proof.
  intros Hk He. induction rest as [|o rest IH]; intros i c HL Hi Hs.
  - pose proof HL as (L1 & L2 & L3 & L4 & L5). pose proof (stopped_false _ L1) as [S1 S2].
    assert (N : nth_error (tasks (real route) (real errors) (chain c)) (index c) = None).
    { rewrite tasks_nth, L4, Hi. replace (nth_error (outs k) i) with (@None outcome); [reflexivity|].
      symmetry. apply nth_error_None. pose proof (skipn_length i (outs k)) as E. rewrite Hs in E. cbn in E. lia. }
    split.
    + intros t c' R. inversion R; subst; try congruence. onrun Finalize ltac:(fun H => apply fin_det in H; [destruct H as [-> F]|auto..]). auto.
    + destruct (fin_ex c S2 L2 L3) as (c' & F & _). eexists _, c'. apply R_next_end; eauto.
  - pose proof HL as (L1 & L2 & L3 & L4 & L5). pose proof (stopped_false _ L1) as [S1 S2].
    assert (No : nth_error (outs k) i = Some o).
    { clear - Hs. revert i Hs. induction (outs k) as [|x l IHl]; intros [|i] Hs; cbn in Hs; try discriminate; [now injection Hs as -> _|cbn; auto]. }
    assert (Hs' : skipn (S i) (outs k) = rest).
    { clear - Hs. revert i Hs. induction (outs k) as [|x l IHl]; intros [|i] Hs; cbn in Hs; try discriminate; [injection Hs as _ ->; reflexivity|exact (IHl i Hs)]. }
    assert (N : nth_error (tasks (real route) (real errors) (chain c)) (index c) = Some true) by (rewrite tasks_nth, L4, Hi, No; reflexivity).
    set (c1 := set_in_flight true c).
    set (c2 := match sets o with Some s => set_status s c1 | None => c1 end).
    set (st := match sets o with Some s => s | None => status c end).
    assert (St : status c2 = st) by (unfold c2, st; destruct (sets o); reflexivity).
    assert (L' : Live k c2) by (unfold c2; destruct (sets o); exact HL).
    assert (Hi2 : index c2 = i) by (unfold c2; destruct (sets o); exact Hi).
    (* the part before the report *)
    assert (Pre : forall us t c', SRuns (User (match sets o with Some s => [USetStatus s] | None => [] end ++ us)) c1 t c' ->
              exists t', observed t = observed t' /\ SRuns (User us) c2 t' c').
    { intros us t c' R. unfold c2. destruct (sets o) as [s|]; cbn [app] in R; [|eauto]. apply user_cons in R as (a & d & b & -> & R1 & R2). apply call_status in R1 as [-> ->].
      exists b. split; [reflexivity|exact R2]. }
    assert (Pre' : forall us t c', SRuns (User us) c2 t c' -> exists t', SRuns (User (match sets o with Some s => [USetStatus s] | None => [] end ++ us)) c1 t' c').
    { intros us t c' R. unfold c2 in R. destruct (sets o) as [s|]; cbn [app]; [|eauto]. eexists. eapply R_user; [apply R_status|exact R]. }
    (* the report *)
    assert (Rep : forall r, reports o = Some r ->
      (forall t c', SRuns (Call (UComplete r)) c2 t c' -> Executed k i :: observed t = follow k i (o :: rest) (status c) on_error /\ finalised c' = true)
      /\ exists t c', SRuns (Call (UComplete r)) c2 t c').
    { intros r Hr. cbn [follow]. fold st. rewrite Hr. pose proof L' as (M1 & M2 & M3 & M4 & M5). pose proof (stopped_false _ M1) as [T1 T2].
      destruct r.
      - destruct (IH (S i) (set_chain (chain c2) (S (index c2)) (set_in_flight false c2))) as [I1 (t0 & c0 & I2)]; [exact L'|cbn; now rewrite Hi2|exact Hs'|].
        cbn [status set_chain set_in_flight] in I1. rewrite St in I1. split.
        + intros t c' R. inversion R; subst; try congruence. onrun Proceed ltac:(fun H => destruct (I1 _ _ H) as [-> F]); auto.
        + exists t0, c0. now apply R_complete_continue.
      - split.
        + intros t c' R. inversion R; subst; try congruence. onrun Finalize ltac:(fun H => apply fin_det in H; [destruct H as [-> F]|auto..]). cbn [observed filter set_in_flight status]. rewrite St. auto.
        + destruct (fin_ex (set_in_flight false c2) T2 M2 M3) as (c' & F & _). eexists _, c'. apply R_complete_complete; eauto.
      - split.
        + intros t c' R. inversion R; subst; try congruence. onrun Finalize ltac:(fun H => apply fin_det in H; [destruct H as [-> F]|auto..]). cbn [observed filter set_in_flight set_cancelled status]. rewrite St. auto.
        + destruct (fin_ex (set_cancelled true (set_in_flight false c2)) T2 M2 M3) as (c' & F & _). eexists _, c'. apply R_complete_cancel; eauto.
      - destruct (He c2 L') as [E1 E2]. split; [|exact E2]. intros t c' R. destruct (E1 _ _ R) as [-> F]. rewrite St. auto.
      - split.
        + intros t c' R. inversion R; subst; try congruence. onrun Finalize ltac:(fun H => apply fin_det in H; [destruct H as [-> F]|auto..]). auto.
        + destruct (fin_ex (set_status 500 (set_in_flight false c2)) T2 M2 M3) as (c' & F & _). eexists _, c'. apply R_complete_fatal; eauto. }
    assert (Thr : reports o = None ->
      (forall t c', SRuns (Call (UComplete ERROR)) (set_in_flight false c2) t c' -> Executed k i :: observed t = follow k i (o :: rest) (status c) on_error /\ finalised c' = true)
      /\ exists t c', SRuns (Call (UComplete ERROR)) (set_in_flight false c2) t c').
    { intros Hr. cbn [follow]. fold st. rewrite Hr. destruct (He (set_in_flight false c2) L') as [E1 E2]. split; [|exact E2].
      intros t c' R. destruct (E1 _ _ R) as [-> F]. cbn [status set_in_flight]. rewrite St. auto. }
    split.
    + intros t c' R. inversion R; subst; try congruence.
      * destruct H1 as (o' & No' & -> & Et). rewrite No in No'. injection No' as <-. destruct (reports o) as [r|] eqn:Er; [|discriminate].
        unfold calls in H2. rewrite Er in H2. destruct (Pre _ _ _ H2) as (t' & E' & R'). apply user_cons in R' as (a & d & b & -> & R1 & R2). apply user_nil in R2 as [-> ->]. rewrite app_nil_r in *.
        destruct (Rep r eq_refl) as [X _]. destruct (X _ _ R1) as [Y F]. split; [|exact F]. rewrite <- Y. cbn [observed filter]. f_equal. exact E'.
      * destruct H1 as (o' & No' & -> & Et). rewrite No in No'. injection No' as <-. destruct (reports o) as [r|] eqn:Er; [discriminate|].
        unfold calls in H2. rewrite Er in H2. destruct (Pre _ _ _ H2) as (t' & E' & R'). apply user_nil in R' as [-> ->]. destruct L' as [L' _]. congruence.
      * destruct H1 as (o' & No' & -> & Et). rewrite No in No'. injection No' as <-. destruct (reports o) as [r|] eqn:Er; [discriminate|].
        unfold calls in H2. rewrite Er in H2. destruct (Pre _ _ _ H2) as (t' & E' & R'). apply user_nil in R' as [-> ->].
        destruct (Thr eq_refl) as [X _]. destruct (X _ _ H4) as [Y F]. split; [|exact F]. rewrite <- Y. cbn [observed filter]. f_equal.
        change (observed (t0 ++ t2) = observed t2). rewrite observed_app, E'. reflexivity.
    + destruct (reports o) as [r|] eqn:Er.
      * destruct (Rep r eq_refl) as [_ (t0 & c0 & R0)]. destruct (Pre' [UComplete r] (Made (UComplete r) :: t0 ++ []) c0) as (t' & R').
        { eapply R_user; [exact R0|apply R_user_nil]. }
        eexists _, c0. eapply R_next_run; eauto. exists o. rewrite L4, Hi. unfold calls. rewrite Er. auto.
      * destruct (Thr eq_refl) as [_ (t0 & c0 & R0)]. destruct (Pre' [] [] c2) as (t' & R'); [apply R_user_nil|].
        eexists _, c0. eapply R_next_throw; eauto; [|now destruct L']. exists o. rewrite L4, Hi. unfold calls. rewrite Er. auto.
Qed.

Lemma errors_error : ErrorsDo ErrorChain (fun _ => [Hooked; Responded 500]).
Proof.
  intros c (L1 & L2 & L3 & L4 & L5). pose proof (stopped_false _ L1) as [S1 S2]. split.
  - intros t c' R. inversion R; subst; try congruence.
    + onrun Finalize ltac:(fun H => apply fin_det in H; [destruct H as [-> F]|auto..]). auto.
    + cbn in L5. congruence.
  - destruct (fin_ex (set_status 500 (set_in_flight false c)) S2 L2 L3) as (c' & F & _). eexists _, c'. apply R_complete_error_end; eauto.
Qed.

Definition after_error (st : N) : list event :=
  match errors with [] => [Hooked; Responded 500] | _ => follow ErrorChain 0 errors st (fun _ => [Hooked; Responded 500]) end.

Lemma errors_route : ErrorsDo RouteChain after_error.
Proof.
  intros c (L1 & L2 & L3 & L4 & L5). cbn in L5. pose proof (stopped_false _ L1) as [S1 S2].
  assert (Hn : real errors = [] <-> errors = []) by (destruct errors; split; cbn; congruence).
  destruct (chain_exact ErrorChain _ ltac:(discriminate) errors_error errors 0%nat (set_chain ErrorChain 0 (set_error_phase true (set_in_flight false c)))) as [X (t0 & c0 & Y)];
    [repeat split; auto|reflexivity|reflexivity|].
  split.
  - intros t c' R. inversion R; subst; try congruence.
    + match goal with H : _ \/ _ |- _ => destruct H as [Ha|Ha] end; [congruence|]. apply Hn in Ha. unfold after_error. rewrite Ha. onrun Finalize ltac:(fun H => apply fin_det in H; [destruct H as [-> F]|auto..]). auto.
    + onrun Proceed ltac:(fun H => destruct (X _ _ H) as [E F]). split; [|exact F]. assert (Ne : errors <> []) by (intros Z; apply Hn in Z; congruence). rewrite E. unfold after_error.
      clear - Ne. destruct errors; [now destruct Ne|reflexivity].
  - assert (Hd : errors = [] \/ errors <> []) by (destruct errors; [now left|now right]). destruct Hd as [Hd|Hd].
    + destruct (fin_ex (set_status 500 (set_in_flight false c)) S2 L2 L3) as (c' & F & _). exists [Hooked; Responded 500], c'.
      apply R_complete_error_end; [exact L1|right; now apply Hn|exact F].
    + exists t0, c0. apply R_complete_error_chain; auto. intros E. now apply Hn in E.
Qed.

(** A request whose tasks each end by one report (or a throw) is processed in exactly one way: the chain is run
    in order up to the first report other than CONTINUE, an error moves on to the error chain (500 if there is
    none, or if it fails too), then the hooks run and the response is sent once. *)
Theorem context_simple_chain : forall st, 
  (forall t c', SStarts (set_status st fresh) t c' -> observed t = expected route errors st /\ finalised c' = true)
  /\ (exists t c', SStarts (set_status st fresh) t c').
Proof.
  intros st. destruct (chain_exact RouteChain after_error ltac:(discriminate) errors_route route 0%nat
    (set_state Running (set_chain RouteChain 0 (set_status st fresh)))) as [X (t0 & c0 & Y)]; [repeat split; auto|reflexivity|reflexivity|].
  split.
  - intros t c' R. inversion R; subst; [discriminate|]. onrun Proceed ltac:(fun H => exact (X _ _ H)).
  - exists t0, c0. apply S_go; [reflexivity|exact Y].
Qed.

End Simple.

(** Examples: middleware sets a status and continues, a handler fails, the error chain answers; nothing after
    the first COMPLETE is run. *)
Example ex_chain : expected [mkOutcome None (Some CONTINUE); mkOutcome None None; mkOutcome None (Some COMPLETE)]
    [mkOutcome (Some 502) (Some COMPLETE); mkOutcome None (Some CONTINUE)] 200
  = [Executed RouteChain 0; Executed RouteChain 1; Executed ErrorChain 0; Hooked; Responded 502].
Proof. reflexivity. Qed.

(** A task that waits, then a cancellation from a later turn: the task is cancelled, 503 is sent, and neither a
    late completion nor the destruction adds anything. *)
Example ex_cancel : exists t c, Life [true; true] [] (fun _ _ us b => us = [] /\ b = false) (fun us => us = []) (fun us => us = []) (fun us => us = []) [] t c
  /\ t = [Executed RouteChain 0; Made UCancel; CancelRequested; TaskCancelled RouteChain 0; Hooked; Responded 503; Made (UComplete CONTINUE)]
  /\ Destroyed [true; true] [] (fun _ _ us b => us = [] /\ b = false) (fun us => us = []) (fun us => us = []) (fun us => us = []) c [] c.
Proof.
  eexists [Executed RouteChain 0; Made UCancel; CancelRequested; TaskCancelled RouteChain 0; Hooked; Responded 503; Made (UComplete CONTINUE)], _.
  split; [|split; [reflexivity|]].
  - change [Executed RouteChain 0; Made UCancel; CancelRequested; TaskCancelled RouteChain 0; Hooked; Responded 503; Made (UComplete CONTINUE)]
      with ([Executed RouteChain 0] ++ (Made UCancel :: [CancelRequested; TaskCancelled RouteChain 0; Hooked; Responded 503] ++ Made (UComplete CONTINUE) :: [] ++ [])).
    eapply L_life.
    + change (@nil event) with (@nil event ++ []). eapply (Ro_chain _ _ _ _ _ _ [] _ _ false []); [apply R_user_nil|apply R_user_nil|].
      apply S_go; [reflexivity|].
      match goal with |- Runs _ _ _ _ _ _ Proceed ?C _ _ => apply (R_next_run [true; true] [] _ _ _ _ C [] []) end; [reflexivity|reflexivity|split; reflexivity|]. apply R_user_nil.
    + eapply (R_user _ _ _ _ _ _ UCancel [UComplete CONTINUE]).
      * match goal with |- Runs _ _ _ _ _ _ (Call UCancel) ?C _ _ =>
          refine (R_cancel_task [true; true] [] _ _ _ _ C [] [] _ [Hooked; Responded 503] _ eq_refl eq_refl eq_refl eq_refl (R_user_nil _ _ _ _ _ _ _) _) end.
        apply R_complete_cancel.
        match goal with |- Runs _ _ _ _ _ _ Finalize ?C _ _ =>
          refine (R_fin_respond [true; true] [] _ _ _ _ C [] [] _ [] [] _ _ eq_refl eq_refl (R_user_nil _ _ _ _ _ _ _) eq_refl eq_refl (R_user_nil _ _ _ _ _ _ _)) end.
        discriminate.
      * eapply R_user; [|apply R_user_nil]. apply R_complete_done; [reflexivity|discriminate].
  - apply D_done. reflexivity.
Qed.

Print Assumptions context_one_response.
Print Assumptions context_quiet_after_end.
Print Assumptions context_end_not_lost.
Print Assumptions context_task_order.
Print Assumptions context_cancel_target.
Print Assumptions context_task_order_refuted.
Print Assumptions context_simple_chain.
