(** Every step of the client is one of a few moves on the part of the state that matters for requests. *)
From Coq Require Import Permutation.
From Verif Require Import Base UtilModel CliModel CliSpec CliProofs.
Local Open Scope nat_scope.

Record core := mkK { k_pe : list ctx; k_ac : option ctx; k_ba : list (nat * batch); k_nr : nat; k_nb : nat; k_mx : nat; k_td : bool;
                     k_ti : list nat; k_sk : list frame; k_lg : list ev; k_bs : uri }.
Definition core_of (s : st) : core :=
  mkK (s_pending s) (s_active s) (s_batches s) (s_next_req s) (s_next_batch s) (s_max s) (s_timed s) (s_timers s) (s_stack s) (s_log s) (s_base s).

(** frames that may lie under the top and mean nothing for requests, and such that stay on top *)
Definition low (f : frame) : bool :=
  match f with
  | FUser | FScope | FProcess | FAfterSend | FFailActive _ | FFailAll _ | FClose | FReset | FConnCbs _ _ | FConnOkTail | FConnFailTail
  | FRespTail _ | FDisc1 | FDisc2 | FIn _ _ => true
  | _ => false
  end.
Definition neutral (f : frame) : bool := low f || match f with FConnCall _ _ | FAttempt | FResponse _ _ => true | _ => false end.
Definition lows (fs : list frame) : Prop := Forall (fun f => low f = true) fs.
Definition neutrals (fs : list frame) : Prop := match fs with [] => True | f :: r => neutral f = true /\ lows r end.
Definition pops (p : list frame) : Prop := match p with [] => True | [f] => neutral f = true | _ => False end.
(** control is with the user or the loop *)
Definition atop (k : list frame) : Prop := match k with [] => True | FUser :: _ => True | _ => False end.
Definition idle_ev (e : ev) : Prop :=
  match e with EGot _ _ _ | EConnAsked _ | EConnCalled _ _ | EOpened _ | ETimedOut _ | EDestroyed _ => True | _ => False end.
(** where push_request is called from: the user, or the loop of push_requests *)
Inductive Site : uri -> cb -> list frame -> list frame -> Prop :=
| site_user u t k : atop k -> Site u (CbUser t) k k
| site_batch u us bid i k : Site u (CbBatch bid i) (FBatchPush bid i (u :: us) :: k) (FBatchPush bid (S i) us :: k).

Inductive Move (l : label) : core -> core -> Prop :=
| mv_neutral pe ac ba nr nb mx td ti lg bs p fs k es : pops p -> neutrals fs -> (p = [] -> atop k) -> Forall idle_ev es ->
    Move l (mkK pe ac ba nr nb mx td ti (p ++ k) lg bs) (mkK pe ac ba nr nb mx td ti (fs ++ k) (lg ++ es) bs)
| mv_max pe ac ba nr nb mx mx' td ti k lg bs : atop k -> l = LApi (ASetMax mx') -> Move l (mkK pe ac ba nr nb mx td ti k lg bs) (mkK pe ac ba nr nb mx' td ti k lg bs)
| mv_timed pe ac ba nr nb mx td td' ti k lg bs : atop k -> l = LApi (ASetTimed td') -> Move l (mkK pe ac ba nr nb mx td ti k lg bs) (mkK pe ac ba nr nb mx td' ti k lg bs)
| mv_enqueue pe ac ba nr nb mx td ti k k' lg bs u c : Site u c k k' -> prepare_request bs u = true -> length pe + length (opt ac) < mx ->
    Move l (mkK pe ac ba nr nb mx td ti k lg bs)
         (mkK (pe ++ [mkCtx nr (ensure_absolute_uri bs u) c]) ac ba (S nr) nb mx td (if td then ti ++ [nr] else ti) (FProcess :: k')
              (lg ++ [EPushed c]) bs)
| mv_refuse pe ac ba nr nb mx td ti k k' lg bs u c n : Site u c k k' -> (n = 400 /\ prepare_request bs u = false \/ n = 503 /\ mx <= length pe + length (opt ac)) ->
    Move l (mkK pe ac ba nr nb mx td ti k lg bs) (mkK pe ac ba nr nb mx td ti (FCall c (Local n) :: FScope :: k') (lg ++ [EPushed c]) bs)
| mv_batch_new pe ac ba nr nb mx td ti k lg bs tok us : atop k -> us <> [] ->
    Move l (mkK pe ac ba nr nb mx td ti k lg bs)
         (mkK pe ac (ba ++ [(nb, mkBatch tok (repeat None (length us)) 0)]) nr (S nb) mx td ti (FBatchPush nb 0 us :: k) (lg ++ [EBatch tok nb (length us)]) bs)
| mv_batch_empty pe ac ba nr nb mx td ti k lg bs tok : atop k ->
    Move l (mkK pe ac ba nr nb mx td ti k lg bs) (mkK pe ac ba nr nb mx td ti (FBatchCall tok 0 [] :: FScope :: k) (lg ++ [EBatch tok 0 0]) bs)
| mv_batch_end pe ac ba nr nb mx td ti k lg bs bid i :
    Move l (mkK pe ac ba nr nb mx td ti (FBatchPush bid i [] :: k) lg bs) (mkK pe ac ba nr nb mx td ti k lg bs)
| mv_take pe ac ba nr nb mx td ti lg bs f fs k x n : low f = true -> lows fs ->
    Move l (mkK (x :: pe) ac ba nr nb mx td ti (f :: k) lg bs) (mkK pe ac ba nr nb mx td ti (FCall (x_cb x) (Local n) :: fs ++ k) lg bs)
| mv_expire a x b ac ba nr nb mx td ti lg bs fs : lows fs -> In (x_id x) ti ->
    Move l (mkK (a ++ x :: b) ac ba nr nb mx td ti [] lg bs)
         (mkK (a ++ b) ac ba nr nb mx td (remove1 (x_id x) ti) (FCall (x_cb x) (Local 408) :: fs) lg bs)
| mv_expired pe ac ba nr nb mx td ti lg bs id : Forall (fun x => x_id x <> id) pe ->
    Move l (mkK pe ac ba nr nb mx td ti [] lg bs) (mkK pe ac ba nr nb mx td (remove1 id ti) [] lg bs)
| mv_activate pe ba nr nb mx td ti lg bs k x :
    Move l (mkK (x :: pe) None ba nr nb mx td ti (FProcess :: k) lg bs) (mkK pe (Some x) ba nr nb mx td ti (FSend :: FAfterSend :: k) lg bs)
| mv_sent pe ba nr nb mx td ti lg bs k x w :
    Move l (mkK pe (Some x) ba nr nb mx td ti (FSend :: k) lg bs) (mkK pe (Some x) ba nr nb mx td ti k (lg ++ [ESent w (x_cb x) (x_uri x)]) bs)
| mv_answer pe ba nr nb mx td ti lg bs f fs k x r : f = FSend \/ low f = true \/ (exists n keep, f = FResponse n keep) -> lows fs ->
    (forall n, r = Remote n -> exists keep, f = FResponse n keep) ->
    Move l (mkK pe (Some x) ba nr nb mx td ti (f :: k) lg bs) (mkK pe None ba nr nb mx td ti (FCall (x_cb x) r :: fs ++ k) lg bs)
| mv_nosend pe ba nr nb mx td ti lg bs k :
    Move l (mkK pe None ba nr nb mx td ti (FSend :: k) lg bs) (mkK pe None ba nr nb mx td ti k lg bs)
| mv_call_user pe ac ba nr nb mx td ti lg bs k t r :
    Move l (mkK pe ac ba nr nb mx td ti (FCall (CbUser t) r :: k) lg bs) (mkK pe ac ba nr nb mx td ti (FUser :: k) (lg ++ [ECalled (CbUser t) r]) bs)
| mv_call_lost pe ac ba nr nb mx td ti lg bs k bid i r : find (fun e => fst e =? bid) ba = None ->
    Move l (mkK pe ac ba nr nb mx td ti (FCall (CbBatch bid i) r :: k) lg bs) (mkK pe ac ba nr nb mx td ti k (lg ++ [ECalled (CbBatch bid i) r]) bs)
| mv_call_more pe ac ba nr nb mx td ti lg bs k bid i r b0 b : find (fun e => fst e =? bid) ba = Some (b0, b) -> S (b_done b) <> length (b_resps b) ->
    Move l (mkK pe ac ba nr nb mx td ti (FCall (CbBatch bid i) r :: k) lg bs)
         (mkK pe ac (map (fun e => if fst e =? bid then (bid, mkBatch (b_tok b) (upd (b_resps b) i (Some r)) (S (b_done b))) else e) ba) nr nb mx td ti k
              (lg ++ [ECalled (CbBatch bid i) r]) bs)
| mv_call_done pe ac ba nr nb mx td ti lg bs k bid i r b0 b : find (fun e => fst e =? bid) ba = Some (b0, b) -> S (b_done b) = length (b_resps b) ->
    Move l (mkK pe ac ba nr nb mx td ti (FCall (CbBatch bid i) r :: k) lg bs)
         (mkK pe ac (without bid ba) nr nb mx td ti (FBatchCall (b_tok b) bid (upd (b_resps b) i (Some r)) :: FScope :: k)
              (lg ++ [ECalled (CbBatch bid i) r]) bs)
| mv_batchcall pe ac ba nr nb mx td ti lg bs k tok bid rs :
    Move l (mkK pe ac ba nr nb mx td ti (FBatchCall tok bid rs :: k) lg bs) (mkK pe ac ba nr nb mx td ti (FUser :: k) (lg ++ [EBatchCalled tok bid rs]) bs).

Lemma upd_length {A} (l : list A) i v : length (upd l i v) = length l.
Proof. revert i. induction l; destruct i; cbn; auto. Qed.
(** the neutral effects *)
Definition Neu (s s' : st) (fs : list frame) (es : list ev) : Prop :=
  core_of s' = mkK (s_pending s) (s_active s) (s_batches s) (s_next_req s) (s_next_batch s) (s_max s) (s_timed s) (s_timers s) (fs ++ s_stack s) (s_log s ++ es) (s_base s).
Definition neu (s s' : st) : Prop := exists fs es, neutrals fs /\ Forall idle_ev es /\ Neu s s' fs es.
Lemma neu_refl s : neu s s.
Proof. exists [], []. repeat split; auto. unfold Neu. rewrite app_nil_r. reflexivity. Qed.
Lemma core_log s : s_log s ++ [] = s_log s. Proof. apply app_nil_r. Qed.
Lemma neu_frames s s' fs : neutrals fs -> core_of s' = core_of (push s fs) -> neu s s'.
Proof. intros H E. exists fs, []. split; [exact H|]. split; [constructor|]. unfold Neu. rewrite E, app_nil_r. reflexivity. Qed.
Lemma neu_event s s' s0 e : idle_ev e -> core_of s0 = core_of (emit s e) -> neu s0 s' -> neu s s'.
Proof.
  intros HE E (fs & es & H1 & H2 & H3). exists fs, (e :: es). split; [exact H1|]. split; [constructor; auto|].
  unfold Neu in *. rewrite H3. unfold core_of in E. injection E as -> -> -> -> -> -> -> -> -> -> ->. sg. now rewrite <- app_assoc.
Qed.
Lemma neu_core s s0 s' : core_of s0 = core_of s -> neu s0 s' -> neu s s'.
Proof. intros E (fs & es & H1 & H2 & H3). exists fs, es. repeat split; auto. unfold Neu in *. rewrite H3. unfold core_of in E. injection E as -> -> -> -> -> -> -> -> -> -> ->. reflexivity. Qed.

Ltac low := repeat constructor.
Ltac corefl := unfold core_of; sg; reflexivity.
Lemma neu_do_connect s o : neu s (do_connect s o).
Proof.
  unfold do_connect. destruct (s_connected s).
  { destruct o; [|apply neu_refl]. eapply neu_frames with (fs := [FConnCall n true; FScope]); [low|corefl]. }
  destruct (s_connecting s); [destruct o; [eapply neu_frames with (fs := []); [low|corefl]|apply neu_refl]|].
  cbn zeta. match goal with |- context [is_open ?s1] => set (s2 := s1) end.
  apply (neu_core s s2); [subst s2; corefl|]. clearbody s2. unfold start_attempt, create_connection, destroy. destruct (negb (is_open s2)).
  - destruct (s_conn s2) as [c|]; sg.
    + eapply (neu_event s2 _ _ (EDestroyed (c_id c))); [exact I|reflexivity|]. eapply neu_frames with (fs := [FAttempt]); [low|corefl].
    + eapply neu_frames with (fs := [FAttempt]); [low|corefl].
  - destruct (s_conn s2) as [c|]; [|apply neu_refl]. eapply neu_frames with (fs := [FAttempt]); [low|corefl].
Qed.
Lemma neu_create s : neu s (create_connection s) /\ s_stack (create_connection s) = s_stack s.
Proof.
  unfold create_connection, destroy. destruct (s_conn s) as [c|]; sg; split; try reflexivity.
  - eapply (neu_event s _ _ (EDestroyed (c_id c))); [exact I|reflexivity|]. eapply neu_frames with (fs := []); [low|corefl].
  - eapply neu_frames with (fs := []); [low|corefl].
Qed.
Lemma neu_fail_connection s : neu s (fail_connection s).
Proof. eapply neu_frames with (fs := [FConnCbs false (s_ccbs s); FConnFailTail]); [low|corefl]. Qed.
Lemma neu_success s : neu s (connection_success s).
Proof.
  unfold connection_success. destruct (s_conn s) as [c|]; [|apply neu_refl]. sg.
  eapply (neu_event s _ _ (EOpened (s_next_wire s))); [exact I|reflexivity|].
  eapply neu_frames with (fs := [FConnCbs true (s_ccbs s); FConnOkTail]); [low|corefl].
Qed.
Lemma neu_failure s : neu s (connection_failure s).
Proof.
  unfold connection_failure. destruct (s_conn s) as [c|]; [|apply neu_refl]. eapply neu_core; [|apply neu_fail_connection]. corefl.
Qed.

Lemma eta_core s : core_of s = mkK (s_pending s) (s_active s) (s_batches s) (s_next_req s) (s_next_batch s) (s_max s) (s_timed s) (s_timers s) (s_stack s) (s_log s) (s_base s).
Proof. reflexivity. Qed.
(** a neutral frame is executed with a neutral effect *)
Lemma move_pop l s f k s' : s_stack s = f :: k -> neutral f = true -> neu (set_stack s k) s' -> Move l (core_of s) (core_of s').
Proof.
  intros HK HF (fs & es & H1 & H2 & H3). rewrite H3, eta_core, HK. sg.
  apply (mv_neutral _ _ _ _ _ _ _ _ _ _ _ [f] fs k es); [exact HF|exact H1|discriminate|exact H2].
Qed.
Lemma move_top l s s' : atop (s_stack s) -> neu s s' -> Move l (core_of s) (core_of s').
Proof.
  intros HK (fs & es & H1 & H2 & H3). rewrite H3, eta_core.
  apply (mv_neutral _ _ _ _ _ _ _ _ _ _ _ [] fs (s_stack s) es); [exact I|exact H1|auto|exact H2].
Qed.
Lemma core_push s u c k' : core_of (push_request (set_stack s k') u c) =
  if negb (prepare_request (s_base s) u) then
    mkK (s_pending s) (s_active s) (s_batches s) (s_next_req s) (s_next_batch s) (s_max s) (s_timed s) (s_timers s)
        (FCall c (Local 400) :: FScope :: k') (s_log s ++ [EPushed c]) (s_base s)
  else if s_max s <=? length (s_pending s) + (if s_active s then 1 else 0) then
    mkK (s_pending s) (s_active s) (s_batches s) (s_next_req s) (s_next_batch s) (s_max s) (s_timed s) (s_timers s)
        (FCall c (Local 503) :: FScope :: k') (s_log s ++ [EPushed c]) (s_base s)
  else mkK (s_pending s ++ [mkCtx (s_next_req s) (ensure_absolute_uri (s_base s) u) c]) (s_active s) (s_batches s) (S (s_next_req s)) (s_next_batch s)
           (s_max s) (s_timed s) (if s_timed s then s_timers s ++ [s_next_req s] else s_timers s) (FProcess :: k') (s_log s ++ [EPushed c]) (s_base s).
Proof.
  ds s. unfold push_request. sg. destruct (negb _); [reflexivity|]. destruct (_ <=? _); [reflexivity|]. destruct td; reflexivity.
Qed.
Lemma move_push l s u c k k' : s_stack s = k -> Site u c k k' -> Move l (core_of s) (core_of (push_request (set_stack s k') u c)).
Proof.
  intros HK HS. rewrite core_push, eta_core, HK. destruct (prepare_request (s_base s) u) eqn:EP; cbn [negb].
  2:{ eapply mv_refuse; eauto. }
  assert (EO : (if s_active s then 1 else 0) = length (opt (s_active s))) by (destruct (s_active s); reflexivity). rewrite EO.
  destruct (s_max s <=? length (s_pending s) + length (opt (s_active s))) eqn:EM.
  - apply Nat.leb_le in EM. eapply mv_refuse; eauto.
  - apply Nat.leb_gt in EM. apply mv_enqueue; assumption.
Qed.
Lemma move_fail_active l s f k n : s_stack s = f :: k -> (f = FSend \/ low f = true) -> Move l (core_of s) (core_of (fail_active (set_stack s k) n)).
Proof.
  intros HK HF. unfold fail_active. sg. rewrite eta_core, HK. destruct (s_active s) as [x|] eqn:EA.
  - eapply mv_answer with (fs := [FScope]); [tauto|low|intros; discriminate].
  - destruct HF as [->|HF]; [unfold core_of; sg; rewrite EA; apply mv_nosend|].
    pose proof (mv_neutral l (s_pending s) (s_active s) (s_batches s) (s_next_req s) (s_next_batch s) (s_max s) (s_timed s) (s_timers s) (s_log s) (s_base s) [f] [] k []) as HM.
    rewrite app_nil_r in HM. rewrite EA in HM. cbn [app] in HM. unfold core_of. sg. rewrite EA. apply HM; [|exact I|discriminate|constructor].
    unfold pops, neutral. now rewrite HF.
Qed.
Definition with_core (s : st) (pe : list ctx) (ac : option ctx) (ba : list (nat * batch)) (sk : list frame) (lg : list ev) : core :=
  mkK pe ac ba (s_next_req s) (s_next_batch s) (s_max s) (s_timed s) (s_timers s) sk lg (s_base s).
Lemma core_take s r n fs f : core_of (invoke (push (set_fail (set_pending s r) n) fs) f) =
  with_core s r (s_active s) (s_batches s) (f :: FScope :: fs ++ s_stack s) (s_log s).
Proof. ds s. reflexivity. Qed.
Lemma core_got s n fs f : core_of (invoke (push (set_succ (set_active s None) n) fs) f) =
  with_core s (s_pending s) None (s_batches s) (f :: FScope :: fs ++ s_stack s) (s_log s).
Proof. ds s. reflexivity. Qed.
Lemma core_activate s x r fs : core_of (push (set_pending (set_active s (Some x)) r) fs) =
  with_core s r (Some x) (s_batches s) (fs ++ s_stack s) (s_log s).
Proof. ds s. reflexivity. Qed.
Lemma core_emit_push s e fs : core_of (push (emit s e) fs) = with_core s (s_pending s) (s_active s) (s_batches s) (fs ++ s_stack s) (s_log s ++ [e]).
Proof. ds s. reflexivity. Qed.
Lemma core_lambda s c r bid i : core_of (batch_lambda (emit s (ECalled c r)) bid i r) =
  match find (fun e => fst e =? bid) (s_batches s) with
  | None => with_core s (s_pending s) (s_active s) (s_batches s) (s_stack s) (s_log s ++ [ECalled c r])
  | Some (_, b) =>
      if S (b_done b) =? length (b_resps b)
      then with_core s (s_pending s) (s_active s) (without bid (s_batches s)) (FBatchCall (b_tok b) bid (upd (b_resps b) i (Some r)) :: FScope :: s_stack s) (s_log s ++ [ECalled c r])
      else with_core s (s_pending s) (s_active s)
             (map (fun e => if fst e =? bid then (bid, mkBatch (b_tok b) (upd (b_resps b) i (Some r)) (S (b_done b))) else e) (s_batches s))
             (s_stack s) (s_log s ++ [ECalled c r])
  end.
Proof.
  ds s. unfold batch_lambda, batch_of, with_core, core_of. sg. destruct (find _ ba) as [[b0 b]|]; cbn [option_map snd]; [|reflexivity].
  rewrite upd_length. destruct (_ =? _); reflexivity.
Qed.
Lemma core_stack s k : core_of (set_stack s k) = with_core s (s_pending s) (s_active s) (s_batches s) k (s_log s).
Proof. ds s. reflexivity. Qed.
Lemma move_exec l s f k ch : s_stack s = f :: k -> f <> FUser -> Move l (core_of s) (core_of (exec (set_stack s k) f ch)).
Proof.
  intros HK HF. destruct f; cbn [exec]; try congruence.
  - eapply move_pop; [exact HK|reflexivity|]. eapply neu_frames with (fs := []); [low|corefl].
  - rewrite eta_core, HK. destruct c as [t|bid idx]; [rewrite core_emit_push; apply mv_call_user|]. rewrite core_lambda.
    change (s_batches (set_stack s k)) with (s_batches s). destruct (find _ (s_batches s)) as [[b0 b]|] eqn:EB.
    + destruct (S (b_done b) =? length (b_resps b)) eqn:EL.
      * apply Nat.eqb_eq in EL. eapply mv_call_done; eauto.
      * apply Nat.eqb_neq in EL. eapply mv_call_more; eauto.
    + apply mv_call_lost. exact EB.
  - rewrite eta_core, HK. apply mv_batchcall.
  - eapply move_pop; [exact HK|reflexivity|]. eapply neu_event with (e := EConnCalled tok ok); [exact I|reflexivity|].
    eapply neu_frames with (fs := [FUser]); [low|corefl].
  - unfold process_pending. change (s_active (set_stack s k)) with (s_active s). change (s_pending (set_stack s k)) with (s_pending s).
    destruct (s_active s) as [a|] eqn:EA.
    { eapply move_pop; [exact HK|reflexivity|apply neu_refl]. }
    destruct (s_pending s) as [|x r] eqn:EP; [eapply move_pop; [exact HK|reflexivity|apply neu_refl]|].
    destruct (_ || _).
    + destruct (negb (s_auto _)).
      * rewrite core_take, eta_core, HK, EP. eapply mv_take with (f := FProcess) (fs := [FScope; FProcess]) (k := k); low.
      * destruct (negb (s_connecting _)); eapply move_pop; try exact HK; try reflexivity; [apply neu_do_connect|apply neu_refl].
    + rewrite core_activate, eta_core, HK, EP, EA. apply mv_activate.
  - sg. destruct ch; try (apply move_fail_active with (f := FSend); auto).
    destruct (s_active s) as [x|] eqn:EA; [|apply move_fail_active with (f := FSend); auto].
    destruct (s_conn s) as [c|]; [|apply move_fail_active with (f := FSend); auto].
    rewrite eta_core, HK, EA. unfold core_of. sg. rewrite EA. apply mv_sent.
  - sg. eapply move_pop; [exact HK|reflexivity|]. destruct (s_active s); [apply neu_refl|].
    eapply neu_frames with (fs := [FProcess]); [low|corefl].
  - eapply move_pop; [exact HK|reflexivity|]. destruct ch; [apply neu_refl|apply neu_success|apply neu_failure].
  - eapply move_fail_active; [exact HK|auto].
  - change (s_pending (set_stack s k)) with (s_pending s). destruct (s_pending s) as [|x r] eqn:EP; [eapply move_pop; [exact HK|reflexivity|apply neu_refl]|].
    rewrite core_take, eta_core, HK, EP. eapply mv_take with (fs := [FScope; FFailAll status]); low.
  - eapply move_pop; [exact HK|reflexivity|]. destruct ch; try apply neu_refl; sg; destruct (s_conn s); try apply neu_refl;
      (eapply neu_frames with (fs := []); [low|corefl]).
  - eapply move_pop; [exact HK|reflexivity|]. destruct (_ =? _); [|eapply neu_frames with (fs := []); [low|corefl]].
    unfold destroy. sg. destruct (s_conn s) as [c|].
    + eapply (neu_event _ _ _ (EDestroyed (c_id c))); [exact I|reflexivity|]. eapply neu_frames with (fs := []); [low|corefl].
    + eapply neu_frames with (fs := []); [low|corefl].
  - eapply move_pop; [exact HK|reflexivity|]. destruct l0 as [|t l0]; [apply neu_refl|].
    eapply neu_frames with (fs := [FConnCall t ok; FScope; FConnCbs ok l0]); [low|corefl].
  - eapply move_pop; [exact HK|reflexivity|]. destruct (s_intent _); [apply neu_refl|]. eapply neu_frames with (fs := [FProcess]); [low|corefl].
  - eapply move_pop; [exact HK|reflexivity|]. eapply neu_frames with (fs := [FFailActive 502; FFailAll 503]); [low|corefl].
  - eapply move_pop; [exact HK|reflexivity|]. destruct (s_intent _); [apply neu_refl|]. destruct keep; [eapply neu_frames with (fs := [FProcess]); [low|corefl]|eapply neu_frames with (fs := [FClose]); [low|corefl]].
  - destruct us as [|u us]; [rewrite eta_core, HK; apply mv_batch_end|].
    change (push (set_stack s k) [FBatchPush bid (S i) us]) with (set_stack s (FBatchPush bid (S i) us :: k)).
    eapply move_push; [exact HK|]. apply site_batch.
  - eapply move_pop; [exact HK|reflexivity|]. eapply neu_frames with (fs := [FFailActive 502; FDisc2]); [low|corefl].
  - eapply move_pop; [exact HK|reflexivity|]. destruct (s_intent _); [apply neu_refl|]. destruct (_ && _); [eapply neu_frames with (fs := []); [low|corefl]|].
    destruct (has_pending_work _); [|apply neu_refl]. eapply neu_frames with (fs := [FFailAll 503]); [low|corefl].
  - unfold handle_response. change (s_active (set_stack s k)) with (s_active s).
    destruct (s_active s) as [x|] eqn:EA; [|eapply move_pop; [exact HK|reflexivity|apply neu_refl]].
    rewrite core_got, eta_core, HK, EA. eapply mv_answer with (fs := [FScope; FRespTail keep]); [right; right; eauto|low|].
    intros m E. injection E as <-. eauto.
  - eapply move_pop; [exact HK|reflexivity|]. destruct gone; [|apply neu_refl]. sg. destruct (s_conn s); [|apply neu_refl].
    destruct (_ =? _); [|apply neu_refl]. eapply neu_frames with (fs := []); [low|corefl].
Qed.
Lemma move_api s a : atop (s_stack s) -> Move (LApi a) (core_of s) (core_of (api s a)).
Proof.
  intros HK. destruct a; cbn [api].
  - assert (HS : set_stack s (s_stack s) = s) by (destruct s; reflexivity).
    pose proof (move_push (LApi (APush tok u)) s u (CbUser tok) (s_stack s) (s_stack s) eq_refl (site_user _ _ _ HK)) as HM. rewrite HS in HM. exact HM.
  - unfold push_requests. destruct us as [|u us]; [rewrite eta_core; apply mv_batch_empty; exact HK|].
    rewrite eta_core. apply mv_batch_new; [exact HK|discriminate].
  - apply move_top; [exact HK|]. destruct callback as [t|]; [|apply neu_do_connect].
    eapply neu_event with (e := EConnAsked t); [exact I|reflexivity|apply neu_do_connect].
  - apply move_top; [exact HK|]. eapply neu_frames with (fs := [FFailActive 503; FFailAll 503; FClose; FReset]); [low|corefl].
  - apply move_top; [exact HK|]. eapply neu_frames with (fs := []); [|reflexivity]. low.
  - rewrite eta_core. now apply mv_max.
  - rewrite eta_core. now apply mv_timed.
Qed.
Lemma take_pending_none id l : take_pending id l = None -> Forall (fun x => x_id x <> id) l.
Proof.
  induction l as [|x l IH]; cbn [take_pending]; [constructor|]. destruct (x_id x =? id) eqn:E; [discriminate|].
  destruct (take_pending id l) as [[y r]|]; [discriminate|]. intros _. constructor; [now apply Nat.eqb_neq|auto].
Qed.
Lemma move_io l s e s' : s_stack s = [] -> io s e = Some s' -> Move l (core_of s) (core_of s').
Proof.
  intros HK. assert (HT : atop (s_stack s)) by (rewrite HK; exact I). destruct e; cbn [io].
  - destruct (s_conn s) as [c|]; [|discriminate]. destruct (_ =? _); [discriminate|]. intros H. injection H as <-.
    apply move_top; [exact HT|]. destruct ok; [apply neu_success|apply neu_failure].
  - destruct (s_conn s) as [c|]; [|discriminate]. destruct (c_open c); [|discriminate]. intros H. injection H as <-.
    apply move_top; [exact HT|]. eapply neu_event with (e := EGot (c_wire c) n keep); [exact I|reflexivity|].
    eapply neu_frames with (fs := [FResponse n keep; FIn (c_id c) false]); [low|corefl].
  - destruct (s_conn s) as [c|]; [|discriminate]. intros H. injection H as <-. apply move_top; [exact HT|].
    eapply neu_event with (e := ETimedOut (c_wire c)); [exact I|reflexivity|]. sg. destruct (_ && _).
    + eapply neu_frames with (fs := [FConnCbs false (s_ccbs s); FConnFailTail; FIn (c_id c) false]); [low|corefl].
    + eapply neu_frames with (fs := [FFailActive 504; FClose; FIn (c_id c) false]); [low|corefl].
  - destruct (s_conn s) as [c|]; [|discriminate]. destruct (c_open c); [|discriminate]. intros H. injection H as <-.
    apply move_top; [exact HT|]. destruct flush as [[n keep]|].
    + eapply neu_event with (e := EGot (c_wire c) n keep); [exact I|reflexivity|]. eapply neu_frames with (fs := [FResponse n keep; FDisc1; FIn (c_id c) true]); [low|corefl].
    + eapply neu_frames with (fs := [FDisc1; FIn (c_id c) true]); [low|corefl].
  - destruct (existsb _ _) eqn:EX; [|discriminate]. cbn zeta. sg.
    apply existsb_exists in EX as (i & Hi & Ei). apply Nat.eqb_eq in Ei. subst i.
    destruct (take_pending id (s_pending s)) as [[x r]|] eqn:E; intros H; injection H as <-.
    + apply take_pending_spec in E as (a & b & EP & -> & <-). rewrite eta_core, HK, EP. unfold core_of. sg. rewrite HK.
      apply mv_expire with (fs := [FScope; FProcess]); [low|exact Hi].
    + rewrite eta_core, HK. unfold core_of. sg. rewrite HK. apply mv_expired. now apply take_pending_none.
  - destruct (s_deferred s) as [|t d]; [discriminate|]. destruct t.
    + intros H. injection H as <-. apply move_top; [exact HT|]. unfold reset_deferred. destruct (_ || _); [eapply neu_frames with (fs := []); [low|corefl]|].
      unfold destroy. sg. destruct (s_conn s) as [c|].
      * eapply (neu_event _ _ _ (EDestroyed (c_id c))); [exact I|reflexivity|]. eapply neu_frames with (fs := []); [low|corefl].
      * eapply neu_frames with (fs := []); [low|corefl].
    + cbn zeta. destruct (_ || _); intros H; injection H as <-; apply move_top; try exact HT; [eapply neu_frames with (fs := []); [low|corefl]|].
      unfold create_connection, destroy. sg. destruct (s_conn s) as [c|].
      * eapply (neu_event _ _ _ (EDestroyed (c_id c))); [exact I| |apply neu_do_connect]. reflexivity.
      * eapply neu_core; [|apply neu_do_connect]. corefl.
Qed.
(** a step is a move *)
Lemma move_step s l s' : step s l = Some s' -> Move l (core_of s) (core_of s').
Proof.
  intros E. unfold step in E. destruct l as [a| |ch|e].
  - destruct (s_stack s) as [|f k] eqn:EK; [injection E as <-; apply move_api; rewrite EK; exact I|].
    destruct f; try discriminate E. injection E as <-. apply move_api. rewrite EK. exact I.
  - destruct (s_stack s) as [|f k] eqn:EK; [discriminate E|]. destruct f; try discriminate E. injection E as <-.
    eapply move_pop; [exact EK|reflexivity|]. apply neu_refl.
  - destruct (s_stack s) as [|f k] eqn:EK; [discriminate E|].
    assert (HF : f <> FUser) by (intros ->; discriminate E).
    assert (E' : Some (exec (set_stack s k) f ch) = Some s') by (destruct f; auto; discriminate E). injection E' as <-. now apply move_exec.
  - destruct (s_stack s) as [|f k] eqn:EK; [|discriminate E]. now apply (move_io _ s e).
Qed.
(** induction over runs whose labels satisfy Q, by moves *)
Lemma reach_moves_if (Q : label -> Prop) (P : core -> Prop) base :
  P (core_of (init base)) -> (forall l k k', Q l -> P k -> Move l k k' -> P k') ->
  forall ls s, Forall Q ls -> reaches base ls s -> P (core_of s).
Proof.
  intros H0 HM ls s HQ H. unfold reaches in H. revert H0 H. generalize (init base). induction ls as [|l ls IH]; intros s0 H0 H; cbn [run] in H.
  - injection H as <-. exact H0.
  - destruct (step s0 l) as [s1|] eqn:E; [|discriminate H]. inversion HQ as [|? ? HQ1 HQ2]; subst. apply (IH HQ2 s1); [|exact H].
    eapply HM; [exact HQ1|exact H0|]. now apply move_step.
Qed.
Lemma reach_moves (P : core -> Prop) base : P (core_of (init base)) -> (forall l k k', P k -> Move l k k' -> P k') ->
  forall ls s, reaches base ls s -> P (core_of s).
Proof.
  intros H0 HM ls s H. apply (reach_moves_if (fun _ => True) P base H0) with (ls := ls); [eauto| |exact H]. clear. induction ls; auto.
Qed.
