From Coq Require Import Permutation.
From Verif Require Import Base UtilModel CliModel CliSpec.
Local Open Scope nat_scope.

Ltac sv H := cbn [s_connected s_connecting s_intent s_depth s_defreset s_conn s_pending s_active s_batches s_next_req s_next_batch
  s_next_conn s_next_wire s_max s_auto s_timed s_ccbs s_total s_succ s_fail s_deferred s_timers s_stack s_log s_base
  set_connected set_connecting set_intent set_depth set_defreset set_conn set_pending set_active set_batches set_next_req set_next_batch
  set_next_conn set_next_wire set_max set_auto set_timed set_ccbs set_total set_succ set_fail set_deferred set_timers set_stack set_log
  emit push invoke app opt] in H.
Ltac sg := cbn [s_connected s_connecting s_intent s_depth s_defreset s_conn s_pending s_active s_batches s_next_req s_next_batch
  s_next_conn s_next_wire s_max s_auto s_timed s_ccbs s_total s_succ s_fail s_deferred s_timers s_stack s_log s_base
  set_connected set_connecting set_intent set_depth set_defreset set_conn set_pending set_active set_batches set_next_req set_next_batch
  set_next_conn set_next_wire set_max set_auto set_timed set_ccbs set_total set_succ set_fail set_deferred set_timers set_stack set_log
  emit push invoke app opt].
Ltac ds s := destruct s as [cd cg nt dp dr cn pe ac ba nr nb nc nw mx au td cc to su fa de ti sk lg bs].
Ltac brk := match goal with |- context [match ?x with _ => _ end] => destruct x eqn:? end.

(** Invariants are kept by the building blocks; a step is composed of them. *)
Lemma step_cases (P : st -> Prop) :
  (forall s a, P s -> (s_stack s = [] \/ exists k, s_stack s = FUser :: k) -> P (api s a)) ->
  (forall s k, P s -> s_stack s = FUser :: k -> P (set_stack s k)) ->
  (forall s f k ch, P s -> s_stack s = f :: k -> f <> FUser -> P (exec (set_stack s k) f ch)) ->
  (forall s e s', P s -> s_stack s = [] -> io s e = Some s' -> P s') ->
  forall ls s s', P s -> run s ls = Some s' -> P s'.
Proof.
  intros H1 H2 H3 H4. induction ls as [|l ls IH]; cbn [run]; intros s s' HP HR; [congruence|].
  destruct (step s l) as [s1|] eqn:E; [|discriminate HR]. apply (IH s1 s'); [|exact HR]. clear HR IH.
  unfold step in E. destruct l as [a| |ch|e].
  - destruct (s_stack s) as [|f k] eqn:EK; [injection E as <-; apply H1; auto|].
    destruct f; try discriminate E. injection E as <-. apply H1; eauto.
  - destruct (s_stack s) as [|f k] eqn:EK; [discriminate E|]. destruct f; try discriminate E. injection E as <-. eauto.
  - destruct (s_stack s) as [|f k] eqn:EK; [discriminate E|].
    assert (f <> FUser) by (intros ->; discriminate E).
    assert (E' : Some (exec (set_stack s k) f ch) = Some s1) by (destruct f; auto; discriminate E). injection E' as <-. apply H3 with (f := f); auto.
  - destruct (s_stack s) as [|f k] eqn:EK; [|discriminate E]. eauto.
Qed.

(** ** Accounting *)
Definition one (x c : cb) : nat := if cb_dec c x then 1 else 0.
Lemma count_cons x c l : count x (c :: l) = one x c + count x l.
Proof. unfold count, one. cbn [count_occ]. destruct (cb_dec c x); reflexivity. Qed.
Lemma count_nil x : count x [] = 0. Proof. reflexivity. Qed.
Lemma count_app x a b : count x (a ++ b) = count x a + count x b.
Proof. unfold count. apply count_occ_app. Qed.
Definition fcall (f : frame) : list cb := match f with FCall c _ => [c] | _ => [] end.
Definition fcalls (k : list frame) : list cb := flat_map fcall k.
Definition fans (k : list frame) : nat := length (flat_map (fun f => match f with FCall c (Remote _) => [c] | _ => [] end) k).
Definition fref (k : list frame) : nat := length (flat_map (fun f => match f with FCall c (Local _) => [c] | _ => [] end) k).

Definition Acc (s : st) : Prop :=
  (forall x, count x (pushed (s_log s)) = count x (called (s_log s)) + count x (waiting s) + count x (fcalls (s_stack s))) /\
  s_total s = length (pushed (s_log s)) /\
  s_succ s = length (answered (s_log s)) + fans (s_stack s) /\
  s_fail s = length (refused (s_log s)) + fref (s_stack s) /\
  s_total s = s_succ s + s_fail s + length (waiting s).

Lemma pushed_app a b : pushed (a ++ b) = pushed a ++ pushed b. Proof. apply flat_map_app. Qed.
Lemma called_app a b : called (a ++ b) = called a ++ called b. Proof. apply flat_map_app. Qed.
Lemma answered_app a b : answered (a ++ b) = answered a ++ answered b. Proof. apply flat_map_app. Qed.
Lemma refused_app a b : refused (a ++ b) = refused a ++ refused b. Proof. apply flat_map_app. Qed.

(** Building blocks *)
Definition quietev (e : ev) : Prop := match e with EPushed _ | ECalled _ _ => False | _ => True end.
Lemma acc_emit s e : quietev e -> Acc s -> Acc (emit s e).
Proof.
  intros HE (A1 & A2 & A3 & A4 & A5). unfold Acc, waiting in *. sg. rewrite pushed_app, called_app, answered_app, refused_app.
  destruct e; cbn in HE; try contradiction; cbn [pushed called answered refused flat_map]; rewrite !app_nil_r; auto.
Qed.
Definition plainf (f : frame) : Prop := match f with FCall _ _ => False | _ => True end.
Lemma acc_push s fs : Forall plainf fs -> Acc s -> Acc (push s fs).
Proof.
  intros HF HA. induction fs as [|f fs IH]; [destruct s; exact HA|]. inversion HF; subst. specialize (IH ltac:(auto)).
  destruct f; cbn in *; try contradiction; exact IH.
Qed.
Lemma acc_pop s f k : s_stack s = f :: k -> plainf f -> Acc s -> Acc (set_stack s k).
Proof. intros HK HF (A1 & A2 & A3 & A4 & A5). rewrite HK in *. destruct f; cbn in HF; try contradiction; repeat split; assumption. Qed.
Lemma acc_invoke s f : plainf f -> Acc s -> Acc (invoke s f).
Proof. intros HF HA. unfold invoke. apply acc_push; [repeat constructor; exact HF|exact HA]. Qed.
(** a held request is given its answer *)
Lemma acc_take s s' c r fs : Acc s -> s_log s' = s_log s -> s_stack s' = FCall c r :: fs ++ s_stack s -> Forall plainf fs ->
  Permutation (waiting s) (c :: waiting s') -> s_total s' = s_total s ->
  match r with Remote _ => s_succ s' = S (s_succ s) /\ s_fail s' = s_fail s
             | Local _ => s_fail s' = S (s_fail s) /\ s_succ s' = s_succ s end -> Acc s'.
Proof.
  intros (A1 & A2 & A3 & A4 & A5) HL HK HF HW HT HC. unfold Acc. rewrite HL, HK.
  assert (P1 : fcalls (fs ++ s_stack s) = fcalls (s_stack s)).
  { clear - HF. unfold fcalls. rewrite flat_map_app. induction fs as [|f fs IH]; [reflexivity|]. inversion HF; subst. cbn [flat_map app].
    destruct f; cbn in *; try contradiction; auto. }
  assert (P2 : fans (fs ++ s_stack s) = fans (s_stack s) /\ fref (fs ++ s_stack s) = fref (s_stack s)).
  { clear - HF. unfold fans, fref. rewrite !flat_map_app. induction fs as [|f fs IH]; [auto|]. inversion HF; subst. cbn [flat_map app].
    destruct f; cbn in *; try contradiction; auto. }
  destruct P2 as [P2 P3].
  assert (HLen : length (waiting s) = S (length (waiting s'))) by (rewrite (Permutation_length HW); reflexivity).
  assert (HCnt : forall x, count x (waiting s) = one x c + count x (waiting s')).
  { intros x. rewrite <- count_cons. unfold count. apply Permutation_count_occ. exact HW. }
  refine (conj _ (conj _ (conj _ (conj _ _)))).
  - intros x. unfold fcalls. cbn [flat_map fcall app]. rewrite count_cons. fold (fcalls (fs ++ s_stack s)). rewrite P1.
    specialize (A1 x). specialize (HCnt x). lia.
  - congruence.
  - unfold fans in *. destruct r; cbn [flat_map app length]; lia.
  - unfold fref in *. destruct r; cbn [flat_map app length]; lia.
  - destruct r; lia.
Qed.
Lemma waiting_head s x r : s_pending s = x :: r -> Permutation (waiting s) (x_cb x :: waiting (set_pending s r)).
Proof.
  intros H. unfold waiting. sg. rewrite H. rewrite !map_app. cbn [map]. symmetry. apply Permutation_middle.
Qed.
Lemma waiting_active s x : s_active s = Some x -> Permutation (waiting s) (x_cb x :: waiting (set_active s None)).
Proof. intros H. unfold waiting. sg. rewrite H. apply Permutation_refl. Qed.

Lemma acc_fail_active s n : Acc s -> Acc (fail_active s n).
Proof.
  intros HA. unfold fail_active. destruct (s_active s) as [x|] eqn:E; [|exact HA].
  eapply (acc_take s _ (x_cb x) (Local n) [FScope] HA); try reflexivity; [repeat constructor|now apply waiting_active|split; reflexivity].
Qed.
Lemma acc_destroy s : Acc s -> Acc (destroy s).
Proof. intros HA. unfold destroy. destruct (s_conn s); [apply acc_emit; [exact I|exact HA]|exact HA]. Qed.
Lemma acc_do_connect s o : Acc s -> Acc (do_connect s o).
Proof.
  intros HA. unfold do_connect. destruct (s_connected s).
  { destruct o; [apply acc_invoke; [exact I|exact HA]|exact HA]. }
  destruct (s_connecting s); [destruct o; exact HA|]. unfold start_attempt, create_connection.
  match goal with |- context [is_open ?s1] => set (s2 := s1) end.
  assert (HA2 : Acc s2) by exact HA. clearbody s2. destruct (negb (is_open s2)).
  - sg. apply (acc_push _ [FAttempt]); [repeat constructor|]. apply acc_destroy in HA2. exact HA2.
  - destruct (s_conn s2); [|exact HA2]. apply (acc_push _ [FAttempt]); [repeat constructor|exact HA2].
Qed.
Lemma acc_push_request s u c : Acc s -> Acc (push_request s u c).
Proof.
  intros HA. unfold push_request.
  (* the request enters and, if not refused, waits *)
  set (s1 := set_total (emit s (EPushed c)) (S (s_total s))).
  assert (HX : forall n, Acc (invoke (set_fail s1 (S (s_fail s1))) (FCall c (Local n)))).
  { intros n. subst s1. destruct HA as (A1 & A2 & A3 & A4 & A5). unfold Acc, waiting in *. sg. rewrite pushed_app, called_app, answered_app, refused_app.
    cbn [pushed called answered refused flat_map]. rewrite !app_nil_r, app_length. cbn [length].
    unfold fcalls, fans, fref in *. cbn [flat_map fcall app length]. repeat split; try lia.
    intros x. rewrite count_app, !count_cons, count_nil. specialize (A1 x). lia. }
  destruct (negb _); [apply HX|]. destruct (_ <=? _); [apply HX|]. clear HX.
  apply (acc_push _ [FProcess]); [repeat constructor|].
  assert (HW : Acc (set_pending (set_next_req s1 (S (s_next_req s1))) (s_pending s1 ++ [mkCtx (s_next_req s1) (ensure_absolute_uri (s_base s1) u) c]))).
  { subst s1. destruct HA as (A1 & A2 & A3 & A4 & A5). unfold Acc, waiting in *. sg. rewrite pushed_app, called_app, answered_app, refused_app.
    cbn [pushed called answered refused flat_map]. rewrite !app_nil_r, !map_app, !app_length in *. cbn [map x_cb length] in *.
    rewrite !map_length in *. repeat split; try lia.
    intros x. rewrite !count_app, !count_cons, count_nil. specialize (A1 x). rewrite ?map_app, ?count_app in A1. lia. }
  sg. sv HW. destruct (s_timed s1); exact HW.
Qed.
Lemma acc_process s : Acc s -> Acc (process_pending s).
Proof.
  intros HA. unfold process_pending. destruct (s_active s) as [a|] eqn:EA; [exact HA|]. destruct (s_pending s) as [|x r] eqn:EP; [exact HA|].
  destruct (_ || _).
  - destruct (negb (s_auto s)).
    + eapply (acc_take s _ (x_cb x) (Local 503) [FScope; FProcess] HA); try reflexivity; [repeat constructor|now apply waiting_head|split; reflexivity].
    + destruct (negb _); [now apply acc_do_connect|exact HA].
  - apply (acc_push _ [FSend; FAfterSend]); [repeat constructor|]. destruct HA as (A1 & A2 & A3 & A4 & A5).
    unfold Acc, waiting in *. sg. rewrite EA, EP in *. cbn [opt app map] in *. auto.
Qed.
Lemma acc_success s : Acc s -> Acc (connection_success s).
Proof.
  intros HA. unfold connection_success. destruct (s_conn s) as [c|]; [|exact HA]. sg. apply (acc_push _ [_; _]); [repeat constructor|].
  apply (acc_emit _ (EOpened (s_next_wire s)) I) in HA. exact HA.
Qed.
Lemma acc_fail_connection s : Acc s -> Acc (fail_connection s).
Proof. intros HA. apply (acc_push _ [_; _]); [repeat constructor|exact HA]. Qed.
Lemma acc_failure s : Acc s -> Acc (connection_failure s).
Proof. intros HA. unfold connection_failure. destruct (s_conn s); [|exact HA]. now apply acc_fail_connection. Qed.
Lemma acc_batch s b i r : Acc s -> Acc (batch_lambda s b i r).
Proof.
  intros HA. unfold batch_lambda. destruct (batch_of s b); [|exact HA]. cbn zeta. destruct (_ =? _); [|exact HA].
  apply acc_invoke; [exact I|exact HA].
Qed.
Lemma acc_response s n keep : Acc s -> Acc (handle_response s n keep).
Proof.
  intros HA. unfold handle_response. destruct (s_active s) as [x|] eqn:E; [|exact HA].
  eapply (acc_take s _ (x_cb x) (Remote n) [FScope; FRespTail keep] HA); try reflexivity; [repeat constructor|now apply waiting_active|split; reflexivity].
Qed.
Lemma acc_exec s f k ch : Acc s -> s_stack s = f :: k -> Acc (exec (set_stack s k) f ch).
Proof.
  intros HA HK. destruct f;
    try (assert (HP : Acc (set_stack s k)) by (eapply acc_pop; [exact HK|exact I|exact HA]); cbn [exec]); try exact HP.
  - cbn [exec]. assert (HP : Acc (emit (set_stack s k) (ECalled c r))).
    { destruct HA as (A1 & A2 & A3 & A4 & A5). rewrite HK in *. unfold Acc, waiting in *. sg. rewrite pushed_app, called_app, answered_app, refused_app.
      unfold fcalls, fans, fref in *. destruct r; cbn [pushed called answered refused flat_map fcall app length] in *;
        rewrite ?app_nil_r, ?app_length; cbn [length]; repeat split; try lia;
        intros x; specialize (A1 x); rewrite ?count_app, !count_cons, ?count_nil in *; lia. }
    destruct c; [apply (acc_push _ [FUser]); [repeat constructor|exact HP]|now apply acc_batch].
  - apply (acc_push _ [FUser]); [repeat constructor|]. now apply acc_emit.
  - apply (acc_push _ [FUser]); [repeat constructor|]. now apply acc_emit.
  - now apply acc_process.
  - sg. destruct ch; try now apply acc_fail_active. destruct (s_active s); [|now apply acc_fail_active].
    destruct (s_conn s); [|now apply acc_fail_active]. apply acc_emit; [exact I|exact HP].
  - destruct (s_active _); [exact HP|]. now apply (acc_push _ [FProcess]); [repeat constructor|].
  - destruct ch; [exact HP|now apply acc_success|now apply acc_failure].
  - now apply acc_fail_active.
  - sg. destruct (s_pending s) as [|x r] eqn:EP; [exact HP|].
    eapply (acc_take (set_stack s k) _ (x_cb x) (Local status) [FScope; FFailAll status] HP); try reflexivity; [repeat constructor|now apply waiting_head|split; reflexivity].
  - destruct ch; try exact HP; destruct (s_conn _); exact HP.
  - destruct (_ =? _); [|exact HP]. apply acc_destroy in HP. exact HP.
  - destruct l as [|t l]; [exact HP|]. apply acc_invoke; [exact I|]. now apply (acc_push _ [_]); [repeat constructor|].
  - destruct (s_intent _); [exact HP|]. now apply (acc_push _ [FProcess]); [repeat constructor|].
  - destruct (s_intent _); [exact HP|]. destruct keep; now apply (acc_push _ [_]); [repeat constructor|].
  - destruct us as [|u us]; [exact HP|]. apply acc_push_request. now apply (acc_push _ [_]); [repeat constructor|].
  - destruct (s_intent _); [exact HP|]. destruct (_ && _); [exact HP|]. destruct (has_pending_work _); [|exact HP].
    now apply (acc_push _ [_]); [repeat constructor|].
  - now apply acc_response.
  - destruct gone; [|exact HP]. destruct (s_conn _); [|exact HP]. destruct (_ =? _); exact HP.
Qed.
Lemma acc_api s a : Acc s -> Acc (api s a).
Proof.
  intros HA. destruct a; cbn [api]; try exact HA.
  - now apply acc_push_request.
  - unfold push_requests. destruct us as [|u us]; [apply acc_invoke; [exact I|now apply acc_emit]|]. cbn zeta.
    apply (acc_push _ [_]); [repeat constructor|]. apply (acc_emit _ (EBatch tok (s_next_batch s) (length (u :: us))) I) in HA. exact HA.
  - apply acc_do_connect. destruct callback; [now apply acc_emit|exact HA].
Qed.
Lemma take_pending_spec id l x r : take_pending id l = Some (x, r) -> exists a b, l = a ++ x :: b /\ r = a ++ b /\ x_id x = id.
Proof.
  revert x r. induction l as [|y l IH]; intros x r; cbn [take_pending]; [discriminate|]. destruct (x_id y =? id) eqn:E.
  - intros H. injection H as <- <-. exists [], l. apply Nat.eqb_eq in E. auto.
  - destruct (take_pending id l) as [[z r']|]; [|discriminate]. intros H. injection H as <- <-.
    destruct (IH z r' eq_refl) as (a & b & -> & -> & H). exists (y :: a), b. auto.
Qed.
Lemma acc_io s e s' : Acc s -> io s e = Some s' -> Acc s'.
Proof.
  intros HA. destruct e; cbn [io].
  - destruct (s_conn s) as [c|]; [|discriminate]. destruct (_ =? _); [discriminate|]. intros H. injection H as <-. destruct ok; [now apply acc_success|now apply acc_failure].
  - destruct (s_conn s) as [c|]; [|discriminate]. destruct (c_open c); [|discriminate]. intros H. injection H as <-.
    apply (acc_push _ [_; _]); [repeat constructor|]. now apply acc_emit.
  - destruct (s_conn s) as [c|]; [|discriminate]. intros H. injection H as <-.
    assert (HX : Acc (push (emit s (ETimedOut (c_wire c))) [FIn (c_id c) false])) by (apply (acc_push _ [_]); [repeat constructor|now apply acc_emit]).
    destruct (_ && _); [now apply acc_fail_connection|]. now apply (acc_push _ [_; _]); [repeat constructor|].
  - destruct (s_conn s) as [c|]; [|discriminate]. destruct (c_open c); [|discriminate]. intros H. injection H as <-.
    assert (HX : Acc (push s [FDisc1; FIn (c_id c) true])) by (now apply (acc_push _ [_; _]); [repeat constructor|]).
    destruct flush as [[n keep]|]; [|exact HX].
    assert (HY : Acc (push (emit (push s [FDisc1; FIn (c_id c) true]) (EGot (c_wire c) n keep)) [FResponse n keep])).
    { apply (acc_push _ [_]); [repeat constructor|]. now apply acc_emit. }
    exact HY.
  - destruct (existsb _ _); [|discriminate]. cbn zeta. sg. destruct (take_pending id (s_pending s)) as [[x r]|] eqn:E; intros H; injection H as <-; [|exact HA].
    apply take_pending_spec in E as (a & b & EP & -> & _).
    eapply (acc_take s _ (x_cb x) (Local 408) [FScope; FProcess] HA); try reflexivity; [repeat constructor| |split; reflexivity].
    unfold waiting. sg. rewrite EP, !map_app. cbn [map]. rewrite !app_assoc. symmetry. apply Permutation_middle.
  - destruct (s_deferred s) as [|t d]; [discriminate|]. destruct t.
    + intros H. injection H as <-. unfold reset_deferred. destruct (_ || _); [exact HA|].
      assert (HX : Acc (set_defreset (set_deferred s d) false)) by exact HA. apply acc_destroy in HX. exact HX.
    + cbn zeta. destruct (_ || _); intros H; injection H as <-; [exact HA|]. apply acc_do_connect. unfold create_connection.
      assert (HX : Acc (set_deferred s d)) by exact HA. apply acc_destroy in HX. exact HX.
Qed.
Lemma acc_reach base ls s : reaches base ls s -> Acc s.
Proof.
  intros H. eapply (step_cases Acc); [..|exact H].
  - intros. now apply acc_api.
  - intros s0 k HA HK. eapply acc_pop; [exact HK|exact I|exact HA].
  - intros. now apply acc_exec.
  - intros s0 e s' HA _ HI. eapply acc_io; eauto.
  - unfold Acc. cbn. repeat split; reflexivity.
Qed.
