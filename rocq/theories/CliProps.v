(** The HTTP/1.1 client: its requests (C94-C97, C103, C104).  A run is any list of API calls (from outside or
    from inside any callback), event-loop events and outcomes of the operations below. *)
From Coq Require Import Permutation.
From Verif Require Import Base UtilModel UtilSpec CookieSpec H2FieldSpec Http1Spec UtilProofs CliModel CliSpec CliProofs CliMoves CliInv CliBatch CliBatch2.
Local Open Scope nat_scope.

(** ** An example: base http://h, two requests and a batch of two *)
Definition ex_base : uri := mkUri (str "http") (str "h") [].
Definition ex_rel : uri := mkUri [] [] [].
Definition ex_other : uri := mkUri (str "http") (str "g") [].
Definition ex_run : list label :=
  [LApi (APush 1 ex_rel); LRun C0; LRun C0;                             (* queued; an attempt is started *)
   LApi (ABatch 9 [ex_rel; ex_rel]); LRun C0; LRun C0; LRun C0; LRun C0; LRun C0;
   LApi (APush 2 ex_other); LRun C0; LReturn; LRun C0;                  (* refused: another origin *)
   LIo (IConn true); LRun C0; LRun C0; LRun C0; LRun C0; LRun C0;       (* connected; the first request is written *)
   LIo (IResp 70 true); LRun C0; LRun C0; LReturn; LRun C0; LRun C0; LRun C0; LRun C0; LRun C0; LRun C0;
   LIo (IResp 71 true); LRun C0; LRun C0; LRun C0; LRun C0; LRun C0; LRun C0; LRun C0; LRun C0].
Definition ex_more : list label := [LIo (IResp 72 true); LRun C0; LRun C0; LRun C0; LReturn; LRun C0; LRun C0; LRun C0; LRun C0; LRun C0].
Definition ex_s : option st := run (init ex_base) ex_run.
Definition ex_t : option st := run (init ex_base) (ex_run ++ ex_more).
Example ex_s_reached : match ex_s with Some s => s_stack s = [] /\ waiting s = [CbBatch 1 1] | None => False end.
Proof. vm_compute. auto. Qed.

(** ** C94 *)
(** Each request's callback is called at most once per push, and once control is back with the loop every
    request pushed has been called back or is still held. *)
Theorem each_request_is_called_back_once (base : uri) (ls : list label) (s : st) (c : cb) :
  reaches base ls s ->
  count c (called (s_log s)) <= count c (pushed (s_log s)) /\
  (quiet s -> count c (pushed (s_log s)) = count c (called (s_log s)) + count c (waiting s)).
Proof.
  intros H. destruct (acc_reach base ls s H) as (A & _). specialize (A c). split; [lia|]. intros HQ. rewrite HQ in A. cbn [fcalls flat_map] in A. rewrite count_nil in A. lia.
Qed.
(** The statistics: the requests ever pushed, answered by the peer, failed by the client. *)
Theorem statistics_count_the_requests (base : uri) (ls : list label) (s : st) :
  reaches base ls s -> quiet s ->
  s_total s = length (pushed (s_log s)) /\ s_succ s = length (answered (s_log s)) /\ s_fail s = length (refused (s_log s)) /\
  s_total s = s_succ s + s_fail s + length (waiting s).
Proof.
  intros H HQ. destruct (acc_reach base ls s H) as (_ & A & B & C & D). rewrite HQ in *. cbn [fans fref flat_map length] in *. unfold fans, fref in *. cbn [flat_map length] in *.
  rewrite Nat.add_0_r in *. auto.
Qed.
Example each_request_is_called_back_once_ex : exists s, reaches ex_base (ex_run ++ ex_more) s /\ quiet s /\
  pushed (s_log s) = [CbUser 1; CbBatch 1 0; CbBatch 1 1; CbUser 2] /\ called (s_log s) = [CbUser 2; CbUser 1; CbBatch 1 0; CbBatch 1 1] /\
  s_succ s = 3 /\ s_fail s = 1.
Proof. unfold reaches. destruct (run (init ex_base) (ex_run ++ ex_more)) as [s|] eqn:E; vm_compute in E; [|discriminate E]. injection E as <-. eexists. vm_compute. repeat split. Qed.

(** ** C95 *)
(** Requests are written in the order they were pushed ... *)
Theorem requests_are_written_in_order (base : uri) (ls : list label) (s : st) :
  reaches base ls s -> Subseq (sent (s_log s)) (pushed (s_log s)).
Proof.
  intros H. assert (HF : Fifo (core_of s)).
  { revert ls s H. apply reach_moves; [|intros; eapply fifo_move; eauto]. split; [constructor|]. constructor. }
  destruct HF as [_ HF]. eapply sub_trans; [|exact HF]. apply sub_more. apply sub_refl.
Qed.
(** ... and the next one is written only after the previous one's callback was called. *)
Theorem one_request_is_in_flight (base : uri) (ls : list label) (s : st) (a b d : list ev) (w w' : nat) (x y : cb) (u v : uri) :
  reaches base ls s -> s_log s = a ++ ESent w x u :: b ++ ESent w' y v :: d -> exists r, In (ECalled x r) b.
Proof.
  intros H. assert (HF : Flight (core_of s)).
  { revert ls s H. apply reach_moves; [|intros; eapply flight_move; eauto]. split; [constructor|]. split.
    - intros a' w0 x0 u0 b0 w1 y1 v1 d1 E. destruct a'; discriminate E.
    - intros z (a' & w0 & u0 & b0 & E & _). destruct a'; discriminate E. }
  destruct HF as (_ & HF & _). apply HF.
Qed.
Example requests_are_written_in_order_ex : exists s, reaches ex_base (ex_run ++ ex_more) s /\
  sent (s_log s) = [CbUser 1; CbBatch 1 0; CbBatch 1 1].
Proof. unfold reaches. destruct (run (init ex_base) (ex_run ++ ex_more)) as [s|] eqn:E; vm_compute in E; [|discriminate E]. injection E as <-. eexists. vm_compute. repeat split. Qed.

(** ** C96 *)
(** The client never holds more requests than the largest limit it was ever given (1024 to begin with). *)
Theorem held_requests_are_bounded (base : uri) (ls : list label) (s : st) (M : nat) :
  1024 <= M -> (forall n, In (LApi (ASetMax n)) ls -> n <= M) -> reaches base ls s -> length (waiting s) <= M.
Proof.
  intros HM HL H. assert (HB : Bound M (core_of s)).
  { apply (reach_moves_if (limits M) (Bound M) base) with (ls := ls).
    - split; [exact HM|]. cbn. lia.
    - intros. eapply bound_move; eauto.
    - rewrite Forall_forall. intros l HI n ->. auto.
    - exact H. }
  destruct HB as [_ HB]. unfold waiting. rewrite map_length, app_length. unfold core_of in HB. cbn [k_pe k_ac] in HB. lia.
Qed.
(** at the limit a push is answered 503 at once *)
Theorem push_at_the_limit_is_refused (s : st) (tok : nat) (u : uri) :
  (s_stack s = [] \/ exists k, s_stack s = FUser :: k) -> s_max s <= length (waiting s) ->
  exists s1 s2 n, step s (LApi (APush tok u)) = Some s1 /\ step s1 (LRun C0) = Some s2 /\ (n = 503 \/ n = 400) /\
    s_log s2 = s_log s ++ [EPushed (CbUser tok); ECalled (CbUser tok) (Local n)] /\ waiting s2 = waiting s.
Proof.
  intros HT HM. assert (HE : step s (LApi (APush tok u)) = Some (push_request s u (CbUser tok))).
  { cbn [step api]. destruct HT as [->|(k & ->)]; reflexivity. }
  unfold waiting in HM. rewrite map_length, app_length in HM. unfold push_request in HE. cbn zeta in HE. destruct (negb (prepare_request _ u)).
  - eexists _, _, 400. split; [exact HE|]. split; [reflexivity|]. split; [auto|]. unfold waiting. sg. cbn [exec]. sg. rewrite <- app_assoc. auto.
  - assert (HX : s_max s <=? length (s_pending s) + (if s_active s then 1 else 0) = true).
    { apply Nat.leb_le. destruct (s_active s); cbn [opt length] in HM; lia. }
    sv HE. rewrite HX in HE. eexists _, _, 503. split; [exact HE|]. split; [reflexivity|]. split; [auto|]. unfold waiting. sg. cbn [exec]. sg. rewrite <- app_assoc. auto.
Qed.
Example held_requests_are_bounded_ex : exists s s1, reaches ex_base [LApi (ASetMax 1); LApi (APush 1 ex_rel); LRun C0; LRun C0] s /\
  s_max s = 1 /\ waiting s = [CbUser 1] /\ run s [LApi (APush 2 ex_rel); LRun C0] = Some s1 /\ In (ECalled (CbUser 2) (Local 503)) (s_log s1).
Proof. do 2 eexists. split; [vm_compute; reflexivity|]. split; [reflexivity|]. split; [reflexivity|]. split; [vm_compute; reflexivity|]. cbn. auto 10. Qed.

(** ** C97 *)
(** A batch callback gets, at place j, the response its j-th request was given; *)
Theorem batch_gets_its_responses (base : uri) (ls : list label) (s : st) (tok bid : nat) (rs : list (option resp)) :
  reaches base ls s -> In (EBatchCalled tok bid rs) (s_log s) ->
  In (EBatch tok bid (length rs)) (s_log s) /\
  forall j, j < length rs -> exists r, nth_error rs j = Some (Some r) /\ In (ECalled (CbBatch bid j) r) (s_log s).
Proof.
  intros H HI. destruct (batch_reach base ls s H) as (_ & _ & _ & _ & (_ & _ & _ & _ & HF)). destruct (HF tok bid rs (or_introl HI)) as (A & _ & B). auto.
Qed.
(** it is called at most once (batches are numbered from 1; 0 stands for the empty ones); *)
Definition batch_calls (bid : nat) (lg : list ev) : list ev := filter (fun e => match e with EBatchCalled _ b _ => b =? bid | _ => false end) lg.
Lemma ended_calls bid lg : ended bid lg = length (batch_calls bid lg).
Proof.
  unfold batch_calls. induction lg as [|e lg IH]; [reflexivity|]. rewrite ended_cons, IH. cbn [filter]. destruct e; try reflexivity.
  destruct (bid0 =? bid); reflexivity.
Qed.
Theorem batch_is_called_at_most_once (base : uri) (ls : list label) (s : st) (bid : nat) :
  reaches base ls s -> 0 < bid -> length (batch_calls bid (s_log s)) <= 1.
Proof.
  intros H Hb. destruct (batch_reach base ls s H) as (_ & _ & _ & _ & (_ & _ & HC & HD & _)). rewrite <- ended_calls.
  destruct (in_dec Nat.eq_dec bid (map fst (s_batches s))) as [HI|HN].
  - apply in_map_iff in HI as ([x b] & E & HI). cbn [fst] in E. subst x. specialize (HC bid Hb (ex_intro _ b HI)). lia.
  - assert (HX : ~ exists b, In (bid, b) (s_batches s)) by (intros (b & HI); apply HN; apply in_map_iff; exists (bid, b); auto).
    specialize (HD bid Hb HX). destruct (size (s_log s) bid =? 0); lia.
Qed.
(** and once control is back with the loop a batch has been called unless one of its requests is still held. *)
Theorem batch_is_called_when_complete (base : uri) (ls : list label) (s : st) (tok bid n : nat) :
  reaches base ls s -> quiet s -> 0 < bid -> In (EBatch tok bid n) (s_log s) ->
  (exists rs, length rs = n /\ In (EBatchCalled tok bid rs) (s_log s)) \/ (exists j, j < n /\ In (CbBatch bid j) (waiting s)).
Proof.
  intros H HQ Hb HI. destruct (batch_reach base ls s H) as ((HA & _) & _ & (_ & _ & HP) & HU & (_ & HL & HC & HD & HF)). unfold quiet in HQ.
  destruct (in_dec Nat.eq_dec bid (map fst (s_batches s))) as [HM|HN].
  - right. apply in_map_iff in HM as ([x b] & E & HM). cbn [fst] in E. subst x. rewrite Forall_forall in HL. destruct (HL _ HM) as (L1 & L2 & L3 & L4 & L5 & L6).
    destruct (HU tok bid n _ _ Hb HI L1) as (_ & -> & _). destruct (somes_none (b_resps b)) as (j & Hj & HJ); [lia|]. exists j. split; [exact Hj|].
    specialize (HA (CbBatch bid j)). specialize (HP bid j). unfold core_of in HP. cbn [k_lg k_sk] in HP. rewrite HQ in *. cbn [todo map list_sum fold_right] in HP.
    unfold fcalls in HA. cbn [flat_map] in HA. rewrite count_nil in HA. rewrite <- L2 in HP. destruct (j <? length (b_resps b)) eqn:EJ; [|apply Nat.ltb_ge in EJ; lia].
    assert (HZ : count (CbBatch bid j) (called (s_log s)) = 0).
    { apply count_occ_not_In. intros HX. unfold called in HX. apply in_flat_map in HX as (e & H1 & H2). destruct e; cbn in H2; try contradiction.
      destruct H2 as [->|[]]. apply L6 in H1. congruence. }
    apply (count_occ_In cb_dec). unfold count in *. unfold todo in HP. cbn in HP. lia.
  - left. assert (HE : ended bid (s_log s) + ending bid (s_stack s) = 1).
    { rewrite HD; [|exact Hb|intros (b & HX); apply HN; apply in_map_iff; exists (bid, b); auto]. destruct (size (s_log s) bid =? 0) eqn:E; [|reflexivity].
      apply Nat.eqb_eq in E. pose proof (size_in _ _ _ _ HI). destruct (HU tok bid n tok n Hb HI HI) as (_ & _ & HX). lia. }
    rewrite HQ in HE. cbn in HE. destruct (ended_in bid (s_log s)) as (t & rs & HX); [unfold ended in *; lia|].
    destruct (HF t bid rs (or_introl HX)) as (F1 & _). destruct (HU tok bid n t (length rs) Hb HI F1) as (-> & -> & _). eauto.
Qed.
(** an empty batch is called at once *)
Theorem empty_batch_is_called_at_once (s : st) (tok : nat) :
  (s_stack s = [] \/ exists k, s_stack s = FUser :: k) ->
  exists s1 s2, step s (LApi (ABatch tok [])) = Some s1 /\ step s1 (LRun C0) = Some s2 /\ s_log s2 = s_log s ++ [EBatch tok 0 0; EBatchCalled tok 0 []].
Proof.
  intros HT. assert (HE : step s (LApi (ABatch tok [])) = Some (push_requests s tok [])).
  { cbn [step api]. destruct HT as [->|(k & ->)]; reflexivity. }
  eexists _, _. split; [exact HE|]. split; [reflexivity|]. unfold push_requests. cbn [exec]. sg. now rewrite <- app_assoc.
Qed.
Example batch_is_called_when_complete_ex : exists s t, reaches ex_base ex_run s /\ quiet s /\ In (EBatch 9 1 2) (s_log s) /\ In (CbBatch 1 1) (waiting s) /\
  run s ex_more = Some t /\ In (EBatchCalled 9 1 [Some (Remote 71); Some (Remote 72)]) (s_log t).
Proof.
  unfold reaches. destruct (run (init ex_base) ex_run) as [s|] eqn:E; vm_compute in E; [|discriminate E]. injection E as <-. eexists _, _.
  split; [reflexivity|]. split; [reflexivity|]. split; [cbn; auto 20|]. split; [cbn; auto|]. split; [vm_compute; reflexivity|]. cbn. auto 40.
Qed.

(** ** C103 *)
(** If request timeouts are never switched off, every request in the queue has its timer armed, and when that
    timer fires the request's callback is called with 408, whatever else the client is doing. *)
Theorem queued_request_times_out (base : uri) (ls : list label) (s : st) (x : ctx) :
  (forall l, In l ls -> l <> LApi (ASetTimed false)) -> reaches base ls s -> quiet s -> In x (s_pending s) ->
  exists s1 s2, step s (LIo (ITimer (x_id x))) = Some s1 /\ step s1 (LRun C0) = Some s2 /\
    s_log s2 = s_log s ++ [ECalled (x_cb x) (Local 408)] /\ Permutation (waiting s) (x_cb x :: waiting s2).
Proof.
  intros HL H HQ HI. assert (HT : Timed (core_of s)).
  { apply (reach_moves_if stays_timed Timed base) with (ls := ls).
    - split; [reflexivity|]. split; constructor.
    - intros. eapply timed_move; eauto.
    - rewrite Forall_forall. exact HL.
    - exact H. }
  destruct HT as (_ & HT & HN). unfold core_of in HT, HN. cbn [k_pe k_ti k_nr] in HT, HN. rewrite Forall_forall in HT. destruct (HT x HI) as [HT1 _].
  assert (HE : existsb (fun y => y =? x_id x) (s_timers s) = true).
  { apply existsb_exists. exists (x_id x). split; [exact HT1|apply Nat.eqb_refl]. }
  assert (HTP : exists r, take_pending (x_id x) (s_pending s) = Some (x, r) /\ Permutation (s_pending s) (x :: r)).
  { clear - HI HN. induction (s_pending s) as [|y l IH]; [contradiction|]. cbn [take_pending]. cbn [map] in HN. inversion HN as [|? ? N1 N2]; subst.
    destruct (x_id y =? x_id x) eqn:E.
    - apply Nat.eqb_eq in E. destruct HI as [->|HI]; [eauto|]. exfalso. apply N1. rewrite E. now apply in_map.
    - destruct HI as [->|HI]; [now rewrite Nat.eqb_refl in E|]. destruct (IH HI N2) as (r & -> & HP). exists (y :: r). split; [reflexivity|].
      rewrite HP. apply perm_swap. }
  destruct HTP as (r & HTP & HP). do 2 eexists. split; [|split].
  - cbn [step]. rewrite HQ. cbn [io]. rewrite HE. sg. rewrite HTP. reflexivity.
  - cbn [step]. sg. reflexivity.
  - cbn [exec]. sg. split.
    + destruct (x_cb x) as [t|bid idx]; [reflexivity|]. unfold batch_lambda. destruct (batch_of _ bid); [|reflexivity]. destruct (_ =? _); reflexivity.
    + assert (HW : Permutation (waiting s) (x_cb x :: map x_cb (opt (s_active s) ++ r))).
      { unfold waiting. rewrite !map_app. rewrite (Permutation_map x_cb HP). cbn [map]. symmetry. apply Permutation_middle. }
      rewrite HW. apply perm_skip. destruct (x_cb x) as [t|bid idx]; [reflexivity|]. unfold batch_lambda. destruct (batch_of _ bid); [|reflexivity]. destruct (_ =? _); reflexivity.
Qed.
Example queued_request_times_out_ex : exists s x, reaches ex_base ex_run s /\ quiet s /\ s_active s = Some x /\
  exists s', reaches ex_base (ex_run ++ [LApi (APush 5 ex_rel); LRun C0]) s' /\ quiet s' /\ map x_cb (s_pending s') = [CbUser 5].
Proof.
  unfold reaches. destruct (run (init ex_base) ex_run) as [s|] eqn:E; vm_compute in E; [|discriminate E]. injection E as <-. eexists _, _.
  split; [reflexivity|]. split; [reflexivity|]. split; [reflexivity|]. eexists. split; [vm_compute; reflexivity|]. split; reflexivity.
Qed.
(** The timer is all there is: a callback that disconnects and pushes again leaves the client with a request in
    the queue, no connection, no attempt under way and nothing deferred; apart from timers no event is possible,
    and a further push only joins the queue. *)
Definition stuck_run : list label :=
  [LApi (APush 1 ex_other); LRun C0; LApi ADisconnect; LRun C0; LRun C0; LRun C0; LRun C0;
   LApi (APush 2 ex_rel); LRun C0; LRun C0; LReturn; LRun C0; LIo IDefer].
Theorem disconnect_and_push_in_a_callback_stalls :
  exists s, reaches ex_base stuck_run s /\ quiet s /\ waiting s = [CbUser 2] /\ s_connecting s = true /\ s_conn s = None /\
    (forall e, (forall id, e <> ITimer id) -> io s e = None) /\
    (forall tok, exists s', run s [LApi (APush tok ex_rel); LRun C0] = Some s' /\ quiet s' /\ waiting s' = [CbUser 2; CbUser tok] /\ s_conn s' = None).
Proof.
  unfold reaches. destruct (run (init ex_base) stuck_run) as [s|] eqn:E; vm_compute in E; [|discriminate E]. injection E as <-. eexists.
  split; [reflexivity|]. split; [reflexivity|]. split; [reflexivity|]. split; [reflexivity|]. split; [reflexivity|]. split.
  - intros e He. destruct e as [[]|n k| |f c|id|]; try reflexivity. now contradiction (He id).
  - intros tok. eexists. split; [vm_compute; reflexivity|]. repeat split.
Qed.

(** ** C104 *)
(** Two URIs have the same origin exactly if scheme and host are equal up to ASCII case and both have the same
    valid port, the scheme's default standing for a missing one. *)
Lemma dv_spec s : forall acc n, digits_value acc s = Some n <-> Forall Digit s /\ n = (acc * 10 ^ N.of_nat (length s) + dec_val s)%N.
Proof.
  induction s as [|c s IH]; intros acc n; cbn [digits_value dec_val length].
  - rewrite N.mul_1_r, N.add_0_r. split; [intros E; injection E as <-; auto|intros [_ ->]; reflexivity].
  - replace (N.of_nat (S (length s))) with (N.succ (N.of_nat (length s))) by lia. rewrite N.pow_succ_r'. destruct ((c <? 48) || (57 <? c))%N eqn:E.
    + split; [discriminate|]. intros [H _]. exfalso. inversion H; subst. unfold Digit in *. lia.
    + rewrite IH. split; intros [H1 H2]; (split; [|nia]).
      * constructor; [unfold Digit; lia|exact H1].
      * now inversion H1.
Qed.
Lemma ascii_eq_iff a b : ascii_eq a b = true <-> map lower a = map lower b.
Proof.
  unfold ascii_eq. rewrite beq_eq. assert (H : forall l, map ascii_to_lower l = map lower l). { intros l. apply map_ext. intros c. destruct (c <? 256)%N eqn:E; [apply ascii_to_lower_spec; lia|].
    unfold ascii_to_lower, lower. replace ((65 <=? c) && (c <=? 90))%N with false by lia. apply N.lor_0_r. }
  now rewrite !H.
Qed.
Lemma port_iff u p : effective_port_number u = Some p <-> Port u p.
Proof.
  unfold effective_port_number, effective_port, Port. destruct (u_port u) as [|c r] eqn:EU.
  - destruct (ascii_eq (u_scheme u) (str "http") || ascii_eq (u_scheme u) (str "ws")) eqn:E1.
    + apply orb_true_iff in E1. rewrite !ascii_eq_iff in E1. change (map lower (str "http")) with (str "http") in E1. change (map lower (str "ws")) with (str "ws") in E1. vm_compute (digits_value 0 (str "80")).
      cbn. split; [intros E; injection E as <-; right; left; auto|]. intros [[H _]|[(_ & _ & ->)|(_ & H & _)]]; [contradiction|reflexivity|]. exfalso. destruct E1 as [E1|E1], H as [H|H]; rewrite E1 in H; discriminate H.
    + apply orb_false_iff in E1 as [E1 E1']. assert (N1 : map lower (u_scheme u) <> str "http") by (intros H; rewrite (proj2 (ascii_eq_iff _ (str "http")) H) in E1; discriminate E1).
      assert (N2 : map lower (u_scheme u) <> str "ws") by (intros H; rewrite (proj2 (ascii_eq_iff _ (str "ws")) H) in E1'; discriminate E1').
      destruct (ascii_eq (u_scheme u) (str "https") || ascii_eq (u_scheme u) (str "wss")) eqn:E2.
      * apply orb_true_iff in E2. rewrite !ascii_eq_iff in E2. change (map lower (str "https")) with (str "https") in E2. change (map lower (str "wss")) with (str "wss") in E2. vm_compute (digits_value 0 (str "443")).
        cbn. split; [intros E; injection E as <-; right; right; auto|]. intros [[H _]|[(_ & [H|H] & _)|(_ & _ & ->)]]; try contradiction. reflexivity.
      * apply orb_false_iff in E2 as [E2 E2']. split; [discriminate|]. intros [[H _]|[(_ & [H|H] & _)|(_ & [H|H] & _)]]; try contradiction; exfalso.
        -- rewrite (proj2 (ascii_eq_iff _ (str "https")) H) in E2. discriminate E2.
        -- rewrite (proj2 (ascii_eq_iff _ (str "wss")) H) in E2'. discriminate E2'.
  - destruct (digits_value 0 (c :: r)) as [v|] eqn:ED.
    + apply dv_spec in ED as [H1 H2]. rewrite N.mul_0_l, N.add_0_l in H2. destruct (65535 <? v)%N eqn:E.
      * split; [discriminate|]. intros [(_ & (_ & _ & H) & H3)|[(H & _)|(H & _)]]; [|discriminate H|discriminate H]. exfalso. lia.
      * split; [intros HE; injection HE as <-; left; split; [discriminate|]; split; [repeat split; auto; discriminate|lia]|].
        intros [(_ & (_ & _ & H) & H3)|[(H & _)|(H & _)]]; [|discriminate H|discriminate H]. congruence.
    + split; [discriminate|]. intros [(_ & (_ & H & H') & H3)|[(H & _)|(H & _)]]; [|discriminate H|discriminate H]. exfalso.
      assert (HD : digits_value 0 (c :: r) = Some p) by (apply dv_spec; split; [exact H|lia]). congruence.
Qed.
Theorem same_origin_spec (a b : uri) : same_origin a b = true <-> SameOrigin a b.
Proof.
  unfold same_origin, SameOrigin. rewrite !andb_true_iff, !ascii_eq_iff. split.
  - intros [[H1 H2] H3]. refine (conj H1 (conj H2 _)). destruct (effective_port_number a) as [p|] eqn:EA; [|discriminate]. destruct (effective_port_number b) as [q|] eqn:EB; [|discriminate].
    apply N.eqb_eq in H3. subst. exists q. split; now apply port_iff.
  - intros (H1 & H2 & p & HA & HB). apply port_iff in HA, HB. rewrite HA, HB, N.eqb_refl. auto.
Qed.
(** every request written goes to the origin the client was made for *)
Theorem only_own_origin_is_written (base : uri) (ls : list label) (s : st) (w : nat) (c : cb) (u : uri) :
  reaches base ls s -> In (ESent w c u) (s_log s) -> SameOrigin u base.
Proof.
  intros H. assert (HO : Origin base (core_of s)).
  { revert ls s H. apply (reach_moves (Origin base) base); [|intros; eapply origin_move; eauto]. repeat split; [constructor|]. intros w' c' u' []. }
  destruct HO as (_ & _ & HO). intros HI. apply same_origin_spec. eapply HO; eauto.
Qed.
(** a request for another origin is answered 400 and is not queued *)
Theorem other_origin_is_refused (s : st) (tok : nat) (u : uri) :
  (s_stack s = [] \/ exists k, s_stack s = FUser :: k) -> u_host u <> [] -> ~ SameOrigin u (s_base s) ->
  exists s1 s2, step s (LApi (APush tok u)) = Some s1 /\ step s1 (LRun C0) = Some s2 /\
    s_log s2 = s_log s ++ [EPushed (CbUser tok); ECalled (CbUser tok) (Local 400)] /\ waiting s2 = waiting s.
Proof.
  intros HT HH HO. assert (HE : step s (LApi (APush tok u)) = Some (push_request s u (CbUser tok))).
  { cbn [step api]. destruct HT as [->|(k & ->)]; reflexivity. }
  assert (HP : prepare_request (s_base s) u = false).
  { unfold prepare_request, ensure_absolute_uri. destruct (u_host u) eqn:E; [contradiction|]. rewrite E. destruct (same_origin u (s_base s)) eqn:ES; [|reflexivity]. now apply same_origin_spec in ES. }
  unfold push_request in HE. sv HE. rewrite HP in HE. cbn [negb] in HE.
  eexists _, _. split; [exact HE|]. split; [reflexivity|]. unfold waiting. sg. cbn [exec]. sg. rewrite <- app_assoc. auto.
Qed.
Example same_origin_ex :
  same_origin (mkUri (str "HTTP") (str "Example.org") []) (mkUri (str "http") (str "example.ORG") (str "80")) = true /\
  same_origin (mkUri (str "http") (str "example.org") (str "080")) (mkUri (str "http") (str "example.org") []) = true /\
  same_origin (mkUri (str "http") (str "example.org") []) (mkUri (str "https") (str "example.org") []) = false /\
  same_origin (mkUri (str "http") (str "example.org") (str "81")) (mkUri (str "http") (str "example.org") []) = false /\
  same_origin (mkUri (str "foo") (str "h") []) (mkUri (str "foo") (str "h") []) = false.
Proof. vm_compute. auto. Qed.
Print Assumptions each_request_is_called_back_once.
Print Assumptions batch_is_called_when_complete.
Print Assumptions queued_request_times_out.
