(** The HTTP/1.1 client: its connections (C98-C102). *)
From Verif Require Import Base UtilModel CliModel CliSpec CliProofs CliMoves CliInv CliBatch2 CliProps CliConn CliCorr CliDisc CliClose.
Local Open Scope nat_scope.

(** checks [obeys] on a literal run, one step at a time *)
Ltac walk tac := repeat (cbn [obeys]; split; [tac|]; match goal with |- context [step ?s ?l] => let v := eval vm_compute in (step s l) in change (step s l) with v; cbv iota end); exact I.

(** ** C98 *)
Definition times (t : nat) (l : list nat) : nat := count_occ Nat.eq_dec l t.
Lemma tot_occ t l : tot (occ t) l = times t l.
Proof.
  unfold times. induction l as [|x l IH]; [reflexivity|]. rewrite tot_cons, IH. cbn [count_occ]. unfold occ. destruct (Nat.eq_dec x t) as [->|N]; [now rewrite Nat.eqb_refl|].
  apply Nat.eqb_neq in N. now rewrite N.
Qed.
Lemma tot_asks t l : tot (asks t) l = times t (asked l).
Proof.
  unfold times. induction l as [|e l IH]; [reflexivity|]. rewrite tot_cons. destruct e; cbn [asks Nat.add asked flat_map app]; try exact IH. rewrite IH. cbn [count_occ]. unfold occ, asked.
  destruct (Nat.eq_dec tok t) as [->|N]; [now rewrite Nat.eqb_refl|]. apply Nat.eqb_neq in N. now rewrite N.
Qed.
Lemma tot_tells t l : tot (tells t) l = times t (told l).
Proof.
  unfold times. induction l as [|e l IH]; [reflexivity|]. rewrite tot_cons. destruct e; cbn [tells Nat.add told flat_map app]; try exact IH. rewrite IH. cbn [count_occ]. unfold occ, told.
  destruct (Nat.eq_dec tok t) as [->|N]; [now rewrite Nat.eqb_refl|]. apply Nat.eqb_neq in N. now rewrite N.
Qed.
(** A callback passed to connect() is called at most once, and not lost: it has been called or is still stored. *)
Theorem connect_callback_is_called_at_most_once (base : uri) (ls : list label) (s : st) (t : nat) :
  reaches base ls s ->
  times t (told (s_log s)) <= times t (asked (s_log s)) /\
  (quiet s -> times t (asked (s_log s)) = times t (told (s_log s)) + times t (s_ccbs s)).
Proof.
  intros H. pose proof (ccb_reach t base ls s H) as HC. unfold CcbInv in HC. rewrite tot_asks, tot_tells, tot_occ in HC. split; [lia|].
  intros HQ. rewrite HQ in HC. rewrite tot_nil in HC. lia.
Qed.
(** The hoped-for "every connect() is answered" is false: disconnect() before the outcome leaves the callback
    stored, with no connection, no attempt and no event that could ever lead to its being called. *)
Theorem connect_then_disconnect_is_never_answered :
  exists s, reaches ex_base [LApi (AConnect (Some 1)); LRun C0; LApi ADisconnect; LRun C0; LRun C0; LRun C0; LRun C0] s /\ quiet s /\
    asked (s_log s) = [1] /\ told (s_log s) = [] /\ s_connecting s = false /\ forall e, io s e = None.
Proof.
  eexists. split; [vm_compute; reflexivity|]. split; [reflexivity|]. split; [reflexivity|]. split; [reflexivity|]. split; [reflexivity|].
  intros [[]|n k| |f c|id|]; reflexivity.
Qed.
Example connect_callback_ex : exists s, reaches ex_base [LApi (AConnect (Some 1)); LRun C0; LApi (AConnect (Some 2)); LIo (IConn true); LRun C0; LRun C0; LReturn; LRun C0;
    LRun C0; LRun C0; LReturn; LRun C0; LRun C0; LRun C0; LRun C0] s /\ quiet s /\ asked (s_log s) = [1; 2] /\ told (s_log s) = [1; 2] /\ s_connected s = true.
Proof. eexists. split; [vm_compute; reflexivity|]. repeat split. Qed.

(** ** C99 *)
(** If the connection's own timer does not fire, attempts do not finish inside the call that starts them and
    the peer sends one message per request, then every response handed to a callback is, on some transport, the
    i-th message received for the i-th request written, and that request is the callback's. *)
Theorem response_goes_to_its_request (base : uri) (ls : list label) (s : st) (c : cb) (n : nat) :
  reaches base ls s -> obeys (fun s l => l <> LIo ITimeout /\ later s l) (init base) ls -> Polite (s_log s) ->
  In (ECalled c (Remote n)) (s_log s) ->
  exists w i, nth_error (sents w (s_log s)) i = Some c /\ nth_error (gots w (s_log s)) i = Some n.
Proof. intros H HO HP HI. destruct (corr_reach base ls s H HO HP) as (_ & _ & HD). apply HD. now left. Qed.
Fixpoint polite_b (a l : list ev) : bool :=
  match l with
  | [] => true
  | e :: r => match e with EGot w _ _ => length (gots w a) <? length (sents w a) | _ => true end && polite_b (a ++ [e]) r
  end.
Lemma polite_sound l : forall p, polite_b p l = true -> forall a w n keep b, l = a ++ EGot w n keep :: b -> length (gots w (p ++ a)) < length (sents w (p ++ a)).
Proof.
  induction l as [|e l IH]; intros p H a w n keep b E; [destruct a; discriminate E|]. cbn [polite_b] in H. apply andb_prop in H as [H1 H2].
  destruct a as [|e' a]; cbn [app] in E; injection E as -> E.
  - rewrite app_nil_r. now apply Nat.ltb_lt.
  - specialize (IH _ H2 a w n keep b E). now rewrite <- app_assoc in IH.
Qed.
Lemma polite_check l : polite_b [] l = true -> Polite l.
Proof. intros H a w n keep b E. exact (polite_sound l [] H a w n keep b E). Qed.
(** With the timer it is false: a request times out, its callback pushes the next one, which is written to the
    connection being closed, and what the peer had sent for the first request completes the second. *)
Definition mixup_run : list label :=
  [LApi (APush 1 ex_rel); LRun C0; LRun C0; LIo (IConn true); LRun C0; LRun C0; LRun C0; LRun C0; LRun C0;
   LIo ITimeout; LRun C0; LRun C0; LApi (APush 2 ex_rel); LRun C0; LRun C0; LRun C0; LReturn; LRun C0; LRun C0; LRun C0;
   LIo (IDisc (Some (70, false)) false); LRun C0; LRun C0].
Theorem late_response_goes_to_the_next_request :
  exists s, reaches ex_base mixup_run s /\ Polite (s_log s) /\ sents 1 (s_log s) = [CbUser 1; CbUser 2] /\ gots 1 (s_log s) = [70] /\
    In (ECalled (CbUser 2) (Remote 70)) (s_log s).
Proof.
  eexists. split; [vm_compute; reflexivity|]. split; [apply polite_check; vm_compute; reflexivity|split; [reflexivity|split; [reflexivity|cbn; auto 20]]].
Qed.
Example response_goes_to_its_request_ex : exists s, reaches ex_base (ex_run ++ ex_more) s /\ In (ECalled (CbBatch 1 1) (Remote 72)) (s_log s) /\
  sents 1 (s_log s) = [CbUser 1; CbBatch 1 0; CbBatch 1 1] /\ gots 1 (s_log s) = [70; 71; 72].
Proof. eexists. split; [vm_compute; reflexivity|]. split; [cbn; auto 40|]. split; reflexivity. Qed.

(** ** C100 *)
(** When disconnect(), called from outside any callback, has returned, no request is held, whatever the
    callbacks it ran did (requests pushed from them included), and the connection is gone. *)
Theorem disconnect_settles_everything (base : uri) (ls ls' : list label) (s s1 s' : st) :
  reaches base ls s -> quiet s -> step s (LApi ADisconnect) = Some s1 -> obeys later s1 ls' -> returns s1 ls' s' ->
  waiting s' = [] /\ s_connected s' = false /\ s_conn s' = None /\ (forall c, count c (pushed (s_log s')) = count c (called (s_log s'))).
Proof.
  intros H HQ E HO HR. pose proof (depth_reach base ls s H) as HD. pose proof E as E0. cbn [step] in E0. rewrite HQ in E0. injection E0 as E1.
  assert (HS : Stage s1). { subst s1. split; [reflexivity|]. left. unfold quiet in HQ. unfold api, do_disconnect, push. sg. now rewrite HQ. }
  assert (HD1 : Depth s1) by (eapply depth_step; eauto).
  destruct (stage_returns ls' s1 s' HD1 HS HO HR) as [(HC & HS') HQ']. rewrite HQ' in HS'. destruct HS' as [HS'|(HA & [(k & HS')|(HP & [HS'|[HS'|(_ & HS')]])])];
    try discriminate HS'; [destruct k; discriminate HS'|].
  assert (HW : waiting s' = []) by (unfold waiting; now rewrite HA, HP). refine (conj HW (conj HC (conj HS' _))). intros c.
  assert (HAcc : Acc s').
  { assert (HA1 : Acc s1) by (eapply acc_step; [apply (acc_reach base ls); exact H|exact E]). clear - HR HA1. revert s1 HA1 HR. induction ls' as [|l ls' IH]; cbn [returns]; intros s1 HA1 HR.
    - destruct HR as [_ <-]. exact HA1.
    - destruct HR as (_ & s2 & E & HR). apply (IH s2); [eapply acc_step; eauto|exact HR]. }
  destruct HAcc as (A & _). specialize (A c). rewrite HW in A. unfold quiet in HQ'. rewrite HQ' in A. cbn [fcalls flat_map] in A. rewrite !count_nil in A. lia.
Qed.
Example disconnect_settles_everything_ex : exists s s1 s', reaches ex_base ex_run s /\ quiet s /\ step s (LApi ADisconnect) = Some s1 /\
  let ls' := [LRun C0; LRun C0; LRun C0; LApi (APush 7 ex_rel); LRun C0; LRun C0; LReturn; LRun C0; LRun C0; LRun C0; LRun C0; LReturn; LRun C0; LRun C0; LRun C0; LRun C0] in
  obeys later s1 ls' /\ returns s1 ls' s' /\ In (ECalled (CbBatch 1 1) (Local 503)) (s_log s') /\ In (ECalled (CbUser 7) (Local 503)) (s_log s').
Proof.
  eexists _, _, _. split; [vm_compute; reflexivity|]. split; [reflexivity|].
  split; [vm_compute; reflexivity|]. cbn zeta. split; [|split; [|split]].
  - walk ltac:(unfold later; intros; discriminate).
  - cbn [returns]. repeat (split; [discriminate|]; eexists; split; [vm_compute; reflexivity|]). split; reflexivity.
  - cbn. auto 60.
  - cbn. auto 60.
Qed.


(** ** C101 *)
(** After a response that announces the close of its connection nothing more is written to that connection,
    if calls come from outside callbacks. *)
Theorem nothing_is_written_after_announced_close_partial (base : uri) (ls : list label) (s : st) :
  reaches base ls s -> obeys modest (init base) ls ->
  forall before w n after, s_log s = before ++ EGot w n false :: after -> forall c u, ~ In (ESent w c u) after.
Proof. intros H HO. exact (cl_reach base ls s HO H). Qed.
(** From inside a callback it is false: the callback of the closing response pushes a request, which goes out
    on the connection the peer is closing and fails with 502. *)
Definition closing_run : list label :=
  [LApi (APush 1 ex_rel); LRun C0; LRun C0; LIo (IConn true); LRun C0; LRun C0; LRun C0; LRun C0; LRun C0;
   LIo (IResp 70 false); LRun C0; LRun C0; LApi (APush 2 ex_rel); LRun C0; LRun C0; LRun C0; LReturn; LRun C0; LRun C0; LRun C0; LRun C0;
   LIo (IDisc None true); LRun C0; LRun C0; LRun C0].
Theorem push_in_the_callback_of_a_closing_response_fails :
  exists s a b, reaches ex_base closing_run s /\ s_log s = a ++ EGot 1 70 false :: b /\ In (ESent 1 (CbUser 2) ex_base) b /\ In (ECalled (CbUser 2) (Local 502)) b.
Proof.
  eexists _, [EPushed (CbUser 1); EDestroyed 0; EOpened 1; ESent 1 (CbUser 1) ex_base], _. split; [vm_compute; reflexivity|]. split; [reflexivity|]. split; cbn; auto 20.
Qed.
(** and a closing message on an idle connection is not remembered *)
Definition idle_close_run : list label :=
  [LApi (AConnect None); LRun C0; LIo (IConn true); LRun C0; LRun C0; LRun C0; LIo (IResp 70 false); LRun C0; LRun C0;
   LApi (APush 1 ex_rel); LRun C0; LRun C0; LRun C0].
Theorem idle_close_is_ignored :
  exists s, reaches ex_base idle_close_run s /\ s_log s = [EDestroyed 0; EOpened 1; EGot 1 70 false; EPushed (CbUser 1); ESent 1 (CbUser 1) ex_base].
Proof. eexists. split; vm_compute; reflexivity. Qed.
Definition modest_run : list label :=
  [LApi (APush 1 ex_rel); LRun C0; LRun C0; LIo (IConn true); LRun C0; LRun C0; LRun C0; LRun C0; LRun C0;
   LApi (APush 2 ex_rel); LRun C0; LIo (IResp 70 false); LRun C0; LRun C0; LReturn; LRun C0; LRun C0; LRun C0; LRun C0;
   LIo (IDisc None true); LRun C0; LRun C0; LRun C0; LRun C0; LIo IDefer; LIo IDefer; LRun C0; LIo (IConn true); LRun C0; LRun C0; LRun C0; LRun C0; LRun C0].
Example nothing_is_written_after_announced_close_ex :
  exists s, reaches ex_base modest_run s /\ obeys modest (init ex_base) modest_run /\ In (EGot 1 70 false) (s_log s) /\ In (ESent 2 (CbUser 2) ex_base) (s_log s).
Proof.
  eexists. split; [vm_compute; reflexivity|]. split; [|split; cbn; auto 20].
  unfold modest_run. walk ltac:(unfold modest, later, quiet; split; [|split]; intros; first [discriminate | reflexivity | vm_compute; discriminate]).
Qed.

(** ** C102 *)
(** A connection object is not destroyed while its own dispatch is under way, if a transport told to close
    reports closed only afterwards. *)
Theorem connection_outlives_its_dispatch_partial (base : uri) (ls : list label) (s s' : st) (l : label) (cid : nat) (gone : bool) :
  reaches base ls s -> obeys gentle (init base) ls -> gentle s l -> step s l = Some s' -> In (FIn cid gone) (s_stack s) ->
  exists es, s_log s' = s_log s ++ es /\ forall x, ~ In (EDestroyed x) es.
Proof.
  intros H HO HG E HI. assert (HInv : Depth s /\ Ins (s_conn s) (s_stack s)).
  { apply (run_inv_if (fun s => Depth s /\ Ins (s_conn s) (s_stack s)) gentle (fun s l s' HP HQ ES => proj1 (ins_step s l s' HP HQ ES)) ls (init base) s); auto. split; [reflexivity|].
    refine (conj I (conj _ _)); [cbn; lia|]. intros ? ? []. }
  apply (proj2 (ins_step s l s' HInv HG E)). eapply in_tot; eauto.
Qed.
(** Without that it is false: the transport reports closed, the callback of the failed request pushes another
    one, and the new connection object replaces the one whose dispatch is running. *)
Definition destroyed_run : list label :=
  [LApi (APush 1 ex_rel); LRun C0; LRun C0; LIo (IConn true); LRun C0; LRun C0; LRun C0; LRun C0; LRun C0;
   LIo (IDisc None true); LRun C0; LRun C0; LRun C0; LApi (APush 2 ex_rel); LRun C0].
Theorem connection_is_destroyed_inside_its_dispatch :
  exists s, reaches ex_base destroyed_run s /\ In (FIn 1 true) (s_stack s) /\ In (EDestroyed 1) (s_log s).
Proof. eexists. split; [vm_compute; reflexivity|]. split; cbn; auto 20. Qed.
Example connection_outlives_its_dispatch_ex :
  exists s s', let ls := firstn 11 closing_run in
    reaches ex_base ls s /\ obeys gentle (init ex_base) ls /\ gentle s (LRun C0) /\ step s (LRun C0) = Some s' /\ In (FIn 1 false) (s_stack s).
Proof.
  eexists _, _. cbn zeta. split; [vm_compute; reflexivity|]. split; [|split; [|split; [vm_compute; reflexivity|cbn; auto 20]]].
  - unfold closing_run. cbn [firstn]. walk ltac:(unfold gentle; split; [|split]; intros; first [discriminate | congruence | vm_compute; reflexivity]).
  - unfold gentle. split; [|split]; intros; discriminate.
Qed.
Print Assumptions connect_callback_is_called_at_most_once.
Print Assumptions response_goes_to_its_request.
Print Assumptions disconnect_settles_everything.
Print Assumptions nothing_is_written_after_announced_close_partial.
Print Assumptions connection_outlives_its_dispatch_partial.
