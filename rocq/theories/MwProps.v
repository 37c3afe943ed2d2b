From Verif Require Import Base UtilModel UtilSpec Http1Model Http1Spec RecvModel RecvInv StaticModel CorsSpec CtxModel MwModel.
Local Open Scope N_scope.

(** ** C157: error handling *)
Section Errors.
Variable handler : Type.
Notation registration := (registration handler).
(** The last handler given for that very status. *)
Fixpoint last_for (c : Z) (l : list registration) : option handler :=
  match l with
  | [] => None
  | OnStatus _ d (Some h) :: r => match last_for c r with Some x => Some x | None => if (d =? c)%Z then Some h else None end
  | _ :: r => last_for c r
  end.
(** The first handler given for a range with that status in it. *)
Fixpoint first_range (c : Z) (l : list registration) : option handler :=
  match l with
  | [] => None
  | OnRange _ a b (Some h) :: r => if ((a <=? c) && (c <=? b))%Z then Some h else first_range c r
  | _ :: r => first_range c r
  end.
Fixpoint last_any (l : list registration) : option handler :=
  match l with [] => None | OnAny _ (Some h) :: r => match last_any r with Some x => Some x | None => Some h end | _ :: r => last_any r end.
Definition Chosen (c : Z) (l : list registration) : option handler :=
  match last_for c l with
  | Some h => Some h
  | None => if ((100 <=? c) && (c <? 600))%Z then first_range c l else None
  end.
Lemma find_assign c d h l : find_status handler c (assign handler d h l) = if (d =? c)%Z then Some h else find_status handler c l.
Proof.
  unfold find_status. induction l as [|[e x] l IH]; cbn [assign find fst snd]; [destruct (d =? c)%Z; reflexivity|].
  destruct (Z.eqb_spec e d) as [->|D]; cbn [find fst snd].
  - destruct (Z.eqb_spec d c); reflexivity.
  - destruct (Z.eqb_spec e c) as [->|E]; [|exact IH]. destruct (Z.eqb_spec d c); [congruence|reflexivity].
Qed.
Lemma find_snoc c d h l : find_status handler c (l ++ [(d, h)]) = match find_status handler c l with Some x => Some x | None => if (d =? c)%Z then Some h else None end.
Proof.
  unfold find_status. induction l as [|[e x] l IH]; cbn [app find fst snd]; [destruct (d =? c)%Z; reflexivity|]. destruct (e =? c)%Z; [reflexivity|exact IH].
Qed.
Lemma find_emplace c d h l : find_status handler c (try_emplace handler d h l) = match find_status handler c l with Some x => Some x | None => if (d =? c)%Z then Some h else None end.
Proof.
  unfold try_emplace. destruct (find_status handler d l) as [x|] eqn:Q; [|apply find_snoc]. destruct (find_status handler c l) as [y|] eqn:W; [reflexivity|].
  destruct (Z.eqb_spec d c) as [->|]; [congruence|reflexivity].
Qed.
Lemma find_range c h n : forall a l, find_status handler c (range handler n a h l) =
  match find_status handler c l with Some x => Some x | None => if ((a <=? c) && (c <? a + Z.of_nat n) && ((100 <=? c) && (c <? 600)))%Z then Some h else None end.
Proof.
  induction n as [|n IH]; intros a l; cbn [range].
  - destruct (find_status handler c l); [reflexivity|]. destruct (Z.leb_spec a c); destruct (Z.ltb_spec c (a + Z.of_nat 0)); cbn [andb]; try reflexivity. lia.
  - rewrite IH. destruct ((100 <=? a) && (a <? 600))%Z eqn:Q.
    + rewrite find_emplace. destruct (find_status handler c l) as [x|]; [reflexivity|]. destruct (Z.eqb_spec a c) as [->|D].
      * rewrite Q. rewrite Z.leb_refl. destruct (Z.ltb_spec c (c + Z.of_nat (S n))); [reflexivity|lia].
      * destruct (Z.leb_spec (a + 1) c), (Z.leb_spec a c), (Z.ltb_spec c (a + 1 + Z.of_nat n)), (Z.ltb_spec c (a + Z.of_nat (S n))); cbn [andb]; try reflexivity; lia.
    + destruct (find_status handler c l) as [x|]; [reflexivity|]. destruct (Z.eqb_spec a c) as [->|D].
      * rewrite Q. rewrite !andb_false_r. reflexivity.
      * destruct (Z.leb_spec (a + 1) c), (Z.leb_spec a c), (Z.ltb_spec c (a + 1 + Z.of_nat n)), (Z.ltb_spec c (a + Z.of_nat (S n))); cbn [andb]; try reflexivity; lia.
Qed.
Definition chosen_after (c : Z) (f : option handler) (l : list registration) : option handler :=
  match last_for c l with Some h => Some h | None => match f with Some x => Some x | None => if ((100 <=? c) && (c <? 600))%Z then first_range c l else None end end.
Lemma register_chosen c l : forall t, find_status handler c (t_status handler (fold_left (register handler) l t)) = chosen_after c (find_status handler c (t_status handler t)) l.
Proof.
  induction l as [|r l IH]; intro t; cbn [fold_left]; unfold chosen_after in *; cbn [last_for first_range].
  - destruct (find_status _ _ _); [reflexivity|]. now destruct ((100 <=? c) && (c <? 600))%Z.
  - rewrite IH. destruct r as [d [h|]|a b [h|]|[h|]]; cbn [register t_status last_for first_range]; try reflexivity.
    + rewrite find_assign. destruct (last_for c l) as [x|]; [reflexivity|]. destruct (d =? c)%Z; reflexivity.
    + rewrite find_range. destruct (last_for c l) as [x|]; [reflexivity|]. destruct (find_status handler c (t_status handler t)) as [x|]; [reflexivity|].
      destruct ((100 <=? c) && (c <? 600))%Z; [|now rewrite andb_false_r]. rewrite andb_true_r.
      destruct (Z.leb_spec a c), (Z.leb_spec c b), (Z.ltb_spec c (a + Z.of_nat (Z.to_nat (b - a + 1)))); cbn [andb]; try reflexivity; lia.
Qed.
Lemma register_any l : forall t, t_generic handler (fold_left (register handler) l t) = match last_any l with Some h => Some h | None => t_generic handler t end.
Proof.
  induction l as [|r l IH]; intro t; cbn [fold_left last_any]; [reflexivity|]. rewrite IH. destruct r as [d [h|]|a b [h|]|[h|]]; cbn [register t_generic last_any]; try reflexivity.
  destruct (last_any l); reflexivity.
Qed.
End Errors.
(** After any registrations: the handler of a status is the last one given for that status alone, otherwise the first one given for a range that
    contains it (statuses 100 to 599); the general handler is the last one given. Null functions count for nothing. *)
Theorem c157_registered : forall handler l, (forall c, find_status handler c (t_status handler (configured handler l)) = Chosen handler c l) /\
  t_generic handler (configured handler l) = last_any handler l.
Proof.
  intros handler l. split.
  - intro c. unfold configured. rewrite register_chosen. reflexivity.
  - unfold configured. rewrite register_any. destruct (last_any handler l); reflexivity.
Qed.
Print Assumptions c157_registered.
(** What happens to an error: its handler is called once; the general one is called once if there is no handler or it throws, with the message found
    in the context it leaves or else the status; nothing else is called, and the context that goes out is the one the last of them left. *)
Theorem c157_handled : forall S status message handler call call_generic t (c : S) c' cs,
  process S status message handler call call_generic t c = (c', cs) ->
  let m := fun x : S => match message x with [] => str "Error encountered: status " ++ to_string (status c) | m => m end in
  match find_status handler (status c) (t_status handler t), t_generic handler t with
  | Some h, None => cs = [Specific handler h] /\ c' = fst (call h c)
  | Some h, Some g =>
      (snd (call h c) = false -> cs = [Specific handler h] /\ c' = fst (call h c)) /\
      (snd (call h c) = true -> cs = [Specific handler h; Generic handler g (m (fst (call h c)))] /\ c' = fst (call_generic g (m (fst (call h c))) (fst (call h c))))
  | None, Some g => cs = [Generic handler g (m c)] /\ c' = fst (call_generic g (m c) c)
  | None, None => cs = [] /\ c' = c
  end.
Proof.
  intros S status message handler call call_generic t c c' cs H m. unfold process in H. subst m. cbv beta.
  destruct (find_status handler (status c) (t_status handler t)) as [h|].
  - destruct (call h c) as [c1 threw] eqn:Q. cbn [fst snd]. destruct (t_generic handler t) as [g|].
    + destruct threw; cbn [negb] in H; injection H as <- <-; split; intro K; try discriminate K; auto.
    + injection H as <- <-. auto.
  - destruct (t_generic handler t) as [g|]; injection H as <- <-; auto.
Qed.
Print Assumptions c157_handled.
Example c157_ex : let t := configured nat [OnRange nat 400 499 (Some 1%nat); OnRange nat 0 1000 (Some 2%nat); OnStatus nat 404 (Some 3%nat); OnRange nat 404 404 (Some 4%nat); OnAny nat (Some 5%nat)] in
  map (fun c => find_status nat c (t_status nat t)) [404; 400; 500; 600; 99]%Z = [Some 3; Some 1; Some 2; None; None]%nat /\
  process nat Z.of_nat (fun _ => []) nat (fun h c => (c + h, true)%nat) (fun h m c => (c + h, false)%nat) t 404%nat = (412%nat, [Specific nat 3%nat; Generic nat 5%nat (str "Error encountered: status 404")]).
Proof. vm_compute. auto. Qed.

(** ** C158: conditional and transform *)
Lemma runs_mono route error (code code' : chain_kind -> nat -> list ucall -> bool -> Prop) hook cb cn p c t c' : (forall k i us b, code k i us b -> code' k i us b) ->
  Runs route error code hook cb cn p c t c' -> Runs route error code' hook cb cn p c t c'.
Proof. intros M H. induction H; try (econstructor; eauto; fail). Qed.
(** The code of a chain in which one task is replaced. *)
Definition replaced (code : chain_kind -> nat -> list ucall -> bool -> Prop) (k0 : chain_kind) (i0 : nat) (new : list ucall -> bool -> Prop) : chain_kind -> nat -> list ucall -> bool -> Prop :=
  fun k i us b => k = k0 /\ i = i0 /\ new us b \/ ~ (k = k0 /\ i = i0) /\ code k i us b.
(** If the predicate says yes and does not touch the context, a child that does not throw runs exactly as if it stood in the chain itself. *)
Theorem c158_transparent : forall route error code hook cb cn k0 i0 pred yes no p c t c',
  (forall us b, pred us b <-> us = [] /\ b = Some true) -> (forall us, ~ yes us true) ->
  (Runs route error (replaced code k0 i0 (Conditional pred yes no)) hook cb cn p c t c' <-> Runs route error (replaced code k0 i0 yes) hook cb cn p c t c').
Proof.
  intros route error code hook cb cn k0 i0 pred yes no p c t c' P Y. split; apply runs_mono; unfold replaced; intros k i us b [(A & B & C)|C]; auto; left; split; auto; split; auto.
  - inversion C; subst; match goal with K : pred _ _ |- _ => apply P in K as [-> K]; try discriminate K end.
    + assumption.
    + exfalso. eapply Y; eauto.
  - destruct b; [exfalso; eapply Y; eauto|]. change us with ([] ++ us). apply Cond_yes; [now apply P|exact C].
Qed.
Print Assumptions c158_transparent.
(** If it says no, the other child does, *)
Theorem c158_otherwise : forall route error code hook cb cn k0 i0 pred yes child p c t c',
  (forall us b, pred us b <-> us = [] /\ b = Some false) -> (forall us, ~ child us true) ->
  (Runs route error (replaced code k0 i0 (Conditional pred yes (Some child))) hook cb cn p c t c' <-> Runs route error (replaced code k0 i0 child) hook cb cn p c t c').
Proof.
  intros route error code hook cb cn k0 i0 pred yes child p c t c' P Y. split; apply runs_mono; unfold replaced; intros k i us b [(A & B & C)|C]; auto; left; split; auto; split; auto.
  - inversion C; subst; match goal with K : pred _ _ |- _ => apply P in K as [-> K]; try discriminate K end; try discriminate;
      match goal with K : Some _ = Some _ |- _ => injection K as <- end; [assumption|]. exfalso. eapply Y; eauto.
  - destruct b; [exfalso; eapply Y; eauto|]. change us with ([] ++ us). eapply Cond_no; [now apply P|reflexivity|exact C].
Qed.
Print Assumptions c158_otherwise.
(** and without another child the request simply goes on. *)
Theorem c158_skipped : forall route error code hook cb cn k0 i0 pred yes p c t c',
  (forall us b, pred us b <-> us = [] /\ b = Some false) ->
  (Runs route error (replaced code k0 i0 (Conditional pred yes None)) hook cb cn p c t c' <->
   Runs route error (replaced code k0 i0 (fun us b => us = [UComplete CONTINUE] /\ b = false)) hook cb cn p c t c').
Proof.
  intros route error code hook cb cn k0 i0 pred yes p c t c' P. split; apply runs_mono; unfold replaced; intros k i us b [(A & B & C)|C]; auto; left; split; auto; split; auto.
  - inversion C; subst; match goal with K : pred _ _ |- _ => apply P in K as [-> K]; try discriminate K end; try discriminate. auto.
  - destruct C as [-> ->]. apply (Cond_none pred yes None []); [now apply P|reflexivity].
Qed.
Print Assumptions c158_skipped.
(** No exception leaves it, whatever the predicate and the children do; *)
Theorem c158_contained : forall pred yes no us b, Conditional pred yes no us b -> b = false.
Proof. intros pred yes no us b H. now inversion H. Qed.
Print Assumptions c158_contained.
(** if one of them throws after having made the calls [us], the response is marked 500; if the request is still going on it then fails as with
    complete(ERROR), and if it had been answered nothing more happens. *)
Theorem c158_thrown : forall route error code hook cb cn us c t c',
  Runs route error code hook cb cn (User (us ++ [USetStatus 500; UComplete ERROR])) c t c' ->
  exists t1 c1 t2, Runs route error code hook cb cn (User us) c t1 c1 /\ t = t1 ++ Made (USetStatus 500) :: Made (UComplete ERROR) :: t2 /\
    (finalised c1 = true -> t2 = [] /\ c' = set_status 500 c1) /\
    (finalised c1 = false -> Runs route error code hook cb cn (Call (UComplete ERROR)) (set_status 500 c1) t2 c').
Proof.
  intros route error code hook cb cn us. induction us as [|u us IH]; intros c t c' H; cbn [app] in H.
  - inversion H as [|u1 us1 c0 ta ca tb cc A B| | | | | | | | | | | | | | | | | | | | | | | | | | |]; subst. inversion A; subst.
    inversion B as [|u1 us1 c0 ta ca' tc cc' A' B'| | | | | | | | | | | | | | | | | | | | | | | | | | |]; subst. inversion B'; subst.
    exists [], c, ta. split; [constructor|]. split; [now rewrite app_nil_r|]. split.
    + intro F. inversion A'; subst; cbn in *; unfold stopped, finalised in *; cbn in *; destruct (state c); try discriminate; auto; rewrite ?orb_true_r in *; try discriminate.
    + intros _. exact A'.
  - inversion H as [|u1 us1 c0 ta ca tb cc A B| | | | | | | | | | | | | | | | | | | | | | | | | | |]; subst.
    destruct (IH _ _ _ B) as (t1 & c1 & t2 & R & -> & X & Y). exists (Made u :: ta ++ t1), c1, t2. split; [econstructor; eauto|]. split; [cbn; now rewrite <- app_assoc|auto].
Qed.
Print Assumptions c158_thrown.
(** A transformer that throws ends the same way, before the next task has seen the request; otherwise the next task is run. *)
Theorem c158_transform : forall route error code hook cb cn threw c t c', stopped c = false ->
  Runs route error code hook cb cn (User (transform_calls threw)) c t c' ->
  match threw with
  | Some true => exists t2, t = Made (USetStatus 500) :: Made (UComplete ERROR) :: t2 /\ Runs route error code hook cb cn (Call (UComplete ERROR)) (set_status 500 c) t2 c'
  | _ => exists t2, t = Made (UComplete CONTINUE) :: t2 /\ Runs route error code hook cb cn Proceed (set_chain (chain c) (S (index c)) (set_in_flight false c)) t2 c'
  end.
Proof.
  intros route error code hook cb cn threw c t c' L H.
  assert (G : forall us, us = [UComplete CONTINUE] -> Runs route error code hook cb cn (User us) c t c' ->
    exists t2, t = Made (UComplete CONTINUE) :: t2 /\ Runs route error code hook cb cn Proceed (set_chain (chain c) (S (index c)) (set_in_flight false c)) t2 c').
  { intros us -> K. inversion K as [|u1 us1 c0 ta ca tb cc A B| | | | | | | | | | | | | | | | | | | | | | | | | | |]; subst. inversion B; subst. exists ta. split; [now rewrite app_nil_r|].
    unfold stopped in L. apply orb_false_elim in L as [L1 L2]. inversion A; subst; try congruence; try assumption.
    unfold finalised in *. congruence. }
  destruct threw as [[]|]; [|now apply (G _ eq_refl)..].
  apply (c158_thrown route error code hook cb cn []) in H as (t1 & c1 & t2 & R & -> & _ & Y). inversion R; subst. exists t2. split; [reflexivity|]. apply Y.
  unfold stopped in L. apply orb_false_elim in L. apply L.
Qed.
Print Assumptions c158_transform.
Example c158_ex : exists c', Runs [true] [] (fun _ _ us b => Conditional (fun us b => us = [] /\ b = Some true) (fun us b => us = [USetStatus 204; UComplete COMPLETE] /\ b = true) None us b)
    (fun us => us = []) (fun us => us = []) (fun us => us = [])
    Proceed (mkCtx Running false false false RouteChain 0 0 false true 200)
    [Executed RouteChain 0; Made (USetStatus 204); Made (UComplete COMPLETE); Hooked; Responded 204; Made (USetStatus 500); Made (UComplete ERROR)] c'.
Proof.
  eexists. eapply (R_next_run [true] [] _ _ _ _ (mkCtx Running false false false RouteChain 0 0 false true 200) ([] ++ [USetStatus 204; UComplete COMPLETE] ++ [USetStatus 500; UComplete ERROR])); [reflexivity|reflexivity| |].
  - apply Cond_yes_throws; auto.
  - cbn [app]. change [Made (USetStatus 204); Made (UComplete COMPLETE); Hooked; Responded 204; Made (USetStatus 500); Made (UComplete ERROR)]
      with (Made (USetStatus 204) :: [] ++ Made (UComplete COMPLETE) :: [Hooked; Responded 204] ++ Made (USetStatus 500) :: [] ++ Made (UComplete ERROR) :: [] ++ []).
    eapply R_user; [constructor|]. eapply R_user.
    + apply R_complete_complete; [reflexivity|]. change [Hooked; Responded 204] with (Hooked :: [] ++ Responded 204 :: []).
      match goal with |- Runs _ _ ?code _ _ _ Finalize ?c _ _ =>
        refine (R_fin_respond [true] [] code _ _ _ c [] [] (set_pending false (set_in_flight false (set_state Finalised c))) [] [] _ _ _ _ _ _ _ _) end;
        [discriminate|reflexivity|reflexivity|constructor|reflexivity|reflexivity|constructor].
    + eapply R_user; [constructor|]. eapply R_user; [apply R_complete_done; [reflexivity|discriminate]|constructor].
Qed.

(** ** C159: timing and logging *)
(** What happens to a context before its response is sent. *)
Inductive op := Timed (name : list N) (cb : nat) (at_ : Z) | Logs (logger req res : nat) (method path : list N) | Sets (k : list N) (v : value) | SetsHeader (k v : list N) | SetsStatus (s : N).
Definition apply_op (c : ctx) (o : op) : ctx :=
  match o with
  | Timed n cb t => timing_process n cb t c
  | Logs l a b m p => fst (logging_process l a b m p c)
  | Sets k v => mkX (put k v (x_data c)) (x_hooks c) (x_headers c) (x_status c)
  | SetsHeader k v => mkX (x_data c) (x_hooks c) (set_value k v (x_headers c)) (x_status c)
  | SetsStatus s => mkX (x_data c) (x_hooks c) (x_headers c) s
  end.
(** When the timing middleware of that name last ran. *)
Fixpoint started (name : list N) (ops : list op) : option Z :=
  match ops with
  | [] => None
  | Timed n _ t :: r => match started name r with Some x => Some x | None => if list_eq_dec N.eq_dec n name then Some t else None end
  | _ :: r => started name r
  end.
(** The application keeps away from the keys of the timing middleware. *)
Definition Clean (ops : list op) : Prop := forall k v, In (Sets k v) ops -> forall n, k <> timing_key n.
Lemma get_put k v n d : get n (put k v d) = if list_eq_dec N.eq_dec k n then Some v else get n d.
Proof.
  unfold get. induction d as [|[m x] d IH]; cbn [put find fst snd].
  - destruct (list_eq_dec N.eq_dec k n) as [->|D]; [now rewrite beq_refl|]. now rewrite (proj2 (beq_neq k n) D).
  - destruct (beq m k) eqn:Q; cbn [find fst snd].
    + apply beq_eq in Q. subst m. destruct (list_eq_dec N.eq_dec k n) as [->|D]; [now rewrite beq_refl|]. now rewrite (proj2 (beq_neq k n) D).
    + destruct (beq m n) eqn:W; [|exact IH]. apply beq_eq in W. subst m. destruct (list_eq_dec N.eq_dec k n) as [->|D]; [now rewrite beq_refl in Q|reflexivity].
Qed.
Lemma started_data name ops : Clean ops -> forall c, get (timing_key name) (x_data (fold_left apply_op ops c)) =
  match started name ops with Some t => Some (Time t) | None => get (timing_key name) (x_data c) end.
Proof.
  induction ops as [|o ops IH]; intros C c; cbn [fold_left started]; [reflexivity|]. rewrite IH by (intros k v I; apply (C k v); now right).
  destruct o as [n cb t|l a b m p|k v|k v|s]; cbn [apply_op timing_process logging_process fst x_data]; try reflexivity.
  - destruct (started name ops); [reflexivity|]. rewrite get_put. unfold timing_key. destruct (list_eq_dec N.eq_dec n name) as [->|D].
    + destruct (list_eq_dec N.eq_dec _ _) as [_|K]; [reflexivity|now destruct K].
    + destruct (list_eq_dec N.eq_dec _ _) as [K|_]; [|reflexivity]. apply app_inv_head in K. contradiction.
  - destruct (started name ops); [reflexivity|]. rewrite get_put. destruct (list_eq_dec N.eq_dec k (timing_key name)) as [K|_]; [|reflexivity].
    exfalso. exact (C k v (or_introl eq_refl) name K).
Qed.
(** The hooks in the order of registration. *)
Definition hooks_of (ops : list op) : list hook :=
  flat_map (fun o => match o with Timed n cb _ => [TimingHook (timing_key n) cb] | Logs l _ b _ _ => [LoggingHook b l] | _ => [] end) ops.
Lemma hooks_data ops : forall c, x_hooks (fold_left apply_op ops c) = x_hooks c ++ hooks_of ops.
Proof.
  induction ops as [|o ops IH]; intro c; cbn [fold_left hooks_of flat_map]; [now rewrite app_nil_r|]. rewrite IH.
  destruct o; cbn [apply_op timing_process logging_process fst x_hooks app]; try reflexivity; now rewrite <- app_assoc.
Qed.
Definition last_status (ops : list op) (s : N) : N := fold_left (fun s o => match o with SetsStatus x => x | _ => s end) ops s.
Lemma status_data ops : forall c, x_status (fold_left apply_op ops c) = last_status ops (x_status c).
Proof. induction ops as [|o ops IH]; intro c; [reflexivity|]. unfold last_status in *. cbn [fold_left]. rewrite IH. destruct o; reflexivity. Qed.
(** What the observers registered by the operations report when the hooks run at the times [clock]. *)
Inductive Reports (status_name : N -> list N) (ops : list op) (status : N) : list (hook * Z) -> list report -> Prop :=
| Rep_nil : Reports status_name ops status [] []
| Rep_timing n cb now t r l : started n ops = Some t -> Reports status_name ops status r l ->
    Reports status_name ops status ((TimingHook (timing_key n) cb, now) :: r) (Duration cb (Z.quot (now - t) 1000000) :: l)
| Rep_logging level logger now r l : Reports status_name ops status r l ->
    Reports status_name ops status ((LoggingHook level logger, now) :: r) (Logged logger level (str "Response: " ++ dec status ++ str " " ++ status_name status) :: l).
Lemma started_in n cb ops : In (TimingHook (timing_key n) cb) (hooks_of ops) -> exists t, started n ops = Some t.
Proof.
  induction ops as [|o ops IH]; cbn [hooks_of flat_map]; [intros []|]. intro I. apply in_app_or in I as [I|I].
  - destruct o as [m c0 t| | | |]; cbn in I; try contradiction; destruct I as [I|[]]; try discriminate I. injection I as I ->. subst m. cbn [started].
    destruct (started n ops); [eauto|]. destruct (list_eq_dec N.eq_dec n n) as [_|K]; [eauto|now destruct K].
  - destruct (IH I) as [t E]. destruct o; cbn [started]; eauto. rewrite E. eauto.
Qed.
Lemma hook_names h ops : In h (hooks_of ops) -> (exists n cb, h = TimingHook (timing_key n) cb) \/ exists a b, h = LoggingHook a b.
Proof. unfold hooks_of. intro I. apply in_flat_map in I as (o & _ & I). destruct o; cbn [In] in I; try contradiction; destruct I as [<-|[]]; [left|right]; eauto. Qed.
Lemma lit_bytes a : forallb (fun c => c <? 256) a = true -> bytes_ok a.
Proof. unfold bytes_ok. rewrite forallb_forall, Forall_forall. intros H x I. apply N.ltb_lt, H, I. Qed.
Lemma run_reports ms_text status_name ops c0 hs : (forall z, bytes_ok (ms_text z)) -> Clean ops -> (forall h z, In (h, z) hs -> In h (hooks_of ops)) ->
  forall c, x_data c = x_data (fold_left apply_op ops c0) -> exists l, Reports status_name ops (x_status c) hs l /\ snd (run_hooks ms_text status_name hs c) = l /\
    x_status (fst (run_hooks ms_text status_name hs c)) = x_status c /\
    forall n, bytes_ok n -> map lower n <> map lower (str "X-Response-Time") -> HeaderMap (x_headers c) -> values_of n (fields_of (x_headers (fst (run_hooks ms_text status_name hs c)))) = values_of n (fields_of (x_headers c)).
Proof.
  intros MS C. induction hs as [|[h now] hs IH]; intros I c D; cbn [run_hooks].
  - exists []. split; [constructor|auto].
  - assert (I' : forall h z, In (h, z) hs -> In h (hooks_of ops)) by (intros h' z J; apply (I h' z); now right).
    assert (J : In h (hooks_of ops)) by (apply (I h now); now left).
    destruct (hook_names _ _ J) as [(n & cb & ->)|(a & b & ->)]; cbn [run_hook].
    + destruct (started_in _ _ _ J) as [t E]. assert (GK : get (timing_key n) (x_data c) = Some (Time t)) by (rewrite D, started_data, E by exact C; reflexivity). rewrite GK.
      match goal with |- context [run_hooks ms_text status_name hs ?c1] => destruct (IH I' c1 D) as (l & R & L & S' & V); destruct (run_hooks ms_text status_name hs c1) as [c2 os] end.
      cbn [fst snd x_status x_headers x_data] in *. subst os. eexists. split; [apply Rep_timing; eauto|]. split; [reflexivity|]. split; [exact S'|].
      intros m B N H. rewrite V; [|exact B|exact N|apply set_map; [now apply lit_bytes|apply Forall_app; split; [apply MS|now apply lit_bytes]|exact H]].
      rewrite set_values; [|now apply lit_bytes|exact H]. rewrite (proj2 (beq_neq _ _)); [reflexivity|]. congruence.
    + destruct (IH I' c D) as (l & R & L & S' & V). destruct (run_hooks ms_text status_name hs c) as [c2 os]. cbn [fst snd] in *. subst os.
      eexists. split; [apply Rep_logging; eauto|]. split; [reflexivity|auto].
Qed.
(** Every timing middleware that ran reports once, the time since the middleware of its name last ran; every logging middleware logs once, the final
    status; the response keeps its status and all headers but X-Response-Time. *)
Theorem c159_observed : forall ms_text status_name ops hs c' l c0, (forall z, bytes_ok (ms_text z)) -> Clean ops -> map fst hs = hooks_of ops -> x_hooks c0 = [] -> HeaderMap (x_headers (fold_left apply_op ops c0)) ->
  let c := fold_left apply_op ops c0 in
  x_hooks c = map fst hs /\
  (run_hooks ms_text status_name hs c = (c', l) ->
   Reports status_name ops (last_status ops (x_status c0)) hs l /\ x_status c' = last_status ops (x_status c0) /\
   forall n, bytes_ok n -> map lower n <> map lower (str "X-Response-Time") -> values_of n (fields_of (x_headers c')) = values_of n (fields_of (x_headers c))).
Proof.
  intros ms_text status_name ops hs c' l c0 MS C H H0 HM c. split; [unfold c; now rewrite hooks_data, H0, H|]. intro R.
  destruct (run_reports ms_text status_name ops c0 hs MS C) with (c := c) as (l' & A & B & S' & V); [|reflexivity|].
  - intros h z I. rewrite <- H. change h with (fst (h, z)). now apply in_map.
  - rewrite R in *. cbn [fst snd] in *. subst l'. unfold c in *. rewrite status_data in *. split; [exact A|]. split; [exact S'|]. intros n Bn N. now apply V.
Qed.
Print Assumptions c159_observed.
(** With names of its own, a timing middleware that ran once reports the time since it ran itself. *)
Theorem c159_own : forall n cb t a b, (forall cb' t', ~ In (Timed n cb' t') (a ++ b)) -> started n (a ++ Timed n cb t :: b) = Some t.
Proof.
  intros n cb t a b H.
  assert (Z : forall l, (forall cb' t', ~ In (Timed n cb' t') l) -> started n l = None).
  { induction l as [|o l IH]; intro K; [reflexivity|]. specialize (IH (fun c x I => K c x (or_intror I))). destruct o as [m c0 t0| | | |]; cbn [started]; try exact IH. rewrite IH.
    destruct (list_eq_dec N.eq_dec m n) as [->|]; [exfalso; eapply K; now left|reflexivity]. }
  induction a as [|o a IH]; cbn [app started].
  - rewrite (Z b) by (intros c x I; apply (H c x); exact I). destruct (list_eq_dec N.eq_dec n n) as [_|K]; [reflexivity|now destruct K].
  - rewrite IH by (intros c x I; apply (H c x); now right). destruct o; reflexivity.
Qed.
Print Assumptions c159_own.
(** Two of the same name (the default one) share their start: the outer one reports the time of the inner one. *)
Theorem c159_shared_name_refuted : exists n cb t a b, started n (a ++ Timed n cb t :: b) <> Some t.
Proof. exists (str "TimingMiddleware"), 0%nat, 0%Z, [], [Timed (str "TimingMiddleware") 1%nat 5%Z]. vm_compute. discriminate. Qed.
Example c159_ex : let ops := [Timed (str "a") 0%nat 1000000%Z; Logs 7%nat 1%nat 0%nat (str "GET") (str "/x"); Timed (str "b") 1%nat 3000000%Z; SetsStatus 404] in
  let c := fold_left apply_op ops (mkX [] [] [] 200) in
  Clean ops /\ snd (run_hooks (fun z => to_string (z / 1000000)) (fun _ => str "Not Found") (combine (x_hooks c) [9000000; 9000000; 9500000]%Z) c) =
    [Duration 0 8; Logged 7 0 (str "Response: 404 Not Found"); Duration 1 6].
Proof. split; [intros k v [I|[I|[I|[I|[]]]]]; discriminate I|vm_compute; reflexivity]. Qed.
