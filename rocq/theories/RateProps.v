(** Properties of the rate limiter (C67-C69): every history of requests, sweeps and resets, every clock. *)
From Verif Require Import Base RateModel RateSpec RateProofs.
Open Scope N_scope.

(** C67: in no interval as long as the window does one client get more than twice the limit through, whatever
    the other clients do, unless an administrator resets it. *)
Theorem rate_limit_bound : forall max window t0 ops id t,
  (0 < window)%Z -> clocked t0 ops -> Forall (untouched id) ops ->
  N.of_nat (within window t (of_client id (snd (run max window (initial t0) ops)))) <= 2 * max.
Proof. exact window_bound. Qed.
Print Assumptions rate_limit_bound.

(** The factor two is reached: a burst at the end of one window and one at the beginning of the next. *)
Definition sec (n : Z) : Z := (n * 1000000000)%Z.
Definition ex_ops : list op :=
  let c := str "10.0.0.1" in
  [Request c (sec 0) (sec 0); Request c (sec 59) (sec 59); Request c (sec 59) (sec 59); Request (str "b") (sec 59) (sec 59);
   Request c (sec 60) (sec 60); Request c (sec 60) (sec 60); Request c (sec 60) (sec 60); Request c (sec 60) (sec 60)].
Example ex_rate :
  clocked 0 ex_ops /\ Forall (untouched (str "10.0.0.1")) ex_ops /\
  map what (snd (run 3 (sec 60) (initial 0) ex_ops)) =
    [Admitted 2; Admitted 1; Admitted 0; Admitted 2; Admitted 2; Admitted 1; Admitted 0; Limited 0] /\
  within (sec 60) (sec 1) (of_client (str "10.0.0.1") (snd (run 3 (sec 60) (initial 0) ex_ops))) = 5%nat.
Proof.
  split; [cbn; unfold sec; lia|]. split; [repeat constructor|]. split; vm_compute; reflexivity.
Qed.

(** C68: nobody is refused on account of others, or early: a refusal is preceded by [max] requests of the same
    client passed on less than a window ago, and 503 is given only if as many other clients as may be tracked were
    heard less than a window ago. A 400 is given only for an identifier longer than 256 octets. An accepted request
    is told fewer remaining ones than the limit. *)
Theorem rate_limit_refusals : forall max window t0 ops before a after,
  (0 < window)%Z -> clocked t0 ops ->
  snd (run max window (initial t0) ops) = before ++ a :: after ->
  match what a with
  | Limited r => r = 0 /\ max <= N.of_nat (length (filter (live window (at_ a)) (of_client (who a) before)))
  | Admitted r => r < max
  | Capacity => exists ids, NoDup ids /\ N.of_nat (length ids) = 100000 /\ ~ In (who a) ids /\
      forall id, In id ids -> exists b, In b before /\ who b = id /\ counted b = true /\ live window (at_ a) b = true
  | BadId => 256 < N.of_nat (length (who a))
  end.
Proof. intros max window t0 ops before a after Hw Hc E. exact (explained max window t0 ops before a after Hw Hc E). Qed.
Print Assumptions rate_limit_refusals.

Theorem rate_limit_memory : forall max window t0 ops,
  let st := fst (run max window (initial t0) ops) in
  NoDup (map fst (clients st)) /\ N.of_nat (length (clients st)) <= 100000.
Proof. intros max window t0 ops. exact (small_run max window ops (initial t0) (small_initial t0)). Qed.
Print Assumptions rate_limit_memory.

Theorem rate_limit_long_id : forall max window st id now created,
  256 < N.of_nat (length id) -> process max window st id now created = (st, BadId).
Proof. exact bad_id_keeps. Qed.
Print Assumptions rate_limit_long_id.

(** C69: the identity of a client. Unless the operator trusts forwarding headers, a client whose address is known
    cannot influence it. *)
Theorem client_id_peer : forall ip ph cf tc xff,
  ip <> [] -> extract_client_id false (Some (mkPeer ip ph)) cf tc xff = ip.
Proof. intros [|x ip] ph cf tc xff H; [congruence|reflexivity]. Qed.
Print Assumptions client_id_peer.

(** Otherwise the first of the three headers that is present decides; of X-Forwarded-For only what follows the
    last comma counts, so a client behind a proxy that appends to the list cannot influence it either. *)
Lemma after_last_app c pre t : ~ In c t -> after_last c (pre ++ c :: t) = Some t.
Proof.
  intros Ht. assert (after_last c t = None) as Hn.
  { induction t as [|x t IH]; [reflexivity|]. cbn [after_last]. rewrite IH by (intros H; apply Ht; now right).
    destruct (x =? c) eqn:E; [|reflexivity]. apply N.eqb_eq in E. exfalso. apply Ht. now left. }
  induction pre as [|x pre IH]; cbn [app after_last]; [now rewrite Hn, N.eqb_refl|]. now rewrite IH.
Qed.

Lemma skip_blank_app b t : Forall (fun x => x = 32 \/ x = 9) b -> skip_blank (b ++ t) = skip_blank t.
Proof.
  induction 1 as [|x b Hx H IH]; [reflexivity|]. cbn [app skip_blank]. rewrite IH. destruct Hx as [-> | ->]; reflexivity.
Qed.

Theorem client_id_forwarded : forall trust session spoofed blanks addr c,
  (trust = true \/ session = None \/ exists ph, session = Some (mkPeer [] ph)) ->
  Forall (fun x => x = 32 \/ x = 9) blanks -> c <> 32 -> c <> 9 -> ~ In 44 (c :: addr) ->
  extract_client_id trust session [] [] (spoofed ++ 44 :: blanks ++ c :: addr) = c :: addr.
Proof.
  intros trust session spoofed blanks addr c Ht Hb H1 H2 Hc.
  assert (rightmost (spoofed ++ 44 :: blanks ++ c :: addr) = c :: addr) as R.
  { unfold rightmost. rewrite after_last_app.
    - rewrite skip_blank_app by exact Hb. cbn [skip_blank].
      replace ((c =? 32) || (c =? 9)) with false; [reflexivity|]. symmetry. apply orb_false_iff. split; now apply N.eqb_neq.
    - intros H. apply in_app_or in H. destruct H as [H|H]; [|tauto].
      rewrite Forall_forall in Hb. specialize (Hb _ H). destruct Hb; discriminate. }
  unfold extract_client_id. rewrite R. destruct (spoofed ++ 44 :: _) as [|y l] eqn:E; [destruct spoofed; discriminate|].
  destruct Ht as [->|[->|[ph ->]]]; cbn [peer_ip]; try reflexivity.
  destruct session as [p|]; [destruct (peer_ip p)|]; reflexivity.
Qed.
Print Assumptions client_id_forwarded.

Theorem client_id_proxy_header : forall session xff tc cf,
  (cf <> [] -> extract_client_id true session cf tc xff = cf) /\
  (tc <> [] -> extract_client_id true session [] tc xff = tc).
Proof.
  intros session xff tc cf. split; intros H.
  - destruct cf as [|x cf]; [congruence|]. destruct session as [p|]; cbn; [destruct (peer_ip p)|]; reflexivity.
  - destruct tc as [|x tc]; [congruence|]. destruct session as [p|]; cbn; [destruct (peer_ip p)|]; reflexivity.
Qed.
Print Assumptions client_id_proxy_header.

Example ex_client_id :
  extract_client_id true None [] [] (str "1.1.1.1, 2.2.2.2,  10.0.0.7") = str "10.0.0.7" /\
  extract_client_id false (Some (mkPeer (str "10.0.0.9") (str "p"))) (str "6.6.6.6") [] [] = str "10.0.0.9".
Proof. split; reflexivity. Qed.
