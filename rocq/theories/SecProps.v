(** Properties C117-C118: the security headers middleware. *)
From Verif Require Import Base UtilModel UtilSpec UtilProofs Http1Model Http1Spec Http1Proofs RecvModel RecvInv WsSession HeaderOps CorsSpec SecModel.
Local Open Scope N_scope.

(** ** Specification *)
(** The value a response must carry under a name; None if the options do not mention it. *)
Definition demanded (o : options) (https : bool) (nonce : option (list N)) : list (string * option (list N)) :=
  [("Strict-Transport-Security", if https then hsts o else None);
   ("X-Content-Type-Options", if nosniff o then Some (str "nosniff") else None);
   ("X-Frame-Options", x_frame o);
   ("Content-Security-Policy", if csp_nonce o then match nonce, csp o with Some n, None => Some (default_csp n) | Some _, v => v | None, _ => None end else csp o);
   ("Content-Security-Policy-Report-Only", csp_report o);
   ("Referrer-Policy", referrer o);
   ("Permissions-Policy", permissions o);
   ("Cross-Origin-Opener-Policy", coop o);
   ("Cross-Origin-Embedder-Policy", coep o);
   ("Cross-Origin-Resource-Policy", corp o);
   ("X-Permitted-Cross-Domain-Policies", x_cross_domain o)]%string.
Definition OptionsOk (o : options) : Prop :=
  forall v, In (Some v) [hsts o; x_frame o; csp o; csp_report o; referrer o; permissions o; coop o; coep o; corp o; x_cross_domain o] -> bytes_ok v.

(** ** Proofs *)
Definition demand_ops (l : list (string * option (list N))) : list hop :=
  flat_map (fun p => match snd p with Some v => [OSet (str (fst p)) v] | None => [] end) l.
Lemma put_hops n v h : put n v h = hops (match v with Some x => [OSet (str n) x] | None => [] end) h.
Proof. destruct v; reflexivity. Qed.
Lemma before_send_ops o scheme nonce h : before_send o scheme nonce h = hops (demand_ops (demanded o (beq scheme (str "https")) nonce)) h.
Proof.
  unfold before_send, demanded, demand_ops. cbn [flat_map fst snd]. rewrite !hops_app. cbv zeta. rewrite !put_hops. 
  destruct (beq scheme (str "https")), (nosniff o), (csp_nonce o), nonce, (csp o); reflexivity.
Qed.
Lemma demand_ok o https nonce : OptionsOk o -> (forall n, nonce = Some n -> bytes_ok n) -> Forall hop_ok (demand_ops (demanded o https nonce)).
Proof.
  intros HO HN. assert (H : forall n v, In (n, Some v) (demanded o https nonce) -> bytes_ok v).
  { intros n v HI. unfold OptionsOk in HO. cbn [In demanded] in HI. assert (HD : forall x, nonce = Some x -> bytes_ok (default_csp x)).
    { intros x Hx. unfold default_csp. repeat (apply bytes_ok_app; split); try apply str_ok; auto. }
    repeat match type of HI with _ \/ _ => destruct HI as [HI|HI] end; try exact (False_ind _ HI);
    injection HI as _ E; try (apply HO; rewrite <- E; cbn; tauto).
    - destruct https; [|discriminate E]. apply HO. rewrite <- E. cbn. tauto.
    - destruct (nosniff o); [|discriminate E]. injection E as <-. apply str_ok.
    - destruct (csp_nonce o); [|apply HO; rewrite <- E; cbn; tauto]. destruct nonce as [x|]; [|discriminate E]. destruct (csp o) as [y|] eqn:EC.
      + injection E as <-. apply HO. cbn. tauto.
      + injection E as <-. now apply HD. }
  revert H. generalize (demanded o https nonce). induction l as [|[n v] l IH]; intros H; [constructor|]. unfold demand_ops. cbn [flat_map fst snd]. apply Forall_app. split.
  - destruct v as [x|]; [|constructor]. constructor; [|constructor]. split; [apply str_ok|]. apply (H n). now left.
  - apply IH. intros m w HI. apply (H m). now right.
Qed.
Lemma demand_eff n l : forall vs, NoDup (map (fun p => map lower (str (fst p))) l) ->
  eff n (demand_ops l) vs = match find (fun p => beq (map lower (str (fst p))) (map lower n)) l with Some (_, Some v) => [v] | _ => vs end.
Proof.
  induction l as [|[k v] l IH]; intros vs HD; [reflexivity|]. cbn [map fst] in HD. inversion HD as [|? ? H1 H2]; subst. unfold demand_ops. cbn [flat_map find fst snd]. fold (demand_ops l). rewrite eff_app, IH by exact H2.
  destruct (beq (map lower (str k)) (map lower n)) eqn:E.
  - assert (HF : find (fun p : string * option (list N) => beq (map lower (str (fst p))) (map lower n)) l = None).
    { apply beq_eq in E. rewrite <- E. clear - H1. induction l as [|[k2 v2] l IH]; [reflexivity|]. cbn [find fst map In] in *. destruct (beq (map lower (str k2)) (map lower (str k))) eqn:E2; [apply beq_eq in E2; exfalso; apply H1; left; exact E2|]. apply IH. intros HI. apply H1. now right. }
    rewrite HF. destruct v as [x|]; [|reflexivity]. unfold eff. cbn [fold_left eff1]. unfold named. now rewrite E.
  - destruct v as [x|]; [|reflexivity]. assert (EE : eff n [OSet (str k) x] vs = vs) by (unfold eff; cbn [fold_left eff1]; unfold named; now rewrite E). now rewrite EE.
Qed.
Lemma demanded_nodup o https nonce : NoDup (map (fun p => map lower (str (fst p))) (demanded o https nonce)).
Proof.
  change (map (fun p => map lower (str (fst p))) (demanded o https nonce)) with (map (fun p => map lower (str (fst p))) (demanded options_new false None)).
  apply (NoDup_nth _ []). intros i j Hi Hj E. cbn in Hi, Hj.
  do 11 (destruct i as [|i]; [do 11 (destruct j as [|j]; [first [reflexivity|vm_compute in E; discriminate E]|]); lia|]). lia.
Qed.

(** ** C117: what the options demand is what is sent, whatever the handlers did *)
Theorem c117_demanded : forall o scheme nonce h name v, OptionsOk o -> (forall n, nonce = Some n -> bytes_ok n) -> HeaderMap h ->
  In (name, Some v) (demanded o (beq scheme (str "https")) nonce) -> sent name (before_send o scheme nonce h) = [v].
Proof.
  intros o scheme nonce h name v HO HN HM HI. rewrite before_send_ops. unfold sent. rewrite hops_values; [|apply str_ok|now apply demand_ok|exact HM].
  rewrite demand_eff by apply demanded_nodup. pose proof (demanded_nodup o (beq scheme (str "https")) nonce) as HD. revert HI HD. generalize (demanded o (beq scheme (str "https")) nonce).
  induction l as [|[k w] l IH]; intros HI HD; [destruct HI|]. cbn [map fst find] in *. inversion HD as [|? ? H1 H2]; subst. destruct HI as [E|HI]; [injection E as -> ->; now rewrite beq_refl|].
  destruct (beq (map lower (str k)) (map lower (str name))) eqn:E; [|now apply IH]. apply beq_eq in E. exfalso. apply H1. rewrite E. apply (in_map (fun p => map lower (str (fst p)))) in HI. exact HI.
Qed.
(** Every other name keeps its values. *)
Theorem c117_others : forall o scheme nonce h n, OptionsOk o -> (forall n, nonce = Some n -> bytes_ok n) -> HeaderMap h -> bytes_ok n ->
  (forall name v, In (name, Some v) (demanded o (beq scheme (str "https")) nonce) -> ~ Same n (str name)) ->
  values_of n (fields_of (before_send o scheme nonce h)) = values_of n (fields_of h).
Proof.
  intros o scheme nonce h n HO HN HM Hn HK. rewrite before_send_ops. rewrite hops_values; [|exact Hn|now apply demand_ok|exact HM]. rewrite demand_eff by apply demanded_nodup.
  destruct (find _ _) as [[k [v|]]|] eqn:E; [|reflexivity..]. exfalso. apply find_some in E as [HI E]. cbn [fst] in E. apply beq_eq in E. apply (HK _ _ HI). unfold Same. congruence.
Qed.
(** Transport security is announced over https only. *)
Theorem c117_hsts : forall o scheme nonce h, OptionsOk o -> (forall n, nonce = Some n -> bytes_ok n) -> HeaderMap h ->
  sent "Strict-Transport-Security" (before_send o scheme nonce h) =
  match hsts o with Some v => if beq scheme (str "https") then [v] else sent "Strict-Transport-Security" h | None => sent "Strict-Transport-Security" h end.
Proof.
  intros o scheme nonce h HO HN HM. destruct (beq scheme (str "https")) eqn:E.
  - destruct (hsts o) as [v|] eqn:EH.
    + apply c117_demanded; [assumption..|]. unfold demanded. rewrite E, EH. now left.
    + rewrite before_send_ops. unfold sent. rewrite hops_values; [|apply str_ok|now apply demand_ok|exact HM]. rewrite demand_eff by apply demanded_nodup. unfold demanded. rewrite E, EH. reflexivity.
  - rewrite before_send_ops. unfold sent. rewrite hops_values; [|apply str_ok|now apply demand_ok|exact HM]. rewrite demand_eff by apply demanded_nodup. unfold demanded. rewrite E. destruct (hsts o); reflexivity.
Qed.
(** Sending through the middleware twice changes nothing more. *)
Theorem c117_twice : forall o scheme nonce h n, OptionsOk o -> (forall n, nonce = Some n -> bytes_ok n) -> HeaderMap h -> bytes_ok n ->
  values_of n (fields_of (before_send o scheme nonce (before_send o scheme nonce h))) = values_of n (fields_of (before_send o scheme nonce h)).
Proof.
  intros o scheme nonce h n HO HN HM Hn. rewrite !before_send_ops. pose proof (demand_ok o (beq scheme (str "https")) nonce HO HN) as HK. rewrite !hops_values; try assumption; [|now apply hops_map].
  rewrite !demand_eff by apply demanded_nodup. destruct (find _ _) as [[k [v|]]|]; reflexivity.
Qed.

(** ** C118: the nonce *)
(** A lower-case hexadecimal digit. *)
Definition LowerHex (c : N) : Prop := 48 <= c <= 57 \/ 97 <= c <= 102.
(** What the random source promises: as many lower-case hexadecimal digits as asked for. *)
Definition HexSource (gen : N -> list N) : Prop := forall n, N.of_nat (length (gen n)) = n /\ Forall LowerHex (gen n).
Theorem c118_length : forall gen n, HexSource gen -> 16 <= N.of_nat (length (generate_random_nonce gen n)) <= 128 /\
  (16 <= n <= 128 -> N.of_nat (length (generate_random_nonce gen n)) = n).
Proof.
  intros gen n H. unfold generate_random_nonce. destruct (n <? 16) eqn:E1; [|destruct (128 <? n) eqn:E2]; rewrite (proj1 (H _)); lia.
Qed.
(** With nonces on and no policy of its own, an application that leaves the context's nonce alone sends a policy naming exactly that nonce,
    32 hexadecimal digits, in script-src and style-src, between quotes it cannot leave. *)
Theorem c118_policy : forall gen o old scheme h nonce, HexSource gen -> OptionsOk o -> HeaderMap h -> csp_nonce o = true -> csp o = None ->
  process_nonce gen o old = nonce -> exists n, nonce = Some n /\ length n = 32%nat /\ Forall LowerHex n /\
    sent "Content-Security-Policy" (before_send o scheme nonce h) =
      [str "default-src 'self'; script-src 'self' 'nonce-" ++ n ++ str "' 'strict-dynamic'; style-src 'self' 'nonce-" ++ n ++
       str "'; object-src 'none'; base-uri 'self'; form-action 'self';"].
Proof.
  intros gen o old scheme h nonce HG HO HM HE HC HP. unfold process_nonce in HP. rewrite HE in HP. exists (gen 32). unfold generate_random_nonce in HP. cbn in HP. subst nonce.
  destruct (HG 32) as [H1 H2]. split; [reflexivity|]. split; [lia|]. split; [exact H2|]. apply (c117_demanded o scheme (Some (gen 32)) h "Content-Security-Policy"); [exact HO| |exact HM|].
  - intros n E. injection E as <-. eapply Forall_impl; [|exact H2]. intros c [H|H]; lia.
  - unfold demanded. rewrite HE, HC. cbn. tauto.
Qed.
(** A policy of the application's own is sent as it is. *)
Theorem c118_own : forall gen o old scheme h v, HexSource gen -> OptionsOk o -> HeaderMap h -> csp o = Some v -> (forall n, old = Some n -> bytes_ok n) ->
  sent "Content-Security-Policy" (before_send o scheme (process_nonce gen o old) h) = [v].
Proof.
  intros gen o old scheme h v HG HO HM HC HB. apply c117_demanded; [exact HO| |exact HM|].
  - intros n. unfold process_nonce, generate_random_nonce. destruct (csp_nonce o); [|apply HB]. cbn. intros E. injection E as <-. eapply Forall_impl; [|exact (proj2 (HG 32))]. intros c [H|H]; lia.
  - unfold demanded, process_nonce. rewrite HC. destruct (csp_nonce o); cbn; tauto.
Qed.

(** ** Concrete cases *)
Definition ex_gen : N -> list N := fun n => repeat 97 (N.to_nat n).
Example ex_source : HexSource ex_gen.
Proof. intros n. unfold ex_gen. rewrite repeat_length, N2Nat.id. split; [reflexivity|]. apply Forall_forall. intros c Hc. apply repeat_spec in Hc as ->. right. lia. Qed.
Example ex_options : OptionsOk secure_defaults.
Proof. intros v HI. cbn [In secure_defaults hsts x_frame csp csp_report referrer permissions coop coep corp x_cross_domain] in HI.
  repeat match type of HI with _ \/ _ => destruct HI as [HI|HI] end; try discriminate HI; try exact (False_ind _ HI); assert (E : forall a b : list N, Some a = Some b -> a = b) by congruence; apply E in HI; rewrite <- HI; apply str_ok. Qed.
Definition ex_headers : headers_map := [(str "x-frame-options", [str "ALLOWALL"; str "x"]); (str "Server", [str "s"])].
Example ex_before_send : before_send secure_defaults (str "http") None ex_headers =
  [(str "x-frame-options", [str "SAMEORIGIN"]); (str "Server", [str "s"]); (str "X-Content-Type-Options", [str "nosniff"]);
   (str "Content-Security-Policy", [str "default-src 'self';object-src 'none';frame-ancestors 'self';base-uri 'self';form-action 'self';"]);
   (str "Referrer-Policy", [str "strict-origin-when-cross-origin"]); (str "Cross-Origin-Opener-Policy", [str "same-origin"]);
   (str "X-Permitted-Cross-Domain-Policies", [str "none"])].
Proof. vm_compute. reflexivity. Qed.
Example ex_headers_map : HeaderMap ex_headers.
Proof. split; [repeat (constructor; [split; [repeat constructor|split; [discriminate|repeat constructor]]|]); constructor|]. cbn. repeat (constructor; [cbn; intuition discriminate|]). constructor. Qed.
(** The nonce the context holds is whatever was stored last: a handler that stores another one changes the policy. *)
Theorem c118_refuted_overwritten : ~ forall gen o old scheme h other, HexSource gen -> OptionsOk o -> HeaderMap h -> csp_nonce o = true -> bytes_ok other ->
  sent "Content-Security-Policy" (before_send o scheme (Some other) h) = sent "Content-Security-Policy" (before_send o scheme (process_nonce gen o old) h).
Proof.
  intros H. specialize (H ex_gen (mkO None false None None None None None None None None None true) None [] ex_headers [59] ex_source).
  assert (HO : OptionsOk (mkO None false None None None None None None None None None true)) by (intros v HI; cbn in HI; intuition discriminate).
  specialize (H HO ex_headers_map eq_refl ltac:(repeat constructor)). vm_compute in H. discriminate H.
Qed.
