(** Properties C112-C116, continued: defaults, caches, preflights, allowed headers, the options object. *)
From Verif Require Import Base UtilModel UtilSpec UtilProofs StaticModel Http1Model Http1Spec Http1Proofs RecvModel RecvInv WsSession HeaderOps CorsModel CorsSpec CorsProps.
From Coq Require Import ZifyBool ZifyN.
Local Open Scope N_scope.

Lemma first_ok n h : HeaderMap h -> bytes_ok (first n h).
Proof. intros HM. rewrite <- first_header by exact HM. apply first_bytes; [apply ok_str|exact HM]. Qed.

(** The default options let every origin in, never with credentials. *)
Definition default_calls : list call :=
  [SetsOrigins [str "*"]; SetsMethods (o_methods permissive); SetsHeaders (o_headers permissive); SetsCredentials false; SetsExposed (o_expose permissive)].
Definition secure_calls (l : list (list N)) : list call :=
  [SetsOrigins l; SetsMethods (o_methods (secure l)); SetsHeaders (o_headers (secure l)); SetsCredentials false; SetsMaxAge 3600].
Lemma default_made rx : permissive = made rx default_calls.
Proof. reflexivity. Qed.
Lemma secure_made rx l : secure l = made rx (secure_calls l).
Proof. reflexivity. Qed.
Lemma default_ok : SettingsOk (settings_of default_calls).
Proof. unfold SettingsOk. cbn [settings_of default_calls fold_left sets s_methods s_headers s_expose]. repeat split; repeat (constructor; [repeat constructor|]); constructor. Qed.
Lemma secure_ok l : SettingsOk (settings_of (secure_calls l)).
Proof. unfold SettingsOk. cbn [settings_of secure_calls fold_left sets s_methods s_headers s_expose secure max_age credentials headers methods origins options_new o_methods o_headers o_expose settings0]. repeat split; repeat (constructor; [repeat constructor|]); constructor. Qed.
Theorem c112_default : forall rx q r r' v o', HeaderMap (q_headers q) -> HeaderMap (r_headers r) -> process rx permissive q r = (r', v, o') ->
  sent "Access-Control-Allow-Credentials" (r_headers r') = sent "Access-Control-Allow-Credentials" (r_headers r) /\
  (first "Origin" (q_headers q) <> [] -> N.of_nat (length (first "Origin" (q_headers q))) <= 2048 -> sent "Access-Control-Allow-Origin" (r_headers r') = [str "*"]).
Proof.
  intros rx q r r' v o' HQ HR E. rewrite (default_made rx) in E. assert (H : Handles rx default_calls q r r' v) by (split; [exact HQ|]; split; [exact HR|]; split; [exact default_ok|eauto]).
  split.
  - destruct (c112_credentials _ _ _ _ _ _ H) as [(_ & H1 & _)|[_ H1]]; [discriminate H1|exact H1].
  - intros H1 H2. destruct (c111_granted _ _ _ _ _ _ H) as [(_ & _ & H3)|[[H3|H3] _]]; [..|exact H3| |discriminate H3].
    + split; [exact H1|]. split; [exact H2|]. cbn. auto.
    + exfalso. apply (H3 [str "*"] eq_refl). now left.
Qed.
(** The secure options let in the listed origins only, compared octet by octet, and never with credentials. *)
Theorem c112_secure : forall rx l q r r' v o', HeaderMap (q_headers q) -> HeaderMap (r_headers r) -> process rx (secure l) q r = (r', v, o') ->
  ~ In (str "*") l -> sent "Access-Control-Allow-Origin" (r_headers r) = [] ->
  sent "Access-Control-Allow-Credentials" (r_headers r') = sent "Access-Control-Allow-Credentials" (r_headers r) /\
  (sent "Access-Control-Allow-Origin" (r_headers r') <> [] -> In (first "Origin" (q_headers q)) l /\ sent "Access-Control-Allow-Origin" (r_headers r') = [first "Origin" (q_headers q)]).
Proof.
  intros rx l q r r' v o' HQ HR E HN H0. rewrite (secure_made rx) in E. assert (H : Handles rx (secure_calls l) q r r' v) by (split; [exact HQ|]; split; [exact HR|]; split; [exact (secure_ok l)|eauto]).
  split.
  - destruct (c112_credentials _ _ _ _ _ _ H) as [(_ & H1 & _)|[_ H1]]; [discriminate H1|exact H1].
  - intros H1. pose proof (c111_only_allowed _ _ _ _ _ _ H H0 H1) as HA. pose proof HA as (_ & _ & [HI|HI]); [contradiction|]. split; [exact HI|].
    destruct (c111_granted _ _ _ _ _ _ H HA) as [((l' & H2 & H3) & _)|[_ H2]]; [injection H2 as <-; contradiction|exact H2].
Qed.

(** ** C113: the response tells caches what it depends on *)
Theorem c113_vary : forall rx h q r r' v, Handles rx h q r r' v -> first "Origin" (q_headers q) <> [] ->
  exists more, sent "Vary" (r_headers r') = sent "Vary" (r_headers r) ++ [str "Origin"] ++ more /\
    (In (str "Access-Control-Request-Method") more <->
       Allowed rx (s_policy (settings_of h)) (first "Origin" (q_headers q)) /\ Preflight (q_method q) (q_headers q)) /\
    incl more [str "Access-Control-Request-Method"; str "Access-Control-Request-Headers"].
Proof.
  intros rx h q r r' v H HO. pose proof (handles_cases _ _ _ _ _ _ H) as HC. destruct H as (HQ & HR & HS & _). set (s := settings_of h) in *.
  pose proof (first_ok "Origin" _ HQ) as HB. pose proof (first_ok "Access-Control-Request-Headers" _ HQ) as HT.
  destruct HC as [(H1 & _)|[(_ & H1 & -> & _)|[(HA & HP & -> & _)|(HA & HP & -> & _)]]]; [contradiction|..]; cbn [r_headers].
  - exists []. rewrite sent_eff; [|repeat constructor|exact HR]. ev. split; [reflexivity|]. split; [|intros x []]. split; [intros []|]. intros [H2 _]. contradiction.
  - exists []. rewrite sent_eff; [|apply Forall_app; split; [now apply grant_ok|now apply expose_ok]|exact HR]. rewrite eff_app, expose_eff, grant_eff. nm. rewrite andb_false_r.
    split; [reflexivity|]. split; [|intros x []]. split; [intros []|]. intros [_ H2]. contradiction.
  - rewrite sent_eff; [|apply Forall_app; split; [now apply grant_ok|now apply preflight_ok]|exact HR]. rewrite eff_app, grant_eff. nm. rewrite andb_false_r.
    unfold preflight_ops. destruct (method_ok _ _).
    + ev. unfold header_ops. set (t := first "Access-Control-Request-Headers" (q_headers q)).
      assert (HX : forall more, In (str "Access-Control-Request-Method") more ->
                (In (str "Access-Control-Request-Method") more <-> Allowed rx (s_policy s) (first "Origin" (q_headers q)) /\ Preflight (q_method q) (q_headers q))) by (intros; split; auto).
      destruct t as [|c t]; [destruct (s_headers s)|destruct (approved s (c :: t))]; ev; rewrite <- ?app_assoc.
      all: first [exists [str "Access-Control-Request-Method"]; split; [reflexivity|]; split; [apply HX; now left|intros x [<-|[]]; now left]
                 |exists [str "Access-Control-Request-Method"; str "Access-Control-Request-Headers"]; split; [reflexivity|]; split; [apply HX; now left|apply incl_refl]].
    + ev. rewrite <- app_assoc. exists [str "Access-Control-Request-Method"]. split; [reflexivity|]. split; [split; auto; intros _; now left|intros x [<-|[]]; now left].
Qed.

(** ** C114: preflights *)
(** Anything but a preflight from an allowed origin goes on to the handlers with its status, body and headers, except for the grant. *)
Theorem c114_passes : forall rx h q r r' v, Handles rx h q r r' v ->
  ~ (Allowed rx (s_policy (settings_of h)) (first "Origin" (q_headers q)) /\ Preflight (q_method q) (q_headers q)) ->
  v = Continue /\ r_status r' = r_status r /\ r_body r' = r_body r /\
  (forall n, bytes_ok n -> (forall k, In k ["Access-Control-Allow-Origin"; "Access-Control-Allow-Credentials"; "Access-Control-Expose-Headers"; "Vary"]%string -> ~ Same n (str k)) ->
     values_of n (fields_of (r_headers r')) = values_of n (fields_of (r_headers r))) /\
  (Allowed rx (s_policy (settings_of h)) (first "Origin" (q_headers q)) -> s_expose (settings_of h) <> [] ->
     sent "Access-Control-Expose-Headers" (r_headers r') = [intercalate (str ", ") (s_expose (settings_of h))]).
Proof.
  intros rx h q r r' v H HN. pose proof (handles_cases _ _ _ _ _ _ H) as HC. destruct H as (HQ & HR & HS & _). set (s := settings_of h) in *.
  pose proof (first_ok "Origin" _ HQ) as HB.
  destruct HC as [(H1 & -> & ->)|[(_ & H1 & -> & ->)|[(HA & HP & -> & ->)|(HA & HP & _)]]]; [| | |exfalso; auto]; cbn [r_headers r_status r_body]; (split; [reflexivity|]); (split; [reflexivity|]); (split; [reflexivity|]); split.
  - intros; reflexivity.
  - intros [H2 _]. congruence.
  - intros n Hn HK. rewrite hops_values; [|exact Hn|repeat constructor|exact HR]. apply eff_other. constructor; [|constructor]. cbn [hop_name]. intros E. apply (HK "Vary"%string); [cbn; auto|]. unfold Same. congruence.
  - intros HA. contradiction.
  - intros n Hn HK. rewrite hops_values; [|exact Hn|apply Forall_app; split; [now apply grant_ok|now apply expose_ok]|exact HR]. apply eff_other. apply Forall_app. split.
    + unfold grant_ops. constructor; [cbn [hop_name]; intros E; apply (HK "Access-Control-Allow-Origin"%string); [cbn; auto|]; unfold Same; congruence|]. apply Forall_app. split.
      * destruct (s_credentials s); [|constructor]. constructor; [|constructor]. cbn [hop_name]; intros E; apply (HK "Access-Control-Allow-Credentials"%string); [cbn; auto|]; unfold Same; congruence.
      * constructor; [|constructor]. cbn [hop_name]; intros E; apply (HK "Vary"%string); [cbn; auto|]; unfold Same; congruence.
    + unfold expose_ops. destruct (s_expose s); [constructor|]. constructor; [|constructor]. cbn [hop_name]; intros E; apply (HK "Access-Control-Expose-Headers"%string); [cbn; auto|]; unfold Same; congruence.
  - intros _ HE. rewrite sent_eff; [|apply Forall_app; split; [now apply grant_ok|now apply expose_ok]|exact HR]. rewrite eff_app, expose_eff. nm. destruct (s_expose s) as [|x l]; [congruence|]. now rewrite join_intercalate.
Qed.
Lemma method_iff s m : Forall bytes_ok (s_methods s) -> bytes_ok m -> (method_ok s m = true <-> exists c, In c (s_methods s) /\ Same c m).
Proof.
  intros HS Hm. unfold method_ok. rewrite existsb_exists. rewrite Forall_forall in HS. split; intros (c & HI & E); exists c; (split; [exact HI|]); unfold Same in *; apply (iequals_spec c m); auto.
Qed.
(** A preflight from an allowed origin is answered here, without a body: 204 with the allowed methods and the age of the answer if the
    announced method is allowed, 403 and none of these otherwise. *)
Theorem c114_preflight : forall rx h q r r' v, Handles rx h q r r' v ->
  Allowed rx (s_policy (settings_of h)) (first "Origin" (q_headers q)) -> Preflight (q_method q) (q_headers q) ->
  v = Complete /\ r_body r' = [] /\
  (((exists m, In m (s_methods (settings_of h)) /\ Same m (first "Access-Control-Request-Method" (q_headers q))) /\ r_status r' = 204 /\
    sent "Access-Control-Allow-Methods" (r_headers r') = [intercalate (str ", ") (s_methods (settings_of h))] /\
    exists age, sent "Access-Control-Max-Age" (r_headers r') = [age] /\ ((0 <= s_max_age (settings_of h))%Z -> Decimal age (Z.to_N (s_max_age (settings_of h))))) \/
   (~ (exists m, In m (s_methods (settings_of h)) /\ Same m (first "Access-Control-Request-Method" (q_headers q))) /\ r_status r' = 403 /\
    forall n, In n ["Access-Control-Allow-Methods"; "Access-Control-Allow-Headers"; "Access-Control-Max-Age"]%string -> sent n (r_headers r') = sent n (r_headers r))).
Proof.
  intros rx h q r r' v H HA HP. pose proof (handles_cases _ _ _ _ _ _ H) as HC. destruct H as (HQ & HR & HS & _). set (s := settings_of h) in *.
  pose proof (first_ok "Origin" _ HQ) as HB. pose proof (first_ok "Access-Control-Request-Headers" _ HQ) as HT. pose proof (first_ok "Access-Control-Request-Method" _ HQ) as HM.
  destruct HC as [(H1 & _)|[(_ & H1 & _)|[(_ & H1 & _)|(_ & _ & -> & ->)]]]; [destruct HA as [HA _]; contradiction|contradiction..|]. cbn [r_headers r_status r_body].
  split; [reflexivity|]. split; [reflexivity|]. pose proof (method_iff s _ (proj1 HS) HM) as HI.
  assert (HF : Forall hop_ok (grant_ops s (first "Origin" (q_headers q)) ++ preflight_ops s (first "Access-Control-Request-Method" (q_headers q)) (first "Access-Control-Request-Headers" (q_headers q))))
    by (apply Forall_app; split; [now apply grant_ok|now apply preflight_ok]).
  unfold preflight_ops in *. destruct (method_ok s (first "Access-Control-Request-Method" (q_headers q))).
  - left. split; [now apply HI|]. split; [reflexivity|]. split; [|exists (to_string (s_max_age s)); split].
    + rewrite sent_eff by assumption. rewrite eff_app, grant_eff. nm. ev. rewrite header_eff by reflexivity. ev. now rewrite join_intercalate.
    + rewrite sent_eff by assumption. rewrite eff_app, grant_eff. nm. ev. reflexivity.
    + intros H0. pose proof (dec_spec (Z.to_N (s_max_age s))) as HD. unfold dec in HD. rewrite Z2N.id in HD by exact H0. exact HD.
  - right. split; [intros HX; apply HI in HX; discriminate HX|]. split; [reflexivity|]. intros n [<-|[<-|[<-|[]]]]; (rewrite sent_eff by assumption; rewrite eff_app, grant_eff; nm; rewrite andb_false_r; ev; reflexivity).
Qed.

(** ** C115: the headers a preflight is granted *)
Definition Item (x : list N) : Prop := x <> [] /\ ~ In 44 x /\ (forall c r, x = c :: r -> ~ Ows c) /\ (forall c r, x = r ++ [c] -> ~ Ows c).
Lemma items_shape s items : HeaderItems 44 s items -> Forall Item items.
Proof.
  intros (ps & ts & _ & _ & HN & HT & ->). apply Forall_forall. intros x Hx. apply filter_In in Hx as [Hx HX]. induction HT as [|p t ps ts HT HF IH]; [destruct Hx|]. inversion HN; subst.
  destruct Hx as [->|Hx]; [|auto]. destruct HT as (a & b & -> & _ & _ & T1 & T2). split; [intros ->; discriminate HX|]. split; [|auto].
  intros HI. match goal with H : ~ In 44 (a ++ x ++ b) |- _ => apply H end. apply in_or_app. right. apply in_or_app. now left.
Qed.
Lemma filter_items l : Forall Item l -> filter (fun t : list N => match t with [] => false | _ => true end) l = l.
Proof. induction 1 as [|x l [H _] HF IH]; [reflexivity|]. cbn [filter]. destruct x; [congruence|]. now rewrite IH. Qed.
Lemma trimmed_item x b : Forall Ows b -> Item x -> Trimmed (b ++ x) x.
Proof. intros Hb (_ & _ & H1 & H2). exists b, []. rewrite app_nil_r. repeat split; auto. Qed.
Lemma join_items l : Forall Item l -> HeaderItems 44 (intercalate (str ", ") l) l.
Proof.
  intros HL. destruct l as [|x l].
  { exists [[]], [[]]. split; [reflexivity|]. split; [discriminate|]. split; [constructor; [intros []|constructor]|]. split; [|reflexivity].
    constructor; [|constructor]. exists [], []. repeat split; auto; intros c r E; [discriminate E|]. destruct r; discriminate E. }
  exists (x :: map (fun y => 32 :: y) l), (x :: l). split.
  { revert x HL. induction l as [|y l IH]; intros x HL; [reflexivity|]. rewrite intercalate_cons by discriminate. cbn [map]. rewrite (intercalate_cons [44]) by discriminate. inversion HL; subst.
    rewrite (IH y) by assumption. f_equal. cbn [map]. destruct l as [|z l]; [reflexivity|]. cbn [map]. rewrite !intercalate_cons by discriminate. reflexivity. }
  split; [discriminate|]. inversion HL as [|? ? Hx Hl]; subst. split.
  - constructor; [apply Hx|]. apply Forall_forall. intros p Hp. apply in_map_iff in Hp as (y & <- & Hy). rewrite Forall_forall in Hl. destruct (Hl _ Hy) as (_ & H & _). intros [E|E]; [discriminate E|contradiction].
  - split; [|symmetry; now apply filter_items]. constructor; [apply (trimmed_item x []); [constructor|exact Hx]|].
    clear HL. induction Hl as [|y l Hy Hl IH]; [constructor|]. cbn [map]. constructor; [|exact IH]. apply (trimmed_item y [32]); [repeat constructor|exact Hy].
Qed.
(** When the client announces headers, the answer lists, in the order of the announcement, exactly those that the configuration allows. *)
Theorem c115_headers : forall rx h q r r' v, Handles rx h q r r' v -> v = Complete -> r_status r' = 204 ->
  first "Access-Control-Request-Headers" (q_headers q) <> [] ->
  exists answer asked, sent "Access-Control-Allow-Headers" (r_headers r') = [answer] /\
    HeaderItems 44 (first "Access-Control-Request-Headers" (q_headers q)) asked /\
    exists keep, (forall x, In x asked -> (keep x = true <-> exists c, In c (s_headers (settings_of h)) /\ Same x c)) /\
      HeaderItems 44 answer (filter keep asked).
Proof.
  intros rx h q r r' v H HV H204 HT0. pose proof (handles_cases _ _ _ _ _ _ H) as HC. destruct H as (HQ & HR & HS & _). set (s := settings_of h) in *.
  pose proof (first_ok "Origin" _ HQ) as HB. pose proof (first_ok "Access-Control-Request-Headers" _ HQ) as HT.
  destruct HC as [(_ & _ & ->)|[(_ & _ & _ & ->)|[(_ & _ & _ & ->)|(_ & _ & -> & _)]]]; [discriminate HV..|]. cbn [r_headers r_status] in *.
  destruct (method_ok s _) eqn:EM; [|discriminate H204]. set (t := first "Access-Control-Request-Headers" (q_headers q)) in *.
  exists (join (approved s t) (str ", ")), (requested t). split; [|split; [apply requested_items|]].
  - rewrite sent_eff; [|apply Forall_app; split; [now apply grant_ok|now apply preflight_ok]|exact HR]. rewrite eff_app, grant_eff. nm. unfold preflight_ops. rewrite EM. ev.
    rewrite header_eff by reflexivity. nm. destruct t as [|c t']; [congruence|]. reflexivity.
  - exists (fun x => existsb (fun c => iequals x c) (s_headers s)). split.
    + intros x Hx. rewrite existsb_exists. pose proof (items_bytes _ _ _ HT (requested_items t)) as HX. rewrite Forall_forall in HX. destruct HS as (_ & HH & _). rewrite Forall_forall in HH.
      split; intros (c & HI & E); exists c; (split; [exact HI|]); unfold Same in *; apply (iequals_spec x c); auto.
    + fold (approved s t). rewrite join_intercalate. apply join_items. pose proof (items_shape _ _ (requested_items t)) as HF. rewrite Forall_forall in HF. apply Forall_forall.
      intros x Hx. apply filter_In in Hx as [Hx _]. auto.
Qed.
(** When it announces none, the answer lists the configured headers. *)
Theorem c115_unasked : forall rx h q r r' v, Handles rx h q r r' v -> v = Complete -> r_status r' = 204 ->
  first "Access-Control-Request-Headers" (q_headers q) = [] -> s_headers (settings_of h) <> [] ->
  sent "Access-Control-Allow-Headers" (r_headers r') = [intercalate (str ", ") (s_headers (settings_of h))].
Proof.
  intros rx h q r r' v H HV H204 HT0 HN. pose proof (handles_cases _ _ _ _ _ _ H) as HC. destruct H as (HQ & HR & HS & _). set (s := settings_of h) in *.
  pose proof (first_ok "Origin" _ HQ) as HB. destruct HC as [(_ & _ & ->)|[(_ & _ & _ & ->)|[(_ & _ & _ & ->)|(_ & _ & -> & _)]]]; [discriminate HV..|]. cbn [r_headers r_status] in *.
  destruct (method_ok s _) eqn:EM; [|discriminate H204]. rewrite HT0 in *.
  rewrite sent_eff; [|apply Forall_app; split; [now apply grant_ok|apply preflight_ok; [exact HS|constructor]]|exact HR]. rewrite eff_app, grant_eff. nm. unfold preflight_ops. rewrite EM. ev.
  rewrite header_eff by reflexivity. nm. destruct (s_headers s) as [|x l]; [congruence|]. now rewrite join_intercalate.
Qed.

(** ** C116: the options object keeps no memory but its settings *)
(** After any calls, in any order and with any questions in between, the answer about an origin is the one the settings give. *)
Theorem c116_settings : forall rx h origin, fst (is_origin_allowed rx (made rx h) origin) = true <-> Allowed rx (s_policy (settings_of h)) origin.
Proof. intros rx h origin. apply allowed_iff. apply made_holds. Qed.
(** So only the last policy set counts, and two histories with the same settings answer every request alike. *)
Theorem c116_same : forall rx h k q r, settings_of h = settings_of k -> fst (process rx (made rx h) q r) = fst (process rx (made rx k) q r).
Proof.
  intros rx h k q r E. rewrite (process_outcome _ _ _ _ _ (made_holds rx h)), (process_outcome _ _ _ _ _ (made_holds rx k)), E.
  f_equal. pose proof (c116_settings rx h (header (str "Origin") (q_headers q))) as H1. pose proof (c116_settings rx k (header (str "Origin") (q_headers q))) as H2. rewrite E in H1.
  destruct (fst (is_origin_allowed rx (made rx h) _)), (fst (is_origin_allowed rx (made rx k) _)); auto.
  - symmetry. apply H2. now apply H1.
  - apply H1. now apply H2.
Qed.
(** Handling a request leaves options that behave the same. *)
Theorem c116_reused : forall rx h q r q2 r2, 
  fst (process rx (snd (process rx (made rx h) q r)) q2 r2) = fst (process rx (made rx h) q2 r2).
Proof.
  intros rx h q r q2 r2. assert (E : exists k, snd (process rx (made rx h) q r) = made rx k /\ settings_of k = settings_of h).
  { unfold process. destruct (header (str "Origin") (q_headers q)) as [|c l]; [exists h; auto|].
    exists (h ++ [Asks (c :: l)]). unfold made, settings_of. rewrite !fold_left_app. cbn [fold_left runs sets]. split; [|reflexivity]. fold (made rx h).
    destruct (is_origin_allowed rx (made rx h) (c :: l)) as [b o']. cbn [snd]. destruct b; cbn [negb]; [|reflexivity]. destruct (preflight o' q _); reflexivity. }
  destruct E as (k & -> & E). apply c116_same. exact E.
Qed.
