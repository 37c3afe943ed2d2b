(** Properties C111-C116: the CORS middleware. *)
From Verif Require Import Base UtilModel UtilSpec UtilProofs StaticModel Http1Model Http1Spec Http1Proofs RecvModel RecvInv WsSession HeaderOps CorsModel CorsSpec.
From Coq Require Import ZifyBool ZifyN.
Local Open Scope N_scope.

(** ** The options object *)
Definition runs (rx : engine) (o : options) (c : call) : options :=
  match c with
  | SetsOrigins l => origins l o
  | SetsPatterns l => origin_patterns l o
  | SetsMatcher f => origin_matcher f o
  | SetsMethods l => methods l o
  | SetsHeaders l => headers l o
  | SetsExposed l => expose_headers l o
  | SetsCredentials b => credentials b o
  | SetsMaxAge z => max_age z o
  | Asks origin => snd (is_origin_allowed rx o origin)
  end.
(** the options after these calls on a new object *)
Definition made (rx : engine) (h : list call) : options := fold_left (runs rx) h options_new.

Definition Holds (rx : engine) (o : options) (s : settings) : Prop :=
  match s_policy s with
  | Listed l => o_strategy o = Exact /\ o_origins o = l
  | Patterns l => o_strategy o = Regex /\ o_origins o = l /\ (o_compiled o = true -> o_patterns o = compile rx MAX_REGEX_PATTERNS l)
  | Decided f => o_strategy o = Function_ /\ o_fn o = f
  end /\ o_methods o = s_methods s /\ o_headers o = s_headers s /\ o_expose o = s_expose s /\ o_credentials o = s_credentials s /\ o_max_age o = s_max_age s.

Lemma allowed_holds rx o s origin : Holds rx o s -> Holds rx (snd (is_origin_allowed rx o origin)) s.
Proof.
  intros H. unfold is_origin_allowed. destruct origin as [|c r]; [exact H|]. destruct (_ <? _); [exact H|].
  destruct (o_strategy o) eqn:ES; cbn [snd]; [exact H| |exact H]. unfold ensure_patterns_compiled. rewrite ES. destruct (o_compiled o) eqn:EC; [exact H|].
  unfold Holds in *. cbn [o_strategy o_origins o_compiled o_patterns o_methods o_headers o_expose o_credentials o_max_age o_fn].
  destruct H as [H1 H2]. split; [|exact H2]. destruct (s_policy s) as [l|l|f]; [destruct H1; congruence| |destruct H1; congruence].
  destruct H1 as (H1 & H3 & _). split; [reflexivity|]. split; [exact H3|]. intros _. now rewrite H3.
Qed.
Lemma runs_holds rx o s c : Holds rx o s -> Holds rx (runs rx o c) (sets s c).
Proof.
  intros H. destruct c as [l|l|f|l|l|l|b|z|origin]; cbn [runs sets]; [..|now apply allowed_holds];
    unfold Holds in *; cbn [o_strategy o_origins o_compiled o_patterns o_methods o_headers o_expose o_credentials o_max_age o_fn
      origins origin_patterns origin_matcher methods headers expose_headers credentials max_age s_policy s_methods s_headers s_expose s_credentials s_max_age];
    intuition; try discriminate.
Qed.
Lemma made_holds rx h : Holds rx (made rx h) (settings_of h).
Proof.
  unfold made, settings_of. assert (H0 : Holds rx options_new settings0) by (unfold Holds, settings0; cbn; intuition).
  revert H0. generalize options_new settings0. induction h as [|c h IH]; intros o s H; [exact H|]. cbn [fold_left]. apply IH. now apply runs_holds.
Qed.

Lemma existsb_beq x l : existsb (fun y => beq y x) l = true <-> In x l.
Proof.
  rewrite existsb_exists. split.
  - intros (y & Hy & E). apply beq_eq in E. now subst.
  - intros H. exists x. split; [exact H|]. apply beq_refl.
Qed.
Lemma compile_in rx : forall n l m, In m (compile rx n l) <-> exists i e, (i < n)%nat /\ nth_error l i = Some e /\ N.of_nat (length e) <= 1024 /\ rx e = Some m.
Proof.
  induction n as [|n IH]; intros l m; cbn [compile].
  - split; [destruct l; intros []|]. intros (i & e & H & _). lia.
  - destruct l as [|p r]; [split; [intros []|]; intros (i & e & _ & H & _); destruct i; discriminate H|].
    assert (HT : (exists i e, (i < n)%nat /\ nth_error r i = Some e /\ N.of_nat (length e) <= 1024 /\ rx e = Some m) ->
                 exists i e, (i < S n)%nat /\ nth_error (p :: r) i = Some e /\ N.of_nat (length e) <= 1024 /\ rx e = Some m).
    { intros (i & e & H1 & H2). exists (S i), e. split; [lia|exact H2]. }
    assert (HU : (exists i e, (i < S n)%nat /\ nth_error (p :: r) i = Some e /\ N.of_nat (length e) <= 1024 /\ rx e = Some m) ->
                 (N.of_nat (length p) <= 1024 /\ rx p = Some m) \/
                 (exists i e, (i < n)%nat /\ nth_error r i = Some e /\ N.of_nat (length e) <= 1024 /\ rx e = Some m)).
    { intros (i & e & H1 & H2 & H3 & H4). destruct i as [|i]; cbn [nth_error] in H2; [injection H2 as ->; left; split; assumption|].
      right. exists i, e. split; [lia|]. split; [exact H2|]. split; assumption. }
    unfold MAX_REGEX_PATTERN_LENGTH. destruct (1024 <? N.of_nat (length p)) eqn:EL.
    { rewrite IH. split; [exact HT|]. intros H. destruct (HU H) as [[H1 _]|H1]; [lia|exact H1]. }
    destruct (rx p) as [m'|] eqn:ER.
    + cbn [In]. rewrite IH. split.
      * intros [->|H]; [|auto]. exists O, p. split; [lia|]. split; [reflexivity|]. split; [lia|exact ER].
      * intros H. destruct (HU H) as [[_ H1]|H1]; [left; congruence|right; exact H1].
    + rewrite IH. split; [exact HT|]. intros H. destruct (HU H) as [[_ H1]|H1]; [congruence|exact H1].
Qed.
Lemma allowed_iff rx o s origin : Holds rx o s -> (fst (is_origin_allowed rx o origin) = true <-> Allowed rx (s_policy s) origin).
Proof.
  intros H. unfold is_origin_allowed, Allowed. destruct origin as [|c r]; [cbn [fst]; split; [discriminate|]; intros [H1 _]; congruence|].
  set (origin := c :: r). unfold MAX_ORIGIN_LENGTH. destruct (2048 <? N.of_nat (length origin)) eqn:EL; [cbn [fst]; split; [discriminate|]; intros (_ & H1 & _); lia|].
  assert (HN : origin <> []) by discriminate. destruct H as [H _].
  transitivity (Admits rx (s_policy s) origin); [|split; [intros HA; split; [exact HN|]; split; [lia|exact HA]|intros (_ & _ & HA); exact HA]].
  destruct (s_policy s) as [l|l|f]; cbn [Admits].
  - destruct H as [-> <-]. cbn [fst]. destruct (existsb (fun x => beq x (str "*")) (o_origins o)) eqn:E1.
    + apply existsb_beq in E1. split; auto.
    + rewrite existsb_beq. split; [auto|]. intros [HI|HI]; [|exact HI]. apply existsb_beq in HI. congruence.
  - destruct H as (HS & HL & HC). rewrite HS. cbn [fst].
    assert (HP : o_patterns (ensure_patterns_compiled rx o) = compile rx MAX_REGEX_PATTERNS l).
    { unfold ensure_patterns_compiled. rewrite HS. destruct (o_compiled o); [now apply HC|]. cbn [o_patterns]. now rewrite HL. }
    rewrite HP, existsb_exists. unfold regex_match_with_timeout, MAX_ORIGIN_LENGTH. rewrite EL. split.
    + intros (m & HI & HM). apply compile_in in HI as (i & e & H1 & H2 & H3 & H4). exists i, e, m. repeat split; try assumption. destruct (m origin) as [[|]|]; congruence.
    + intros (i & e & m & H1 & H2 & H3 & H4 & H5). exists m. split; [apply compile_in; exists i, e; repeat split; assumption|]. now rewrite H5.
  - destruct H as [-> ->]. cbn [fst]. destruct f as [g|]; [|split; [discriminate|]; intros (g & H1 & _); discriminate H1]. split.
    + intros H. exists g. split; [reflexivity|]. destruct (g origin) as [[|]|]; congruence.
    + intros (g' & E & H). injection E as <-. now rewrite H.
Qed.

(** ** One request *)
Definition star (s : settings) : bool := match s_policy s with Listed l => existsb (fun x => beq x (str "*")) l | _ => false end.
Definition grant_ops (s : settings) (origin : list N) : list hop :=
  OSet (str "Access-Control-Allow-Origin") (if star s && negb (s_credentials s) then str "*" else origin) ::
  (if s_credentials s then [OSet (str "Access-Control-Allow-Credentials") (str "true")] else []) ++ [OAdd (str "Vary") (str "Origin")].
Definition requested (t : list N) : list (list N) := match split_and_trim_header_list t 44 with Some l => l | None => [] end.
Definition approved (s : settings) (t : list N) : list (list N) := filter (fun q => existsb (fun c => iequals q c) (s_headers s)) (requested t).
Definition header_ops (s : settings) (t : list N) : list hop :=
  match t with
  | [] => match s_headers s with [] => [] | l => [OSet (str "Access-Control-Allow-Headers") (join l (str ", "))] end
  | _ => match approved s t with
         | [] => [OSet (str "Access-Control-Allow-Headers") []]
         | l => [OSet (str "Access-Control-Allow-Headers") (join l (str ", ")); OAdd (str "Vary") (str "Access-Control-Request-Headers")]
         end
  end.
Definition expose_ops (s : settings) : list hop :=
  match s_expose s with [] => [] | l => [OSet (str "Access-Control-Expose-Headers") (join l (str ", "))] end.
Definition method_ok (s : settings) (m : list N) : bool := existsb (fun c => iequals c m) (s_methods s).
Definition preflight_ops (s : settings) (m t : list N) : list hop :=
  OAdd (str "Vary") (str "Access-Control-Request-Method") ::
  if method_ok s m then OSet (str "Access-Control-Allow-Methods") (join (s_methods s) (str ", ")) :: header_ops s t ++
                        [OSet (str "Access-Control-Max-Age") (to_string (s_max_age s))]
  else [].
Definition outcome (b : bool) (s : settings) (q : request) (r : response) : response * verdict :=
  match header (str "Origin") (q_headers q) with
  | [] => (r, Continue)
  | origin =>
      if negb b then (mkR (r_status r) (hops [OAdd (str "Vary") (str "Origin")] (r_headers r)) (r_body r), Continue) else
      match (if beq (q_method q) (str "OPTIONS") then header (str "Access-Control-Request-Method") (q_headers q) else []) with
      | [] => (mkR (r_status r) (hops (grant_ops s origin ++ expose_ops s) (r_headers r)) (r_body r), Continue)
      | m => (mkR (if method_ok s m then 204 else 403)
                  (hops (grant_ops s origin ++ preflight_ops s m (header (str "Access-Control-Request-Headers") (q_headers q))) (r_headers r)) [], Complete)
      end
  end.

Lemma wild_star rx o s : Holds rx o s -> should_allow_all_origins_via_wildcard o = star s.
Proof. intros [H _]. unfold should_allow_all_origins_via_wildcard, star. destruct (s_policy s) as [l|l|f]; [destruct H as [-> ->]|destruct H as (-> & _)|destruct H as [-> _]]; reflexivity. Qed.
Lemma approved_eq s t : match s_headers s with [] => [] | l => filter (fun q => existsb (fun c => iequals q c) l) (requested t) end = approved s t.
Proof. unfold approved. destruct (s_headers s) as [|x l]; [|reflexivity]. cbn [existsb]. induction (requested t) as [|y k IH]; [reflexivity|exact IH]. Qed.
Lemma allow_headers_ops o s t r : o_headers o = s_headers s ->
  allow_headers o t r = mkR (r_status r) (hops (header_ops s t) (r_headers r)) (r_body r).
Proof.
  intros HO. unfold allow_headers, header_ops. rewrite HO. destruct t as [|c t].
  - destruct (s_headers s); [destruct r|]; reflexivity.
  - cbv zeta. fold (requested (c :: t)). rewrite approved_eq. destruct (approved s (c :: t)); reflexivity.
Qed.
Lemma process_outcome rx o s q r : Holds rx o s ->
  fst (process rx o q r) = outcome (fst (is_origin_allowed rx o (header (str "Origin") (q_headers q)))) s q r.
Proof.
  intros H. unfold process, outcome. destruct (header (str "Origin") (q_headers q)) as [|c0 og]; [reflexivity|]. set (origin := c0 :: og).
  pose proof (allowed_holds rx o s origin H) as H'. destruct (is_origin_allowed rx o origin) as [b o'] eqn:EA. cbn [fst snd] in *.
  rewrite (wild_star _ _ _ H'). pose proof H' as (_ & HM & HH & HE & HC & HA). rewrite HC, HE.
  destruct b; cbn [negb]; [|reflexivity]. unfold preflight. rewrite HM, HA.
  destruct (beq (q_method q) (str "OPTIONS")).
  2:{ cbn [fst]. unfold grant_ops, expose_ops. destruct (s_expose s), (s_credentials s); reflexivity. }
  destruct (header (str "Access-Control-Request-Method") (q_headers q)) as [|c1 m0].
  { cbn [fst]. unfold grant_ops, expose_ops. destruct (s_expose s), (s_credentials s); reflexivity. }
  set (m := c1 :: m0). unfold preflight_ops. fold (method_ok s m). destruct (method_ok s m); cbn [negb fst].
  - cbv zeta. rewrite (allow_headers_ops _ s) by exact HH. unfold CorsModel.set_header, CorsModel.add_header, answer. cbn [r_status r_headers r_body].
    rewrite hops_app. rewrite !(hops_cons _ _ (hops (grant_ops s origin) _)). rewrite hops_cons, hops_app. unfold grant_ops.
    destruct (s_credentials s); reflexivity.
  - unfold CorsModel.set_header, CorsModel.add_header, answer. cbn [r_status r_headers r_body]. rewrite !hops_app. unfold grant_ops. destruct (s_credentials s); reflexivity.
Qed.

(** One request handled by a middleware whose options were set by these calls: [r] is the response before, [r'] after. *)
Definition Handles (rx : engine) (h : list call) (q : request) (r r' : response) (v : verdict) : Prop :=
  HeaderMap (q_headers q) /\ HeaderMap (r_headers r) /\ SettingsOk (settings_of h) /\ exists o', process rx (made rx h) q r = (r', v, o').

Lemma ok_str x : bytes_ok (str x).
Proof. apply str_ok. Qed.
Lemma requested_items t : HeaderItems 44 t (requested t).
Proof. destruct (split_and_trim_items t 44) as (items & E & H). unfold requested. now rewrite E. Qed.
Lemma items_bytes d s items : bytes_ok s -> HeaderItems d s items -> Forall bytes_ok items.
Proof.
  intros Hs (ps & ts & E & _ & _ & HT & ->). assert (HP : Forall bytes_ok ps).
  { apply Forall_forall. intros p Hp. subst s. induction ps as [|x ps IH]; [destruct Hp|]. destruct ps as [|y ps].
    - destruct Hp as [->|[]]. exact Hs.
    - rewrite intercalate_cons in Hs by discriminate. apply bytes_ok_app in Hs as [H1 H2]. apply bytes_ok_app in H2 as [_ H2].
      destruct Hp as [->|Hp]; [exact H1|]. inversion HT; subst. clear IH. revert HT. generalize (y :: ps) Hp H2. clear. intros l Hp H2 _. revert Hp H2.
      induction l as [|z l IH]; intros Hp H2; [destruct Hp|]. destruct l as [|w l]; [destruct Hp as [->|[]]; exact H2|].
      rewrite intercalate_cons in H2 by discriminate. apply bytes_ok_app in H2 as [H3 H4]. apply bytes_ok_app in H4 as [_ H4]. destruct Hp as [->|Hp]; [exact H3|]. now apply IH. }
  apply Forall_forall. intros t Ht. apply filter_In in Ht as [Ht _]. clear E Hs. induction HT as [|p t0 ps ts HT HF IH]; [destruct Ht|]. inversion HP; subst.
  destruct Ht as [->|Ht]; [|auto]. destruct HT as (a & b & -> & _). match goal with H : bytes_ok (a ++ t ++ b) |- _ => apply bytes_ok_app in H as [_ H]; apply bytes_ok_app in H as [H _]; exact H end.
Qed.
Lemma approved_bytes s t : bytes_ok t -> Forall bytes_ok (approved s t).
Proof.
  intros Ht. pose proof (items_bytes _ _ _ Ht (requested_items t)) as H. unfold approved. apply Forall_forall. intros x Hx. apply filter_In in Hx as [Hx _]. rewrite Forall_forall in H. auto.
Qed.
Lemma grant_ok s origin : bytes_ok origin -> Forall hop_ok (grant_ops s origin).
Proof.
  intros H. unfold grant_ops. constructor; [split; [apply ok_str|destruct (_ && _); [apply ok_str|exact H]]|]. apply Forall_app. split.
  - destruct (s_credentials s); repeat constructor.
  - repeat constructor.
Qed.
Lemma expose_ok s : SettingsOk s -> Forall hop_ok (expose_ops s).
Proof. intros (_ & _ & H). unfold expose_ops. destruct (s_expose s); [constructor|]. constructor; [|constructor]. split; [apply ok_str|]. apply join_bytes; [exact H|apply ok_str]. Qed.
Lemma header_ok s t : SettingsOk s -> bytes_ok t -> Forall hop_ok (header_ops s t).
Proof.
  intros (_ & H & _) Ht. pose proof (approved_bytes s t Ht) as HB. unfold header_ops. destruct t as [|c t].
  - destruct (s_headers s); [constructor|]. constructor; [|constructor]. split; [apply ok_str|]. apply join_bytes; [exact H|apply ok_str].
  - destruct (approved s (c :: t)) as [|x l]; [repeat constructor|]. constructor; [split; [apply ok_str|apply join_bytes; [exact HB|apply ok_str]]|]. repeat constructor.
Qed.
Lemma preflight_ok s m t : SettingsOk s -> bytes_ok t -> Forall hop_ok (preflight_ops s m t).
Proof.
  intros HS Ht. unfold preflight_ops. constructor; [split; apply ok_str|]. destruct (method_ok s m); [|constructor].
  constructor; [split; [apply ok_str|apply join_bytes; [exact (proj1 HS)|apply ok_str]]|]. apply Forall_app. split; [now apply header_ok|].
  constructor; [|constructor]. split; [apply ok_str|apply to_string_bytes].
Qed.
Lemma sent_eff n ops h : Forall hop_ok ops -> HeaderMap h -> sent n (hops ops h) = eff (str n) ops (sent n h).
Proof. intros HO HM. unfold sent. apply hops_values; [apply ok_str|assumption..]. Qed.
Lemma first_header n h : HeaderMap h -> header (str n) h = first n h.
Proof. intros HM. apply first_values; [apply ok_str|exact HM]. Qed.

Lemma handles_cases rx h q r r' v : Handles rx h q r r' v ->
  (first "Origin" (q_headers q) = [] /\ r' = r /\ v = Continue) \/
  (first "Origin" (q_headers q) <> [] /\ ~ Allowed rx (s_policy (settings_of h)) (first "Origin" (q_headers q)) /\
     r' = mkR (r_status r) (hops [OAdd (str "Vary") (str "Origin")] (r_headers r)) (r_body r) /\ v = Continue) \/
  (Allowed rx (s_policy (settings_of h)) (first "Origin" (q_headers q)) /\ ~ Preflight (q_method q) (q_headers q) /\
     r' = mkR (r_status r) (hops (grant_ops (settings_of h) (first "Origin" (q_headers q)) ++ expose_ops (settings_of h)) (r_headers r)) (r_body r) /\ v = Continue) \/
  (Allowed rx (s_policy (settings_of h)) (first "Origin" (q_headers q)) /\ Preflight (q_method q) (q_headers q) /\
     r' = mkR (if method_ok (settings_of h) (first "Access-Control-Request-Method" (q_headers q)) then 204 else 403)
              (hops (grant_ops (settings_of h) (first "Origin" (q_headers q)) ++
                     preflight_ops (settings_of h) (first "Access-Control-Request-Method" (q_headers q)) (first "Access-Control-Request-Headers" (q_headers q))) (r_headers r)) [] /\
     v = Complete).
Proof.
  intros (HQ & HR & HS & o' & E). pose proof (process_outcome rx (made rx h) (settings_of h) q r (made_holds rx h)) as HO. rewrite E in HO. cbn [fst] in HO.
  pose proof (allowed_iff rx (made rx h) (settings_of h) (header (str "Origin") (q_headers q)) (made_holds rx h)) as HA.
  unfold outcome in HO. rewrite (first_header "Origin") in HO, HA by exact HQ. rewrite (first_header "Access-Control-Request-Method"), (first_header "Access-Control-Request-Headers") in HO by exact HQ. destruct (fst (is_origin_allowed rx (made rx h) (first "Origin" (q_headers q)))).
  - pose proof (proj1 HA eq_refl) as HA'. right. right. destruct (first "Origin" (q_headers q)) as [|c l] eqn:EO; [destruct HA' as [HA' _]; congruence|].
    cbn [negb] in HO. unfold Preflight. destruct (beq (q_method q) (str "OPTIONS")) eqn:EM; cbv iota in HO.
    + apply beq_eq in EM. destruct (first "Access-Control-Request-Method" (q_headers q)) as [|c1 m0]; injection HO as -> ->.
      * left. split; [exact HA'|]. split; [intros [_ H]; congruence|]. split; reflexivity.
      * right. split; [exact HA'|]. split; [split; [exact EM|discriminate]|]. split; reflexivity.
    + left. injection HO as -> ->. split; [exact HA'|]. split; [intros [H _]; rewrite H in EM; discriminate EM|]. split; reflexivity.
  - assert (HN : ~ Allowed rx (s_policy (settings_of h)) (first "Origin" (q_headers q))) by (intros H; apply HA in H; discriminate H).
    destruct (first "Origin" (q_headers q)) as [|c l] eqn:EO; [left; injection HO as -> ->; auto|]. cbn [negb] in HO. right. left. injection HO as -> ->.
    split; [discriminate|]. split; [exact HN|]. split; reflexivity.
Qed.

Ltac nm := repeat match goal with
  | |- context [named (str ?a) (str ?b)] => let v := eval vm_compute in (named (str a) (str b)) in change (named (str a) (str b)) with v; cbv beta iota
  | H : context [named (str ?a) (str ?b)] |- _ => let v := eval vm_compute in (named (str a) (str b)) in change (named (str a) (str b)) with v in H; cbv beta iota in H
  end.
Lemma eff_cons n o l vs : eff n (o :: l) vs = eff n l (eff1 n vs o).
Proof. reflexivity. Qed.
Lemma eff_nil n vs : eff n [] vs = vs.
Proof. reflexivity. Qed.
Ltac ev := repeat first [rewrite eff_cons|rewrite eff_app|rewrite eff_nil]; cbn [eff1]; nm.
(** the names each group of changes touches *)
Lemma grant_eff n s origin vs : eff (str n) (grant_ops s origin) vs =
  let vs := if named (str n) (str "Access-Control-Allow-Origin") then [if star s && negb (s_credentials s) then str "*" else origin] else vs in
  let vs := if s_credentials s && named (str n) (str "Access-Control-Allow-Credentials") then [str "true"] else vs in
  if named (str n) (str "Vary") then vs ++ [str "Origin"] else vs.
Proof. unfold grant_ops. rewrite eff_cons, eff_app. destruct (s_credentials s); rewrite ?eff_cons, ?eff_nil; cbn [eff1 andb]; reflexivity. Qed.
Lemma expose_eff n s vs : eff (str n) (expose_ops s) vs =
  if named (str n) (str "Access-Control-Expose-Headers") then match s_expose s with [] => vs | l => [join l (str ", ")] end else vs.
Proof. unfold expose_ops. destruct (s_expose s); rewrite ?eff_cons, ?eff_nil; cbn [eff1]; destruct (named _ _); reflexivity. Qed.
Lemma header_eff n s t vs : named (str n) (str "Vary") = false -> eff (str n) (header_ops s t) vs =
  if named (str n) (str "Access-Control-Allow-Headers") then
    match t with [] => match s_headers s with [] => vs | l => [join l (str ", ")] end | _ => [join (approved s t) (str ", ")] end
  else vs.
Proof.
  intros HV. unfold header_ops. destruct t as [|c t]; [destruct (s_headers s)|destruct (approved s (c :: t))]; rewrite ?eff_cons, ?eff_nil; cbn [eff1]; rewrite ?HV; destruct (named (str n) (str "Access-Control-Allow-Headers")); reflexivity.
Qed.

(** ** C111: which origins are let in *)
(** A request without an Origin is passed on and its response is not touched. *)
Theorem c111_no_origin : forall rx h q r r' v, Handles rx h q r r' v -> first "Origin" (q_headers q) = [] -> r' = r /\ v = Continue.
Proof.
  intros rx h q r r' v H HO. destruct (handles_cases _ _ _ _ _ _ H) as [(_ & H1 & H2)|[(H1 & _)|[([H1 _] & _)|([H1 _] & _)]]]; [auto|congruence..].
Qed.
(** An origin outside the policy gets nothing: the request goes on to the handlers and only Vary is added. *)
Theorem c111_refused : forall rx h q r r' v, Handles rx h q r r' v ->
  first "Origin" (q_headers q) <> [] -> ~ Allowed rx (s_policy (settings_of h)) (first "Origin" (q_headers q)) ->
  v = Continue /\ r_status r' = r_status r /\ r_body r' = r_body r /\
  (forall n, bytes_ok n -> ~ Same n (str "Vary") -> values_of n (fields_of (r_headers r')) = values_of n (fields_of (r_headers r))) /\
  sent "Vary" (r_headers r') = sent "Vary" (r_headers r) ++ [str "Origin"].
Proof.
  intros rx h q r r' v H HO HA. destruct (handles_cases _ _ _ _ _ _ H) as [(H1 & _)|[(_ & _ & -> & ->)|[(H1 & _)|(H1 & _)]]]; [contradiction| |contradiction..].
  destruct H as (HQ & HR & _). cbn [r_status r_headers r_body]. split; [reflexivity|]. split; [reflexivity|]. split; [reflexivity|]. split.
  - intros n Hn HN. rewrite hops_values; [|exact Hn|repeat constructor|exact HR]. apply eff_other. constructor; [|constructor]. cbn [hop_name]. unfold Same in HN. congruence.
  - rewrite sent_eff; [|repeat constructor|exact HR]. ev. reflexivity.
Qed.
(** An origin within the policy is told so by exactly one Access-Control-Allow-Origin: a literal star when the list
    admits every origin and credentials are off, the origin itself otherwise. *)
Theorem c111_granted : forall rx h q r r' v, Handles rx h q r r' v -> Allowed rx (s_policy (settings_of h)) (first "Origin" (q_headers q)) ->
  ((exists l, s_policy (settings_of h) = Listed l /\ In (str "*") l) /\ s_credentials (settings_of h) = false /\
     sent "Access-Control-Allow-Origin" (r_headers r') = [str "*"]) \/
  (((forall l, s_policy (settings_of h) = Listed l -> ~ In (str "*") l) \/ s_credentials (settings_of h) = true) /\
     sent "Access-Control-Allow-Origin" (r_headers r') = [first "Origin" (q_headers q)]).
Proof.
  intros rx h q r r' v H HA. pose proof (handles_cases _ _ _ _ _ _ H) as HC. destruct H as (HQ & HR & HS & _). set (s := settings_of h) in *.
  assert (HB : bytes_ok (first "Origin" (q_headers q))) by (rewrite <- first_header by exact HQ; apply first_bytes; [apply ok_str|exact HQ]).
  assert (HT : bytes_ok (first "Access-Control-Request-Headers" (q_headers q))) by (rewrite <- first_header by exact HQ; apply first_bytes; [apply ok_str|exact HQ]).
  assert (E : sent "Access-Control-Allow-Origin" (r_headers r') = [if star s && negb (s_credentials s) then str "*" else first "Origin" (q_headers q)]).
  { destruct HC as [(H1 & _)|[(_ & H1 & _)|[(_ & _ & -> & _)|(_ & _ & -> & _)]]]; [destruct HA as [HA _]; contradiction|contradiction|..]; cbn [r_headers].
    - rewrite sent_eff; [|apply Forall_app; split; [now apply grant_ok|now apply expose_ok]|exact HR]. rewrite eff_app, expose_eff, grant_eff. nm. now rewrite andb_false_r.
    - rewrite sent_eff; [|apply Forall_app; split; [now apply grant_ok|now apply preflight_ok]|exact HR]. rewrite eff_app, grant_eff. nm. rewrite andb_false_r.
      unfold preflight_ops. destruct (method_ok _ _); ev; [rewrite header_eff by reflexivity; ev|]; reflexivity. }
  rewrite E. unfold star. destruct (s_policy s) as [l|l|f] eqn:EP.
  - destruct (existsb (fun x => beq x (str "*")) l) eqn:EX; cbn [andb].
    + destruct (s_credentials s) eqn:EC; cbn [negb]; [right; split; [right; reflexivity|reflexivity]|]. left. split; [|split; reflexivity]. exists l. split; [reflexivity|]. now apply existsb_beq.
    + right. split; [left|reflexivity]. intros l' El. injection El as <-. rewrite <- existsb_beq. congruence.
  - right. split; [left|reflexivity]. intros l' El. discriminate El.
  - right. split; [left|reflexivity]. intros l' El. discriminate El.
Qed.
(** So the grant is sent only to origins the policy admits. *)
Theorem c111_only_allowed : forall rx h q r r' v, Handles rx h q r r' v -> sent "Access-Control-Allow-Origin" (r_headers r) = [] ->
  sent "Access-Control-Allow-Origin" (r_headers r') <> [] -> Allowed rx (s_policy (settings_of h)) (first "Origin" (q_headers q)).
Proof.
  intros rx h q r r' v H H0 H1. pose proof H as (HQ & HR & _). destruct (handles_cases _ _ _ _ _ _ H) as [(_ & -> & _)|[(_ & _ & -> & _)|[(HA & _)|(HA & _)]]]; [contradiction| |exact HA..].
  cbn [r_headers] in H1. rewrite sent_eff in H1; [|repeat constructor|exact HR]. exfalso. apply H1. ev. exact H0.
Qed.

(** ** C112: credentials *)
Theorem c112_credentials : forall rx h q r r' v, Handles rx h q r r' v ->
  (Allowed rx (s_policy (settings_of h)) (first "Origin" (q_headers q)) /\ s_credentials (settings_of h) = true /\
     sent "Access-Control-Allow-Credentials" (r_headers r') = [str "true"] /\
     sent "Access-Control-Allow-Origin" (r_headers r') = [first "Origin" (q_headers q)]) \/
  (~ (Allowed rx (s_policy (settings_of h)) (first "Origin" (q_headers q)) /\ s_credentials (settings_of h) = true) /\
     sent "Access-Control-Allow-Credentials" (r_headers r') = sent "Access-Control-Allow-Credentials" (r_headers r)).
Proof.
  intros rx h q r r' v H. pose proof (handles_cases _ _ _ _ _ _ H) as HC. pose proof (c111_granted _ _ _ _ _ _ H) as HG. destruct H as (HQ & HR & HS & _). set (s := settings_of h) in *.
  assert (HB : bytes_ok (first "Origin" (q_headers q))) by (rewrite <- first_header by exact HQ; apply first_bytes; [apply ok_str|exact HQ]).
  assert (HT : bytes_ok (first "Access-Control-Request-Headers" (q_headers q))) by (rewrite <- first_header by exact HQ; apply first_bytes; [apply ok_str|exact HQ]).
  destruct HC as [(H1 & -> & _)|[(_ & H1 & -> & _)|[HC|HC]]].
  - right. split; [|reflexivity]. intros [[H2 _] _]. congruence.
  - right. split; [intros [H2 _]; contradiction|]. cbn [r_headers]. rewrite sent_eff; [|repeat constructor|exact HR]. ev. reflexivity.
  - destruct HC as (HA & _ & -> & _). destruct (s_credentials s) eqn:EC.
    + left. split; [exact HA|]. split; [reflexivity|]. split.
      * cbn [r_headers]. rewrite sent_eff; [|apply Forall_app; split; [now apply grant_ok|now apply expose_ok]|exact HR]. rewrite eff_app, expose_eff, grant_eff, EC. nm. reflexivity.
      * destruct (HG HA) as [(_ & H2 & _)|[_ H2]]; [discriminate H2|exact H2].
    + right. split; [intros [_ H2]; discriminate H2|]. cbn [r_headers]. rewrite sent_eff; [|apply Forall_app; split; [now apply grant_ok|now apply expose_ok]|exact HR]. rewrite eff_app, expose_eff, grant_eff, EC. nm. reflexivity.
  - destruct HC as (HA & _ & -> & _). cbn [r_headers] in *. destruct (s_credentials s) eqn:EC.
    + left. split; [exact HA|]. split; [reflexivity|]. split.
      * rewrite sent_eff; [|apply Forall_app; split; [now apply grant_ok|now apply preflight_ok]|exact HR]. rewrite eff_app, grant_eff, EC. nm. cbn [andb].
        unfold preflight_ops. destruct (method_ok _ _); ev; [rewrite header_eff by reflexivity; ev|]; reflexivity.
      * destruct (HG HA) as [(_ & H2 & _)|[_ H2]]; [discriminate H2|exact H2].
    + right. split; [intros [_ H2]; discriminate H2|]. rewrite sent_eff; [|apply Forall_app; split; [now apply grant_ok|now apply preflight_ok]|exact HR]. rewrite eff_app, grant_eff, EC. nm. cbn [andb].
      unfold preflight_ops. destruct (method_ok _ _); ev; [rewrite header_eff by reflexivity; ev|]; reflexivity.
Qed.
(** Hence a star never travels with credentials (a real origin is not a star). *)
Theorem c112_never_star : forall rx h q r r' v, Handles rx h q r r' v -> sent "Access-Control-Allow-Credentials" (r_headers r) = [] ->
  first "Origin" (q_headers q) <> str "*" -> sent "Access-Control-Allow-Credentials" (r_headers r') <> [] ->
  sent "Access-Control-Allow-Origin" (r_headers r') = [first "Origin" (q_headers q)] /\ sent "Access-Control-Allow-Origin" (r_headers r') <> [str "*"].
Proof.
  intros rx h q r r' v H H0 HN H1. destruct (c112_credentials _ _ _ _ _ _ H) as [(_ & _ & _ & H2)|[_ H2]]; [|congruence]. rewrite H2. split; [reflexivity|]. congruence.
Qed.
