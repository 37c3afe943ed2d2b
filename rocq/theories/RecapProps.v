From Verif Require Import Base UtilModel UtilProofs Http1Model Http1Spec RecvModel RecvInv CorsModel CorsSpec HeaderOps ValJson FormModel FormSpec FormProps RecapModel RecapSpec.
From Coq Require Import SpecFloat.
Local Open Scope N_scope.

Lemma sent_body_glue encode secret token ip : (forall n, In n [str "secret"; str "response"; str "remoteip"] -> encode n = n) ->
  verification_body encode secret token ip = glue encode ([(str "secret", secret); (str "response", token)] ++ match ip with Some (c :: r) => [(str "remoteip", c :: r)] | _ => [] end) true.
Proof.
  intro H. unfold verification_body, glue, piece. cbn [app fst snd]. rewrite (H (str "secret")), (H (str "response")) by (cbn; auto).
  destruct ip as [[|c r]|]; cbn [app fst snd]; try (rewrite (H (str "remoteip")) by (cbn; auto)); rewrite ?app_nil_r; cbn [app];
    repeat (rewrite <- app_assoc; cbn [app]); reflexivity.
Qed.
(** C153: whatever the secret and the token, the service reads exactly these two. *)
Theorem c153_body : forall encode decode secret token ip k, Coding encode decode ->
  (forall n, In n [str "secret"; str "response"; str "remoteip"] -> encode n = n) ->
  bytes_ok secret -> bytes_ok token -> (forall a, ip = Some a -> bytes_ok a) ->
  form_get k (read_form decode (verification_body encode secret token ip)) =
    (if list_eq_dec N.eq_dec k (str "secret") then [secret] else
     if list_eq_dec N.eq_dec k (str "response") then [token] else
     if list_eq_dec N.eq_dec k (str "remoteip") then match ip with Some (c :: r) => [c :: r] | _ => [] end else []).
Proof.
  intros encode decode secret token ip k C H A B I. rewrite sent_body_glue by exact H. rewrite (read_written encode decode); [|exact C|].
  - unfold submitted. destruct (list_eq_dec N.eq_dec k (str "secret")) as [->|N1]; [destruct ip as [[|c r]|]; vm_compute; reflexivity|].
    destruct (list_eq_dec N.eq_dec k (str "response")) as [->|N2]; [destruct ip as [[|c r]|]; vm_compute; reflexivity|].
    destruct (list_eq_dec N.eq_dec k (str "remoteip")) as [->|N3]; [destruct ip as [[|c r]|]; vm_compute; reflexivity|].
    destruct k as [|c0 k0]; [reflexivity|]. set (k := c0 :: k0) in *. clearbody k.
    destruct ip as [[|c r]|]; cbn [app filter fst]; repeat (match goal with |- context [list_eq_dec ?a ?b ?d] => destruct (list_eq_dec a b d); [congruence|] end); reflexivity.
  - assert (S1 : bytes_ok (str "secret") /\ bytes_ok (str "response") /\ bytes_ok (str "remoteip")) by (unfold bytes_ok; cbn; repeat split; repeat constructor).
    destruct S1 as (S1 & S2 & S3). apply Forall_cons; [auto|]. apply Forall_cons; [auto|].
    destruct ip as [[|c r]|]; [apply Forall_nil| |apply Forall_nil]. apply Forall_cons; [|apply Forall_nil]. split; [exact S3|]. apply (I _ eq_refl).
Qed.
Print Assumptions c153_body.
Example c153_ex : Coding uri_encode_component decoded /\ (forall n, In n [str "secret"; str "response"; str "remoteip"] -> uri_encode_component n = n) /\
  verification_body uri_encode_component (str "s") (str "x&secret=y") None = str "secret=s&response=x%26secret%3Dy".
Proof. split; [exact coding_ours|]. split; [|vm_compute; reflexivity]. intros n [<-|[<-|[<-|[]]]]; vm_compute; reflexivity. Qed.

(** C154: the decision. *)
Definition scoring_of (t : challenge) : scoring := match t with V2 => NoScore | Auto => IfGiven | V3 => Needed end.
Lemma number_iff j : is_number j = true <-> Number j.
Proof. unfold Number. destruct j; cbn; split; intro H; try discriminate; eauto; destruct H as [[? H]|[[? H]|[? H]]]; discriminate. Qed.
Theorem c154_decision : forall parse what dump as_float float_text o status body r g v,
  decide parse what dump as_float float_text o status body r = (g, v) ->
  (v = Passed <-> Vouched parse as_float (scoring_of (ro_type o)) (ro_min o) status body).
Proof.
  intros parse what dump as_float float_text o status body r g v H. unfold decide in H. injection H as E <-. subst g.
  unfold parse_reply, Vouched, Member, below, unscored. destruct (N.eqb_spec status 200) as [->|D]; cbn [negb].
  2:{ split; [discriminate|]. intros [K _]. contradiction. }
  destruct (parse body) as [j|]; [|split; [discriminate|]; intros (_ & m & K & _); discriminate K].
  destruct j as [| | | | | | |m]; try (split; [discriminate|]; intros (_ & m & K & _); discriminate K).
  destruct (lookup (str "success") m) as [j|] eqn:L; [|split; [discriminate|]; intros (_ & m' & K & L' & _); injection K as <-; rewrite L in L'; discriminate L'].
  destruct j as [|b| | | | | |]; try (split; [discriminate|]; intros (_ & m' & K & L' & _); injection K as <-; rewrite L in L'; discriminate L').
  destruct b; cbn [g_success negb orb].
  2:{ split; [discriminate|]. intros (_ & m' & K & L' & _). injection K as <-. rewrite L in L'. discriminate L'. }
  cbn [g_score]. destruct (lookup (str "score") m) as [j|] eqn:W.
  - destruct (is_number j) eqn:NJ.
    + apply number_iff in NJ. destruct (ro_type o); cbn [scoring_of orb].
      * split.
        -- intro H. split; [reflexivity|]. exists m. split; [reflexivity|]. split; [exact L|]. intros j' Q _. rewrite W in Q. injection Q as <-.
           destruct (SFltb (as_float j) (ro_min o)); [discriminate H|reflexivity].
        -- intros (_ & m' & K & _ & Q). injection K as <-. now rewrite (Q j W NJ).
      * split; [|reflexivity]. intros _. split; [reflexivity|]. exists m. auto.
      * split.
        -- intro H. split; [reflexivity|]. exists m. split; [reflexivity|]. split; [exact L|]. exists j. split; [exact W|]. split; [exact NJ|].
           destruct (SFltb (as_float j) (ro_min o)); [discriminate H|reflexivity].
        -- intros (_ & m' & K & _ & j' & Q & _ & R). injection K as <-. rewrite W in Q. injection Q as <-. now rewrite R.
    + assert (NN : ~ Number j) by (rewrite <- number_iff; now rewrite NJ). destruct (ro_type o); cbn [scoring_of orb].
      * split; [|reflexivity]. intros _. split; [reflexivity|]. exists m. split; [reflexivity|]. split; [exact L|]. intros j' Q R. rewrite W in Q. injection Q as <-. contradiction.
      * split; [|reflexivity]. intros _. split; [reflexivity|]. exists m. auto.
      * split; [discriminate|]. intros (_ & m' & K & _ & j' & Q & R & _). injection K as <-. rewrite W in Q. injection Q as <-. contradiction.
  - destruct (ro_type o); cbn [scoring_of orb].
    + split; [|reflexivity]. intros _. split; [reflexivity|]. exists m. split; [reflexivity|]. split; [exact L|]. intros j' Q _. rewrite W in Q. discriminate Q.
    + split; [|reflexivity]. intros _. split; [reflexivity|]. exists m. auto.
    + split; [discriminate|]. intros (_ & m' & K & _ & j' & Q & _). injection K as <-. rewrite W in Q. discriminate Q.
Qed.
Print Assumptions c154_decision.
(** What a stopped request is answered: 403 with a JSON text naming the reason. *)
Theorem c154_refusal : forall parse what dump as_float float_text o status body r g r', HeaderMap (r_headers r) ->
  decide parse what dump as_float float_text o status body r = (g, Blocked (Some r')) ->
  r_status r' = 403 /\ sent "Content-Type" (r_headers r') = [str "application/json; charset=utf-8"] /\
  exists details, details <> [] /\ dump (JObj [(str "details", JStr details); (str "error", JStr (str "reCAPTCHA challenge failed"))]) = Some (r_body r') /\
    (g_success g = true -> (g_score g = None -> details = str "Verification failed. Score is required for reCAPTCHA v3.") /\
       (forall s, g_score g = Some s -> details = str "Verification failed. Score (" ++ float_text s ++ str ") is below threshold (" ++ float_text (ro_min o) ++ str ").")).
Proof.
  intros parse what dump as_float float_text o status body r g r' HM H. unfold decide in H. injection H as E V. rewrite E in V.
  destruct (negb (g_success g) || unscored o g || below o g) eqn:T; [|discriminate V]. injection V as V. unfold error_response in V.
  assert (X : detail float_text o g <> []) by (unfold detail; cbn; discriminate).
  destruct (detail float_text o g) as [|c d] eqn:DE; [contradiction|]. cbn [app] in V.
  destruct (dump _) as [t|] eqn:DU; [|discriminate V]. injection V as <-. cbn [r_status r_headers r_body].
  split; [reflexivity|]. split.
  - unfold sent. rewrite set_values; [now rewrite beq_refl| |exact HM]. unfold bytes_ok. cbn. repeat constructor.
  - exists (c :: d). split; [discriminate|]. split; [exact DU|]. intro SU. rewrite <- DE. unfold detail, unscored, below in *. rewrite SU in *. cbn [negb andb orb] in *. split.
    + intro Q. rewrite Q in *. destruct (ro_type o); try discriminate T. reflexivity.
    + intros s Q. rewrite Q in *. destruct (ro_type o); cbn [orb] in T; try discriminate T; rewrite T; rewrite ?app_assoc; reflexivity.
Qed.
Print Assumptions c154_refusal.

(** C155: where the token is looked for. *)
Lemma form_token decode body field : decode [] = [] -> forall t, (form_get_first field (read_form decode body) = Some t <-> FormToken decode body field t).
Proof.
  intros D t. destruct (c152_read decode body D) as (ps & l & C & De & G). unfold form_get_first. rewrite G. unfold FormToken. split.
  - intro H. exists ps, l. destruct (submitted field l) as [|v r]; [discriminate|]. injection H as ->. eauto.
  - intros (ps' & l' & r & C' & D' & E). destruct (c152_unique decode body ps l ps' l' D C De C' D') as [<- <-]. now rewrite E.
Qed.
Theorem c155_token : forall decode parse o q t, decode [] = [] -> t <> [] ->
  HeaderMap (rq_headers q) -> HeaderMap (rq_queries q) -> bytes_ok (ro_field o) ->
  (extract decode parse o q = Some t <->
   match ro_location o with
   | InHeader => hd [] (values_of (ro_field o) (fields_of (rq_headers q))) = t
   | InQuery => hd [] (values_of (ro_field o) (fields_of (rq_queries q))) = t
   | InBody => rq_body q <> [] /\ (JsonToken parse (rq_body q) (ro_field o) t \/
        ((forall u, ~ JsonToken parse (rq_body q) (ro_field o) u) /\ FormToken decode (rq_body q) (ro_field o) t))
   end).
Proof.
  intros decode parse o q t D T H1 H2 B. unfold extract. destruct (ro_location o).
  - rewrite first_values by assumption. destruct (hd [] _); split; intro K; [discriminate|congruence|congruence|congruence].
  - destruct (rq_body q) as [|c body] eqn:BE; [split; [discriminate|]; intros [K _]; now destruct K|]. set (b := c :: body) in *.
    assert (JT : forall u, JsonToken parse b (ro_field o) u <-> match parse b with Some (JObj m) => match lookup (ro_field o) m with Some (JStr s) => Some s | _ => None end | _ => None end = Some u).
    { intro u. unfold JsonToken, Member. destruct (parse b) as [j|]; [|split; [intros (m & K & _); discriminate K|discriminate]].
      destruct j as [| | | | | | |m]; try (split; [intros (m & K & _); discriminate K|discriminate]). split.
      - intros (m' & K & L). injection K as <-. now rewrite L.
      - intro K. exists m. split; [reflexivity|]. destruct (lookup (ro_field o) m) as [[]|]; try discriminate K. congruence. }
    destruct (match parse b with Some (JObj m) => match lookup (ro_field o) m with Some (JStr s) => Some s | _ => None end | _ => None end) as [s|].
    + split.
      * intro K. injection K as <-. split; [discriminate|]. left. now apply JT.
      * intros [_ [K|[K _]]]; [apply JT in K; exact K|]. exfalso. apply (K s). now apply JT.
    + split.
      * intro K. split; [discriminate|]. right. split; [intros u L; apply JT in L; discriminate L|]. apply form_token; [exact D|].
        destruct (form_get_first (ro_field o) (read_form decode b)) as [[|x y]|]; [discriminate K|exact K|discriminate K].
      * intros [_ [K|[_ K]]]; [apply JT in K; discriminate K|]. apply form_token in K; [|exact D]. rewrite K. destruct t; [now destruct T|reflexivity].
  - rewrite first_values by assumption. destruct (hd [] _); split; intro K; [discriminate|congruence|congruence|congruence].
Qed.
Print Assumptions c155_token.

(** ** C156: histories *)
Section History.
Variable encode decode : list N -> list N.
Variable parse : list N -> option json.
Variable what : list N -> list N.
Variable dump : json -> option (list N).
Variable as_float : json -> spec_float.
Variable float_text : spec_float -> list N.
Notation run := (run encode decode parse what dump as_float float_text).
Notation step := (step encode decode parse what dump as_float float_text).
Definition is_process (e : event) : bool := match e with Process _ _ => true | _ => false end.
(** how many requests there were *)
Definition requests (es : list event) : nat := length (filter is_process es).
(** the options in force: the last acceptable update, or those given at the start *)
Definition in_force (o : options) (es : list event) : options :=
  fold_left (fun o e => match e with Update o' => match ro_secret o' with [] => o | _ => o' end | _ => o end) es o.
(** the request numbered [id] was processed with options [o], its token was sent, and it has not been answered, [over] telling whether it ended *)
Definition Pending (o0 : options) (es : list event) (id : nat) (o : options) (over : bool) : Prop :=
  exists es1 q r t es2, es = es1 ++ Process q r :: es2 /\ requests es1 = id /\ in_force o0 es1 = o /\ extract decode parse o q = Some t /\ t <> [] /\
    (forall st b r', ~ In (Reply id st b r') es2) /\ (over = true <-> In (Ends id) es2).
Definition Inv (o0 : options) (es : list event) (s : sys) : Prop :=
  s_options s = in_force o0 es /\ s_next s = requests es /\ NoDup (map e_id (s_open s)) /\
  forall e, In e (s_open s) -> Pending o0 es (e_id e) (e_options e) (e_over e).
Definition Complete (o0 : options) (es : list event) (s : sys) : Prop := forall id o over, Pending o0 es id o over -> In (mkE id o over) (s_open s).
Lemma requests_snoc es e : requests (es ++ [e]) = (requests es + if is_process e then 1 else 0)%nat.
Proof. unfold requests. rewrite filter_app, app_length. cbn [filter]. destruct (is_process e); reflexivity. Qed.
Lemma in_force_snoc o es e : in_force o (es ++ [e]) = match e with Update o' => match ro_secret o' with [] => in_force o es | _ => o' end | _ => in_force o es end.
Proof. unfold in_force. rewrite fold_left_app. reflexivity. Qed.
Lemma pending_keep o0 es id o over e : Pending o0 es id o over -> (forall st b r, e <> Reply id st b r) -> e <> Ends id -> Pending o0 (es ++ [e]) id o over.
Proof.
  intros (es1 & q & r & t & es2 & -> & A & B & C & D & F & G) N1 N2. exists es1, q, r, t, (es2 ++ [e]). rewrite <- app_assoc. split; [reflexivity|].
  do 4 (split; [assumption|]). split.
  - intros st b r' I. apply in_app_or in I as [I|[I|[]]]; [eapply F; eauto|eapply N1; eauto].
  - rewrite G. split; intro I; [apply in_or_app; now left|]. apply in_app_or in I as [I|[I|[]]]; [exact I|contradiction].
Qed.
Lemma pending_end o0 es id o over : Pending o0 es id o over -> Pending o0 (es ++ [Ends id]) id o true.
Proof.
  intros (es1 & q & r & t & es2 & -> & A & B & C & D & F & G). exists es1, q, r, t, (es2 ++ [Ends id]). rewrite <- app_assoc. split; [reflexivity|].
  do 4 (split; [assumption|]). split.
  - intros st b r' I. apply in_app_or in I as [I|[I|[]]]; [eapply F; eauto|discriminate I].
  - split; [|reflexivity]. intros _. apply in_or_app. right. now left.
Qed.
Lemma pending_id o0 es id o over : Pending o0 es id o over -> (id < requests es)%nat.
Proof.
  intros (es1 & q & r & t & es2 & -> & <- & _). unfold requests. rewrite filter_app, app_length. cbn [filter is_process length]. lia.
Qed.
Lemma pending_snoc o0 es e id o over : Pending o0 (es ++ [e]) id o over ->
  (exists q r t, e = Process q r /\ id = requests es /\ o = in_force o0 es /\ extract decode parse o q = Some t /\ t <> [] /\ over = false) \/
  (exists over', Pending o0 es id o over' /\ (forall st b r, e <> Reply id st b r) /\ (e = Ends id /\ over = true \/ e <> Ends id /\ over = over')).
Proof.
  intros (es1 & q & r & t & es2 & E & A & B & C & D & F & G). destruct es2 as [|x es2 _] using rev_ind.
  - left. apply app_inj_tail in E as [-> ->]. exists q, r, t. do 5 (split; [auto|]). destruct over; [|reflexivity]. destruct G as [G _]. destruct (G eq_refl).
  - right. rewrite app_comm_cons, app_assoc in E. apply app_inj_tail in E as [-> ->].
    assert (DI : {x = Ends id} + {x <> Ends id}) by (destruct x as [| |n|]; try (right; discriminate); destruct (Nat.eq_dec n id) as [->|]; [now left|right; congruence]).
    assert (EI : {In (Ends id) es2} + {~ In (Ends id) es2}).
    { clear. induction es2 as [|y l [IH|IH]]; [right; auto|left; now right|]. destruct y as [| |n|]; try (right; intros [K|K]; [discriminate K|auto]).
      destruct (Nat.eq_dec n id) as [->|]; [left; now left|right; intros [K|K]; [congruence|auto]]. }
    assert (NR : forall st b r', ~ In (Reply id st b r') es2) by (intros st b r' I; apply (F st b r'); apply in_or_app; now left).
    assert (NX : forall st b r', x <> Reply id st b r') by (intros st b r' ->; apply (F st b r'); apply in_or_app; right; now left).
    destruct EI as [EI|EI]; [exists true|exists false].
    + split; [exists es1, q, r, t, es2; do 6 (split; [auto|]); tauto|]. split; [exact NX|]. assert (over = true) by (apply G, in_or_app; now left). destruct DI; auto.
    + split; [exists es1, q, r, t, es2; do 6 (split; [auto|]); split; [discriminate|contradiction]|]. split; [exact NX|]. destruct DI as [->|DI].
      * left. split; [reflexivity|]. apply G, in_or_app. right. now left.
      * right. split; [exact DI|]. destruct over; [|reflexivity]. exfalso. destruct G as [G _]. specialize (G eq_refl). apply in_app_or in G as [G|[G|[]]]; contradiction.
Qed.
Lemma complete_step o0 es s e s' os : Inv o0 es s -> Complete o0 es s -> step s e = (s', os) -> Complete o0 (es ++ [e]) s'.
Proof.
  intros (I1 & I2 & I3 & I4) K H id o over P. apply pending_snoc in P as [(q & r & t & -> & -> & -> & X & T & ->)|(over' & P & NR & W)].
  - cbn [RecapModel.step] in H. rewrite I1, X in H. destruct t as [|c t]; [contradiction|]. injection H as <- _. left. now rewrite I2.
  - specialize (K id o over' P). destruct e as [o'|q r|id'|id' st b r]; cbn [RecapModel.step] in H.
    + destruct W as [[W _]|[_ ->]]; [discriminate W|]. destruct (ro_secret o'); injection H as <- _; exact K.
    + destruct W as [[W _]|[_ ->]]; [discriminate W|]. destruct (extract decode parse (s_options s) q) as [[|c t]|]; injection H as <- _; cbn [s_open]; auto. now right.
    + injection H as <- _. cbn [s_open]. apply in_map_iff. exists (mkE id o over'). split; [|exact K]. cbn [e_id e_options e_over].
      destruct W as [[W ->]|[W ->]]; [injection W as ->; now rewrite Nat.eqb_refl|]. destruct (Nat.eqb_spec id id') as [->|]; [now destruct W|reflexivity].
    + destruct W as [[W _]|[_ ->]]; [discriminate W|].
      assert (Y : forall s1, s1 = mkS (s_options s) (filter (fun e => negb (Nat.eqb (e_id e) id')) (s_open s)) (s_next s) -> In (mkE id o over') (s_open s1)).
      { intros s1 ->. cbn [s_open]. apply filter_In. split; [exact K|]. cbn [e_id]. destruct (Nat.eqb_spec id id') as [->|]; [|reflexivity]. exfalso. exact (NR _ _ _ eq_refl). }
      destruct (find (fun e => Nat.eqb (e_id e) id') (s_open s)) as [e|] eqn:F; [|injection H as <- _; exact K].
      destruct (e_over e); [injection H as <- _; now apply Y|]. destruct (decide _ _ _ _ _ _ _ _ _) as [g [|r']]; injection H as <- _; now apply Y.
Qed.
Lemma answered_step o0 es s id st b r s' os o : Inv o0 es s -> Complete o0 es s -> step s (Reply id st b r) = (s', os) -> Pending o0 es id o false ->
  Vouched parse as_float (scoring_of (ro_type o)) (ro_min o) st b /\ os = [Continues id (parse_reply parse what as_float st b)] \/
  ~ Vouched parse as_float (scoring_of (ro_type o)) (ro_min o) st b /\ exists r', os = [Stops id (Some (parse_reply parse what as_float st b)) r'].
Proof.
  intros (I1 & I2 & I3 & I4) K H P. apply K in P. cbn [RecapModel.step] in H.
  assert (F : find (fun e => Nat.eqb (e_id e) id) (s_open s) = Some (mkE id o false)).
  { clear - I3 P. induction (s_open s) as [|x l IH]; [destruct P|]. cbn [find]. inversion I3; subst. destruct P as [->|P]; [cbn; now rewrite Nat.eqb_refl|].
    destruct (Nat.eqb_spec (e_id x) id) as [E|]; [|now apply IH]. exfalso. apply H1. rewrite E. change id with (e_id (mkE id o false)). now apply in_map. }
  rewrite F in H. cbn [e_over e_options] in H. destruct (decide parse what dump as_float float_text o st b r) as [g v] eqn:DE.
  pose proof (c154_decision _ _ _ _ _ _ _ _ _ _ _ DE) as DD. assert (GE : g = parse_reply parse what as_float st b) by (unfold decide in DE; congruence). subst g.
  destruct v as [|r']; injection H as _ <-; [left|right]; (split; [|eauto]); [now apply DD|]. intro V. apply DD in V. discriminate V.
Qed.
Lemma inv_step o0 es s e s' os : Inv o0 es s -> step s e = (s', os) -> Inv o0 (es ++ [e]) s' /\
  (forall id g, In (Continues id g) os -> exists st b r o, e = Reply id st b r /\ Pending o0 es id o false /\ Vouched parse as_float (scoring_of (ro_type o)) (ro_min o) st b /\
     g = parse_reply parse what as_float st b) /\
  (forall id g r', In (Stops id (Some g) r') os -> exists st b r o, e = Reply id st b r /\ Pending o0 es id o false /\ ~ Vouched parse as_float (scoring_of (ro_type o)) (ro_min o) st b).
Proof.
  intros (I1 & I2 & I3 & I4) H. destruct e as [o|q r|id|id st b r]; cbn [RecapModel.step] in H.
  - assert (W : exists o', s' = mkS o' (s_open s) (s_next s) /\ o' = in_force o0 (es ++ [Update o]) /\ (os = [] \/ os = [Throws])).
    { rewrite in_force_snoc. destruct (ro_secret o); injection H as <- <-; [exists (s_options s); destruct s; auto|exists o; auto]. }
    destruct W as (o' & -> & E & O). split.
    + split; [exact E|]. split; [rewrite requests_snoc; cbn; lia|]. split; [exact I3|]. intros e I. apply pending_keep; [now apply I4|discriminate|discriminate].
    + destruct O as [->| ->]; split; intros; cbn in *; intuition discriminate.
  - assert (K : forall e, In e (s_open s) -> Pending o0 (es ++ [Process q r]) (e_id e) (e_options e) (e_over e)) by (intros e I; apply pending_keep; [now apply I4|discriminate|discriminate]).
    assert (NX : S (s_next s) = requests (es ++ [Process q r])) by (rewrite requests_snoc; cbn; lia).
    assert (OX : s_options s = in_force o0 (es ++ [Process q r])) by (rewrite in_force_snoc; exact I1).
    destruct (extract decode parse (s_options s) q) as [[|c t]|] eqn:X; injection H as <- <-.
    + split; [split; [exact OX|split; [exact NX|split; [exact I3|exact K]]]|]. split; intros; cbn in *; intuition discriminate.
    + split.
      * split; [exact OX|]. split; [exact NX|]. split.
        -- cbn [s_open map e_id]. constructor; [|exact I3]. intro I. apply in_map_iff in I as (e & E & I). specialize (I4 e I). apply pending_id in I4. rewrite E, I2 in I4. lia.
        -- intros e [<-|I]; [|now apply K]. cbn [e_id e_options e_over]. exists es, q, r, (c :: t), []. split; [reflexivity|]. split; [auto|]. split; [auto|].
           split; [exact X|]. split; [discriminate|]. split; [intros ? ? ? []|]. split; [discriminate|intros []].
      * split; intros; cbn in *; intuition discriminate.
    + split; [split; [exact OX|split; [exact NX|split; [exact I3|exact K]]]|]. split; intros; cbn in *; intuition discriminate.
  - injection H as <- <-. split; [|split; intros; cbn in *; contradiction]. split; [rewrite in_force_snoc; exact I1|]. split; [rewrite requests_snoc; cbn; lia|].
    cbn [s_open]. split.
    + rewrite map_map. erewrite map_ext; [exact I3|]. intro e. cbn. destruct (Nat.eqb (e_id e) id); reflexivity.
    + intros e I. apply in_map_iff in I as (e' & <- & I). specialize (I4 e' I). destruct (Nat.eqb_spec (e_id e') id) as [<-|D].
      * cbn [e_id e_options e_over]. eapply pending_end; eauto.
      * apply pending_keep; [exact I4|discriminate|congruence].
  - destruct (find (fun e => Nat.eqb (e_id e) id) (s_open s)) as [e|] eqn:F.
    + apply find_some in F as [F E]. apply Nat.eqb_eq in E. pose proof (I4 e F) as P. rewrite E in P.
      assert (IS : forall s1, s1 = mkS (s_options s) (filter (fun e => negb (Nat.eqb (e_id e) id)) (s_open s)) (s_next s) -> Inv o0 (es ++ [Reply id st b r]) s1).
      { intros s1 ->. split; [rewrite in_force_snoc; exact I1|]. split; [rewrite requests_snoc; cbn; lia|]. cbn [s_open]. split.
        - clear - I3. induction (s_open s) as [|x l IH]; cbn [filter map] in *; [constructor|]. inversion I3; subst. destruct (negb (Nat.eqb (e_id x) id)); cbn [map]; [|now apply IH].
          constructor; [|now apply IH]. intro I. apply in_map_iff in I as (y & Y & I). apply filter_In in I as [I _]. apply H1. rewrite <- Y. now apply in_map.
        - intros x I. apply filter_In in I as [I Q]. apply pending_keep; [now apply I4| |discriminate]. intros st' b' r' Z. injection Z as Z _ _ _.
          rewrite Z, Nat.eqb_refl in Q. discriminate Q. }
      destruct (e_over e) eqn:OV; [injection H as <- <-; split; [now apply IS|]; split; intros; cbn in *; contradiction|].
      destruct (decide parse what dump as_float float_text (e_options e) st b r) as [g v] eqn:DE.
      pose proof (c154_decision _ _ _ _ _ _ _ _ _ _ _ DE) as DD.
      assert (GE : g = parse_reply parse what as_float st b) by (unfold decide in DE; congruence).
      destruct v as [|r']; injection H as <- <-; (split; [now apply IS|]).
      * split; [|intros; cbn in *; intuition discriminate]. intros id' g' [I|[]]. injection I as <- <-. exists st, b, r, (e_options e). split; [reflexivity|]. split; [exact P|]. split; [now apply DD|exact GE].
      * split; [intros; cbn in *; intuition discriminate|]. intros id' g' r'' [I|[]]. injection I as <- <- _. exists st, b, r, (e_options e). split; [reflexivity|]. split; [exact P|].
        intro V. apply DD in V. discriminate V.
    + injection H as <- <-. split; [|split; intros; cbn in *; contradiction]. split; [rewrite in_force_snoc; exact I1|]. split; [rewrite requests_snoc; cbn; lia|]. split; [exact I3|].
      intros e I. apply pending_keep; [now apply I4| |discriminate]. intros st' b' r' Z. injection Z as Z _ _ _.
      apply (find_none _ _ F) in I. rewrite Z, Nat.eqb_refl in I. discriminate I.
Qed.
Lemma run_split o0 es1 : forall s, Inv o0 es1 s -> forall es s' oss, run s es = (s', oss) ->
  (forall i os id g, nth_error oss i = Some os -> In (Continues id g) os ->
     exists e, nth_error es i = Some e /\ exists st b r o, e = Reply id st b r /\ Pending o0 (es1 ++ firstn i es) id o false /\ Vouched parse as_float (scoring_of (ro_type o)) (ro_min o) st b /\ g = parse_reply parse what as_float st b) /\
  (forall i os id g r', nth_error oss i = Some os -> In (Stops id (Some g) r') os ->
     exists e, nth_error es i = Some e /\ exists st b r o, e = Reply id st b r /\ Pending o0 (es1 ++ firstn i es) id o false /\ ~ Vouched parse as_float (scoring_of (ro_type o)) (ro_min o) st b).
Proof.
  intros s I es. revert es1 s I. induction es as [|e es IH]; intros es1 s I s' oss H; cbn [RecapModel.run] in H.
  - injection H as _ <-. split; intros [|i]; discriminate.
  - destruct (step s e) as [s1 o] eqn:St. destruct (run s1 es) as [s2 os2] eqn:Ru. injection H as <- <-.
    destruct (inv_step o0 es1 s e s1 o I St) as (I' & A & B). destruct (IH (es1 ++ [e]) s1 I' s2 os2 Ru) as [C D]. split.
    + intros [|i] os id g N J; cbn in N.
      * injection N as <-. exists e. split; [reflexivity|]. rewrite app_nil_r. now apply A.
      * destruct (C i os id g N J) as (e' & X & Y). exists e'. split; [exact X|]. rewrite <- app_assoc in Y. exact Y.
    + intros [|i] os id g r' N J; cbn in N.
      * injection N as <-. exists e. split; [reflexivity|]. rewrite app_nil_r. eapply B; eauto.
      * destruct (D i os id g r' N J) as (e' & X & Y). exists e'. split; [exact X|]. rewrite <- app_assoc in Y. exact Y.
Qed.
Lemma answered_run o0 es1 : forall s, Inv o0 es1 s -> Complete o0 es1 s -> forall es s' oss, run s es = (s', oss) ->
  forall i id st b r o, nth_error es i = Some (Reply id st b r) -> Pending o0 (es1 ++ firstn i es) id o false -> exists os, nth_error oss i = Some os /\
  (Vouched parse as_float (scoring_of (ro_type o)) (ro_min o) st b /\ os = [Continues id (parse_reply parse what as_float st b)] \/
   ~ Vouched parse as_float (scoring_of (ro_type o)) (ro_min o) st b /\ exists r', os = [Stops id (Some (parse_reply parse what as_float st b)) r']).
Proof.
  intros s I K es. revert es1 s I K. induction es as [|e es IH]; intros es1 s I K s' oss H i id st b r o N P; [destruct i; discriminate N|].
  cbn [RecapModel.run] in H. destruct (step s e) as [s1 os] eqn:St. destruct (run s1 es) as [s2 os2] eqn:Ru. injection H as <- <-.
  destruct i as [|i]; cbn [nth_error firstn] in *.
  - injection N as ->. rewrite app_nil_r in P. exists os. split; [reflexivity|]. eapply answered_step; eauto.
  - apply (IH (es1 ++ [e]) s1 (proj1 (inv_step o0 es1 s e s1 os I St)) (complete_step o0 es1 s e s1 os I K St) s2 os2 Ru i id st b r o N). rewrite <- app_assoc. exact P.
Qed.
End History.
(** A request reaches the handlers only on a reply to the verification of its own token, its first reply, while the request is still going on, and
    only if the service vouches for it under the options that were in force when the request came. *)
Theorem c156_passes : forall encode decode parse what dump as_float float_text o0 s0 es s oss i os id g,
  start o0 = Some s0 -> run encode decode parse what dump as_float float_text s0 es = (s, oss) -> nth_error oss i = Some os -> In (Continues id g) os ->
  exists st b r o, nth_error es i = Some (Reply id st b r) /\ Pending decode parse o0 (firstn i es) id o false /\
    Vouched parse as_float (scoring_of (ro_type o)) (ro_min o) st b /\ g = parse_reply parse what as_float st b.
Proof.
  intros encode decode parse what dump as_float float_text o0 s0 es s oss i os id g S0 R N I.
  assert (V : Inv decode parse o0 [] s0).
  { unfold start in S0. destruct (ro_secret o0); [discriminate S0|]. injection S0 as <-. split; [reflexivity|]. split; [reflexivity|]. split; [constructor|intros e []]. }
  destruct (run_split encode decode parse what dump as_float float_text o0 [] s0 V es s oss R) as [A _]. destruct (A i os id g N I) as (e & X & st & b & r & o & -> & Y). exists st, b, r, o. auto.
Qed.
Print Assumptions c156_passes.
(** and a request is stopped after its token was sent only if the service does not vouch for it. *)
Theorem c156_stops : forall encode decode parse what dump as_float float_text o0 s0 es s oss i os id g r',
  start o0 = Some s0 -> run encode decode parse what dump as_float float_text s0 es = (s, oss) -> nth_error oss i = Some os -> In (Stops id (Some g) r') os ->
  exists st b r o, nth_error es i = Some (Reply id st b r) /\ Pending decode parse o0 (firstn i es) id o false /\
    ~ Vouched parse as_float (scoring_of (ro_type o)) (ro_min o) st b.
Proof.
  intros encode decode parse what dump as_float float_text o0 s0 es s oss i os id g r' S0 R N I.
  assert (V : Inv decode parse o0 [] s0).
  { unfold start in S0. destruct (ro_secret o0); [discriminate S0|]. injection S0 as <-. split; [reflexivity|]. split; [reflexivity|]. split; [constructor|intros e []]. }
  destruct (run_split encode decode parse what dump as_float float_text o0 [] s0 V es s oss R) as [_ A]. destruct (A i os id g r' N I) as (e & X & st & b & r & o & -> & Y). exists st, b, r, o. auto.
Qed.
Print Assumptions c156_stops.

(** The first reply to a request that is still going on settles it: it passes if the service vouches for it, otherwise it is stopped. *)
Theorem c156_settles : forall encode decode parse what dump as_float float_text o0 s0 es s oss i id st b r o,
  start o0 = Some s0 -> run encode decode parse what dump as_float float_text s0 es = (s, oss) ->
  nth_error es i = Some (Reply id st b r) -> Pending decode parse o0 (firstn i es) id o false -> exists os, nth_error oss i = Some os /\
  (Vouched parse as_float (scoring_of (ro_type o)) (ro_min o) st b /\ os = [Continues id (parse_reply parse what as_float st b)] \/
   ~ Vouched parse as_float (scoring_of (ro_type o)) (ro_min o) st b /\ exists r', os = [Stops id (Some (parse_reply parse what as_float st b)) r']).
Proof.
  intros encode decode parse what dump as_float float_text o0 s0 es s oss i id st b r o S0 R N P.
  assert (V : Inv decode parse o0 [] s0).
  { unfold start in S0. destruct (ro_secret o0); [discriminate S0|]. injection S0 as <-. split; [reflexivity|]. split; [reflexivity|]. split; [constructor|intros e []]. }
  assert (K : Complete decode parse o0 [] s0) by (intros id' o' over (es1 & q & r' & t & es2 & E & _); destruct es1; discriminate E).
  exact (answered_run encode decode parse what dump as_float float_text o0 [] s0 V K es s oss R i id st b r o N P).
Qed.
Print Assumptions c156_settles.
(** A request without a token is answered with 400 and the service is not asked; with one, the service is asked about that token. *)
Theorem c155_asks : forall encode decode parse what dump as_float float_text s q r s' os,
  step encode decode parse what dump as_float float_text s (Process q r) = (s', os) ->
  (exists t, t <> [] /\ extract decode parse (s_options s) q = Some t /\ os = [Asks (s_next s) (ro_url (s_options s)) (verification_body encode (ro_secret (s_options s)) t None)]) \/
  ((forall t, t <> [] -> extract decode parse (s_options s) q <> Some t) /\ exists r', os = [Stops (s_next s) None r'] /\ forall r1, r' = Some r1 -> r_status r1 = 400).
Proof.
  intros encode decode parse what dump as_float float_text s q r s' os H. cbn [step] in H. destruct (extract decode parse (s_options s) q) as [[|c t]|] eqn:X; injection H as <- <-.
  - right. split; [intros t T E; injection E as <-; contradiction|]. eexists. split; [reflexivity|]. unfold error_response. destruct (dump _); [|discriminate]. intros r1 E. injection E as <-. reflexivity.
  - left. exists (c :: t). split; [discriminate|auto].
  - right. split; [discriminate|]. eexists. split; [reflexivity|]. unfold error_response. destruct (dump _); [|discriminate]. intros r1 E. injection E as <-. reflexivity.
Qed.
Print Assumptions c155_asks.

(** ** A run, and what the middleware does not check *)
Definition ex_parse (s : list N) : option json :=
  if beq s (str "good") then Some (JObj [(str "success", JBool true); (str "score", JReal half)])
  else if beq s (str "text") then Some (JObj [(str "success", JBool true); (str "score", JStr (str "0.0"))])
  else if beq s (str "no") then Some (JObj [(str "success", JBool false)]) else None.
Definition ex_float (j : json) : spec_float := match j with JReal d => d | _ => S754_zero false end.
Definition ex_run (o : options) (es : list event) : list (list out) :=
  snd (run uri_encode_component decoded ex_parse (fun s => s) (fun _ => Some []) ex_float (fun _ => []) (mkS o [] 0) es).
Definition ex_request : request := mkRQ [] [] (str "a=b&g-recaptcha-response=tok").
Definition ex_response : response := mkR 200 [] [].
Example c156_ex : start (preset_v3 (str "s") half) = Some (mkS (preset_v3 (str "s") half) [] 0) /\
  ex_run (preset_v3 (str "s") half) [Process ex_request ex_response; Process ex_request ex_response; Process ex_request ex_response; Ends 1;
     Update (preset_v2 (str "t")); Reply 0 200 (str "good") ex_response; Reply 1 200 (str "good") ex_response; Reply 2 200 (str "no") ex_response] =
  [[Asks 0 (str "https://www.google.com/recaptcha/api/siteverify") (str "secret=s&response=tok")];
   [Asks 1 (str "https://www.google.com/recaptcha/api/siteverify") (str "secret=s&response=tok")];
   [Asks 2 (str "https://www.google.com/recaptcha/api/siteverify") (str "secret=s&response=tok")]; []; [];
   [Continues 0 (mkG true (Some half) [] [] [])]; [];
   [Stops 2 (Some (mkG false None [] [] [])) (Some (mkR 403 [(str "Content-Type", [str "application/json; charset=utf-8"])] []))]].
Proof. vm_compute. auto. Qed.
(** With the default challenge type a score that is no number is ignored. *)
Theorem c154_text_score_refuted : exists parse what dump as_float float_text o body r g,
  ro_type o = Auto /\ (exists m s, parse body = Some (JObj m) /\ lookup (str "score") m = Some (JStr s)) /\
  decide parse what dump as_float float_text o 200 body r = (g, Passed).
Proof.
  exists ex_parse, (fun s => s), (fun _ => Some []), ex_float, (fun _ => []), (options_new (str "s")), (str "text"), ex_response. eexists. split; [reflexivity|]. split.
  - eexists _, (str "0.0"). split; reflexivity.
  - vm_compute. reflexivity.
Qed.
