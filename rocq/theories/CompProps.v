(** Properties C119-C123: choosing a coding, compressing and decompressing bodies. *)
From Verif Require Import Base UtilModel UtilSpec UtilProofs StaticModel Http1Model Http1Spec Http1Proofs RecvModel RecvInv WsSession HdrModel HdrSpec HdrProofs HdrProps CompModel CompSpec.
From Coq Require Import ZifyBool ZifyN.
Local Open Scope N_scope.

(** ** C119: the coding chosen *)
Definition ne (t : list N) : bool := match t with [] => false | _ => true end.
Lemma words_tokens d s : Tokens (fun c => existsb (fun x => c =? x) d) (words d s) s.
Proof. unfold words, split_string_set. destruct (split_string_ok s (fun c => existsb (fun x => c =? x) d)) as (ts & E & HT). now rewrite E. Qed.
Lemma cut_tokens d s : Tokens (fun c => c =? d) (filter ne (cut d s)) s.
Proof.
  destruct (cut_spec d s) as [E HN]. rewrite <- E at 2. clear E. induction HN as [|p l Hp HN IH]; [constructor|].
  assert (HF : Forall (fun c => (c =? d) = false) p) by (apply Forall_forall; intros c Hc; apply N.eqb_neq; intros ->; contradiction).
  destruct l as [|q l].
  - cbn [filter intercalate]. destruct p as [|c p]; cbn [ne]; [constructor|]. apply tok_last; [discriminate|exact HF].
  - rewrite intercalate_cons by discriminate. cbn [filter]. cbn [filter] in IH. destruct p as [|c p]; cbn [ne app].
    + apply tok_delim; [apply N.eqb_refl|exact IH].
    + change (c :: p ++ d :: intercalate [d] (q :: l)) with ((c :: p) ++ d :: intercalate [d] (q :: l)). apply tok_more; [discriminate|exact HF|apply N.eqb_refl|exact IH].
Qed.
Lemma words_cut d s : words [d] s = filter ne (cut d s).
Proof.
  pose proof (words_tokens [d] s) as H1. pose proof (cut_tokens d s) as H2. refine (Tokens_det (fun c => c =? d) _ s _ _ H2).
  clear H2. revert H1. generalize (words [d] s). intros l H. induction H as [|c ts s Hc _ IH|t Hne Ht|t c ts s Hne Ht Hc _ IH].
  - constructor.
  - apply tok_delim; [cbn [existsb] in Hc; now rewrite orb_false_r in Hc|exact IH].
  - apply tok_last; [exact Hne|]. eapply Forall_impl; [|exact Ht]. intros x Hx. cbn [existsb] in Hx. now rewrite orb_false_r in Hx.
  - apply tok_more; [exact Hne| |cbn [existsb] in Hc; now rewrite orb_false_r in Hc|exact IH]. eapply Forall_impl; [|exact Ht]. intros x Hx. cbn [existsb] in Hx. now rewrite orb_false_r in Hx.
Qed.
Lemma cut_after d s : cut d s = before d s :: match after d s with None => [] | Some r => cut d r end.
Proof.
  induction s as [|c s IH]; cbn [cut before after]; [reflexivity|]. destruct (c =? d); [reflexivity|]. rewrite IH. reflexivity.
Qed.
Lemma cut_tail d w : ~ In d w -> forall s, exists init l, cut d s = init ++ [l] /\ cut d (s ++ w) = init ++ [l ++ w].
Proof.
  intros Hw. assert (Hc : cut d w = [w]). { induction w as [|c w IH]; [reflexivity|]. cbn [cut]. destruct (N.eqb_spec c d) as [->|Hn]; [exfalso; apply Hw; now left|]. rewrite IH; [reflexivity|]. intros HI. apply Hw. now right. }
  induction s as [|c s (init & l & E1 & E2)]; [exists [], []; split; [reflexivity|exact Hc]|]. cbn [cut app]. rewrite E1, E2. destruct (c =? d).
  - exists ([] :: init), l. split; reflexivity.
  - destruct init as [|i init]; [exists [], (c :: l); split; reflexivity|]. exists ((c :: i) :: init), l. split; reflexivity.
Qed.
Lemma cut_head d w s : ~ In d w -> cut d (w ++ s) = (w ++ before d s) :: match after d s with None => [] | Some r => cut d r end.
Proof.
  intros Hw. induction w as [|c w IH]; [apply cut_after|]. cbn [app cut]. destruct (N.eqb_spec c d) as [->|Hn]; [exfalso; apply Hw; now left|]. rewrite IH; [reflexivity|]. intros HI. apply Hw. now right.
Qed.
Lemma ows_no d w : ~ Ows d -> Forall Ows w -> ~ In d w.
Proof. intros Hd HF HI. rewrite Forall_forall in HF. auto. Qed.
Lemma qp_ext l1 l2 : Forall2 (fun a b => trim_http_whitespace a = trim_http_whitespace b) l1 l2 -> q_of_params l1 = q_of_params l2.
Proof. induction 1 as [|a b l1 l2 H HF IH]; [reflexivity|]. cbn [q_of_params]. rewrite H, IH. reflexivity. Qed.
Lemma qp_filter l : q_of_params (filter ne l) = q_of_params l.
Proof. induction l as [|p l IH]; [reflexivity|]. cbn [filter]. destruct p as [|c p]; cbn [ne]; [exact IH|]. cbn [q_of_params]. now rewrite IH. Qed.
Lemma trim_app_ows l w : Forall Ows w -> trim_http_whitespace (l ++ w) = trim_http_whitespace l.
Proof.
  intros Hw. apply (Trimmed_det (l ++ w)); [apply trim_spec|]. destruct (trim_spec l) as (a & b & E & Ha & Hb & H1 & H2). exists a, (b ++ w). split; [now rewrite E at 1; rewrite <- !app_assoc|].
  split; [exact Ha|]. split; [apply Forall_app; now split|]. split; assumption.
Qed.
Lemma forall2_same {A} (R : A -> A -> Prop) l : (forall x, R x x) -> Forall2 R l l.
Proof. intros H. induction l; constructor; auto. Qed.
Lemma tail_params token : q_of_params (tl (cut 59 token)) = parse_accept_encoding_q (trim_http_whitespace token).
Proof.
  destruct (trim_spec token) as (a & b & E & Ha & Hb & _). set (u := trim_http_whitespace token) in *. rewrite E.
  assert (H59 : ~ Ows 59) by (intros [H|H]; discriminate H). rewrite (cut_head 59 a) by (now apply ows_no). cbn [tl].
  assert (HX : match after 59 (u ++ b) with Some r => cut 59 r | None => [] end = tl (cut 59 (u ++ b))) by (rewrite (cut_after 59 (u ++ b)); reflexivity).
  rewrite HX. clear HX. destruct (cut_tail 59 b (ows_no _ _ H59 Hb) u) as (init & l & E1 & E2).
  assert (HY : parse_accept_encoding_q u = q_of_params (tl (cut 59 u))).
  { unfold parse_accept_encoding_q. rewrite (cut_after 59 u). cbn [tl]. destruct (after 59 u) as [r|]; [now rewrite pieces_cut|reflexivity]. }
  rewrite HY, E1, E2. apply qp_ext. destruct init as [|i init]; [constructor|]. cbn [tl app]. apply Forall2_app; [now apply forall2_same|]. constructor; [|constructor]. now apply trim_app_ows.
Qed.
Lemma trim_nil s : trim_http_whitespace s = [] <-> Forall Ows s.
Proof.
  split.
  - intros H. destruct (trim_spec s) as (a & b & E & Ha & Hb & _). rewrite H in E. cbn [app] in E. rewrite E. apply Forall_app. now split.
  - intros H. apply (Trimmed_det s); [apply trim_spec|]. exists s, []. rewrite !app_nil_r. split; [reflexivity|]. split; [exact H|]. split; [constructor|]. split; intros c r E; [discriminate E|destruct r; discriminate E].
Qed.
Lemma parse_q_elem token : fst (elem token) <> [] -> parse_q_value token = snd (elem token).
Proof.
  intros HN. unfold parse_q_value. change (str ";") with [59]. rewrite words_cut. rewrite (cut_after 59 token). cbn [filter].
  assert (HB : before 59 token <> []).
  { intros HB. apply HN. unfold elem. cbn [fst]. set (u := trim_http_whitespace token).
    assert (HT : exists r, token = 59 :: r \/ token = []).
    { destruct token as [|c r]; [exists []; now right|]. cbn [before] in HB. destruct (N.eqb_spec c 59) as [->|_]; [exists r; now left|discriminate HB]. }
    destruct HT as (r & [->| ->]); [|reflexivity]. destruct (trim_spec (59 :: r)) as (a & b & E & Ha & Hb & _). fold u in E.
    assert (a = []) as ->. { destruct a as [|x a]; [reflexivity|]. injection E as <- _. inversion Ha as [|? ? [H|H] _]; discriminate H. }
    destruct u as [|x u']; [reflexivity|]. injection E as <- _. cbn [after before]. reflexivity. }
  destruct (before 59 token) as [|c b] eqn:EB; [congruence|]. cbn [ne]. rewrite qp_filter.
  unfold elem. cbn [snd]. rewrite <- tail_params. rewrite (cut_after 59 token). reflexivity.
Qed.
Lemma accepted_elems s : accepted_encodings s = filter (fun e => ne (fst e)) (map elem (words (str ",") s)).
Proof.
  unfold accepted_encodings. induction (words (str ",") s) as [|t l IH]; [reflexivity|]. cbn [flat_map map filter]. rewrite IH. clear IH.
  assert (EN : match after 59 (trim_http_whitespace t) with Some _ => trim_http_whitespace (before 59 (trim_http_whitespace t)) | None => trim_http_whitespace t end = fst (elem t)).
  { unfold elem. cbn [fst]. destruct (after 59 (trim_http_whitespace t)); reflexivity. }
  rewrite EN. pose proof (parse_q_elem t) as HQ. destruct (elem t) as [n q]. cbn [fst snd] in *. destruct n as [|c n]; cbn [ne]; [reflexivity|]. rewrite HQ by discriminate. reflexivity.
Qed.
Lemma accepts_elems s es : bytes_ok s -> Accepts s es -> es = map elem (words (str ",") s).
Proof.
  intros Hs (ts & HT & HF). assert (E : words (str ",") s = ts).
  { change (str ",") with [44]. rewrite words_cut. apply (Tokens_det _ _ s (cut_tokens 44 s)). exact HT. }
  rewrite E. pose proof (tokens_bytes _ _ _ HT Hs) as HB. clear - HF HB. induction HF as [|t e ts es H HF IH]; [reflexivity|]. inversion HB; subst. cbn [map]. f_equal; [|now apply IH].
  apply elem_iff in H; [|assumption]. destruct e; exact H.
Qed.
Lemma candidate_filter x : x <> [] -> forall es w, candidate_q x w (filter (fun e => ne (fst e)) es) = candidate_q x w es.
Proof.
  intros Hx. induction es as [|[n q] es IH]; intros w; [reflexivity|]. cbn [filter fst]. destruct n as [|c n]; cbn [ne].
  - rewrite IH. cbn [candidate_q]. assert (E : iequals [] x = false) by (unfold iequals; destruct x; [congruence|reflexivity]). now rewrite E.
  - cbn [candidate_q]. destruct (iequals (c :: n) x); [reflexivity|]. apply IH.
Qed.
Lemma same_iff a b : bytes_ok a -> bytes_ok b -> (iequals a b = true <-> Same a b).
Proof. apply iequals_spec. Qed.
Lemma candidate_spec x : bytes_ok x -> forall es pre w,
  Forall (fun e => bytes_ok (fst e)) es -> Forall (fun e => ~ Same (fst e) x) pre ->
  match w with Some q => exists a b, pre = a ++ (str "*", q) :: b /\ Forall (fun e => fst e <> str "*") b | None => Forall (fun e : list N * N => fst e <> str "*") pre end ->
  match candidate_q x w es with Some q => Quality (pre ++ es) x q | None => Quality (pre ++ es) x 0 /\ Forall (fun e => ~ Same (fst e) x /\ fst e <> str "*") (pre ++ es) end.
Proof.
  intros Hx. induction es as [|[n q] es IH]; intros pre w HB HP HW.
  - cbn [candidate_q]. rewrite app_nil_r. destruct w as [q|].
    + destruct HW as (a & b & E & Hb). exact (q_wildcard _ _ a q b HP E Hb).
    + assert (HF : Forall (fun e : list N * N => ~ Same (fst e) x /\ fst e <> str "*") pre) by (rewrite Forall_forall in *; intros e He; split; auto). split; [now apply q_absent|exact HF].
  - inversion HB as [|? ? Hn HB']; subst. cbn [fst] in Hn. cbn [candidate_q]. destruct (iequals n x) eqn:E.
    + apply same_iff in E; [|assumption..]. exact (q_named _ _ pre n q es eq_refl E HP).
    + specialize (IH (pre ++ [(n, q)]) (if beq n (str "*") then Some q else w) HB'). rewrite <- app_assoc in IH. cbn [app] in IH. apply IH.
      * apply Forall_app. split; [exact HP|]. constructor; [|constructor]. cbn [fst]. intros HS. apply same_iff in HS; [congruence|assumption..].
      * destruct (beq n (str "*")) eqn:ES.
        -- apply beq_eq in ES. subst n. exists pre, []. split; [reflexivity|constructor].
        -- assert (HN : n <> str "*") by (intros ->; rewrite beq_refl in ES; discriminate ES). destruct w as [q0|].
           ++ destruct HW as (a & b & -> & Hb). exists a, (b ++ [(n, q)]). split; [now rewrite <- app_assoc|]. apply Forall_app. split; [exact Hb|]. constructor; [exact HN|constructor].
           ++ apply Forall_app. split; [exact HW|]. constructor; [exact HN|constructor].
Qed.
Lemma best_spec es (f : list N -> option N) : (forall x, f x = candidate_q x None es) ->
  forall prefs, Forall (fun x => Quality es x (match f x with Some q => q | None => 0 end)) prefs ->
  forall pre be bq, 
  (bq = 0 /\ Forall (fun x => Quality es x 0) pre \/
   0 < bq /\ exists a b, pre = a ++ be :: b /\ Quality es be bq /\ Forall (fun y => exists p, Quality es y p /\ p < bq) a /\ Forall (fun y => exists p, Quality es y p /\ p <= bq) b) ->
  Choice es (pre ++ prefs) (best prefs es be bq).
Proof.
  intros Hf. induction prefs as [|x prefs IH]; intros HQ pre be bq HI.
  - cbn [best]. rewrite app_nil_r. destruct HI as [[-> HI]|[HP (a & b & -> & H1 & H2 & H3)]]; [now apply choice_none|].
    replace (0 <? bq) with true by lia. now apply (choice_some es a be b bq).
  - inversion HQ as [|? ? Hx HQ']; subst. cbn [best]. rewrite <- Hf. replace (pre ++ x :: prefs) with ((pre ++ [x]) ++ prefs) by (now rewrite <- app_assoc).
    assert (HS : forall q, match f x with Some p => p | None => 0 end = q -> q <= bq ->
      (bq = 0 /\ Forall (fun y => Quality es y 0) (pre ++ [x]) \/
       0 < bq /\ exists a b, pre ++ [x] = a ++ be :: b /\ Quality es be bq /\ Forall (fun y => exists p, Quality es y p /\ p < bq) a /\ Forall (fun y => exists p, Quality es y p /\ p <= bq) b)).
    { intros q Eq Hq. rewrite Eq in Hx. destruct HI as [[-> HI]|[HP (a & b & -> & H1 & H2 & H3)]].
      - left. split; [reflexivity|]. apply Forall_app. split; [exact HI|]. constructor; [|constructor]. replace 0 with q by lia. exact Hx.
      - right. split; [exact HP|]. exists a, (b ++ [x]). split; [now rewrite <- app_assoc|]. split; [exact H1|]. split; [exact H2|]. apply Forall_app. split; [exact H3|]. constructor; [|constructor]. exists q. auto. }
    destruct (f x) as [q|]; [|apply IH; [exact HQ'|]; apply (HS 0); [reflexivity|lia]].
    destruct (bq <? q) eqn:EL; [|apply IH; [exact HQ'|]; apply (HS q); [reflexivity|lia]].
    apply IH; [exact HQ'|]. right. split; [lia|]. exists pre, []. split; [reflexivity|]. split; [exact Hx|]. split; [|constructor].
    destruct HI as [[-> HI]|[HP (a & b & -> & H1 & H2 & H3)]].
    + eapply Forall_impl; [|exact HI]. intros y Hy. exists 0. split; [exact Hy|lia].
    + apply Forall_app. split; [eapply Forall_impl; [|exact H2]; intros y (p & Hp & Hl); exists p; split; [exact Hp|lia]|]. constructor; [exists bq; split; [exact H1|lia]|].
      eapply Forall_impl; [|exact H3]. intros y (p & Hp & Hl). exists p. split; [exact Hp|lia].
Qed.
(** The coding used is the server's choice among its own by the weights of the client's header. *)
Theorem c119_choice : forall o accept es, bytes_ok accept -> Forall (fun x => bytes_ok x /\ x <> []) (o_preferred o) -> accept <> [] -> Accepts accept es ->
  Choice es (o_preferred o) (select_best_encoding accept o).
Proof.
  intros o accept es HA HP HN HE. unfold select_best_encoding. destruct accept as [|c0 a0]; [congruence|]. set (accept := c0 :: a0) in *. rewrite accepted_elems, <- (accepts_elems _ _ HA HE).
  assert (HB : Forall (fun e => bytes_ok (fst e)) es).
  { rewrite (accepts_elems _ _ HA HE). apply Forall_forall. intros e He. apply in_map_iff in He as (t & <- & Ht).
    pose proof (tokens_bytes _ _ _ (words_tokens (str ",") accept) HA) as HT. rewrite Forall_forall in HT. specialize (HT _ Ht).
    assert (H1 : bytes_ok (trim_http_whitespace t)) by (apply trim_bytes; exact HT). unfold elem. cbn [fst]. destruct (after 59 (trim_http_whitespace t)); [|exact H1]. apply trim_bytes. now apply before_bytes. }
  assert (EB : forall prefs, Forall (fun x => bytes_ok x /\ x <> []) prefs -> forall be bq, best prefs (filter (fun e => ne (fst e)) es) be bq = best prefs es be bq).
  { induction 1 as [|x l [_ Hx] HF IH]; intros be bq; [reflexivity|]. cbn [best]. rewrite candidate_filter by exact Hx. destruct (candidate_q x None es) as [q|]; [|apply IH]. destruct (bq <? q); apply IH. }
  rewrite EB by exact HP. apply (best_spec es (fun x => candidate_q x None es) (fun _ => eq_refl) (o_preferred o)) with (pre := []); [|left; split; [reflexivity|constructor]].
  eapply Forall_impl; [|exact HP]. intros x [Hx _]. pose proof (candidate_spec x Hx es [] None HB ltac:(constructor) ltac:(constructor)) as HC. cbn [app] in HC.
  destruct (candidate_q x None es) as [q|]; [exact HC|exact (proj1 HC)].
Qed.
(** The weights are determined, so a coding the client excludes (weight 0) or does not accept is never used. *)
Theorem quality_det : forall es x p q, Quality es x p -> Quality es x q -> p = q.
Proof.
  assert (HU : forall (x : list N) (a : list (list N * N)) n q b a' n' q' b', a ++ (n, q) :: b = a' ++ (n', q') :: b' -> Same n x -> Same n' x ->
    Forall (fun e => ~ Same (fst e) x) a -> Forall (fun e => ~ Same (fst e) x) a' -> q = q').
  { induction a as [|e a IH]; intros n q b [|e' a'] n' q' b' E Hn Hn' Ha Ha'; cbn [app] in E.
    - congruence.
    - injection E as E _. subst e'. inversion Ha' as [|? ? H _]; subst. contradiction.
    - injection E as E _. subst e. inversion Ha as [|? ? H _]; subst. contradiction.
    - injection E as _ E. inversion Ha; inversion Ha'; subst. eapply IH; eauto. }
  assert (HV : forall (b a : list (list N * N)) q a' q' b', a ++ (str "*", q) :: b = a' ++ (str "*", q') :: b' ->
    Forall (fun e => fst e <> str "*") b -> Forall (fun e => fst e <> str "*") b' -> q = q').
  { intros b a q a' q' b' E Hb Hb'. revert a' E. induction a as [|e a IH]; intros [|e' a'] E; cbn [app] in E.
    - congruence.
    - injection E as _ ->. apply Forall_app in Hb as [_ Hb]. inversion Hb as [|? ? H _]; subst. cbn [fst] in H. congruence.
    - injection E as _ <-. apply Forall_app in Hb' as [_ Hb']. inversion Hb' as [|? ? H _]; subst. cbn [fst] in H. congruence.
    - injection E as _ E. eapply IH; eauto. }
  intros es x p q H1 H2. destruct H1 as [a n p b E Hs Ha|a p b Hn E Hb|Hn]; destruct H2 as [a' n' q b' E' Hs' Ha'|a' q b' Hn' E' Hb'|Hn'].
  - rewrite E in E'. eapply HU; eauto.
  - exfalso. rewrite E in Hn'. apply Forall_app in Hn' as [_ Hn']. inversion Hn' as [|? ? H _]; subst. contradiction.
  - exfalso. rewrite E in Hn'. apply Forall_app in Hn' as [_ Hn']. inversion Hn' as [|? ? [H _] _]; subst. contradiction.
  - exfalso. rewrite E' in Hn. apply Forall_app in Hn as [_ Hn]. inversion Hn as [|? ? H _]; subst. contradiction.
  - rewrite E in E'. eapply HV; eauto.
  - exfalso. rewrite E in Hn'. apply Forall_app in Hn' as [_ Hn']. inversion Hn' as [|? ? [_ H] _]; subst. cbn [fst] in H. congruence.
  - exfalso. rewrite E' in Hn. apply Forall_app in Hn as [_ Hn]. inversion Hn as [|? ? [H _] _]; subst. contradiction.
  - exfalso. rewrite E' in Hn. apply Forall_app in Hn as [_ Hn]. inversion Hn as [|? ? [_ H] _]; subst. cbn [fst] in H. congruence.
  - reflexivity.
Qed.
Theorem choice_det : forall es prefs x y, Choice es prefs x -> Choice es prefs y -> x = y.
Proof.
  intros es prefs x y H1 H2. destruct H1 as [prefs HF|a x b q Hq HQ Ha Hb].
  - inversion H2 as [? ? E1 E2|a y' b q Hq HQ Ha Hb E1 E2]; subst; [reflexivity|]. exfalso. apply Forall_app in HF as [_ HF]. inversion HF as [|? ? H0 _]; subst. pose proof (quality_det _ _ _ _ H0 HQ). lia.
  - inversion H2 as [prefs HF E1 E2|a' y' b' q' Hq' HQ' Ha' Hb' E1 E2]; subst.
    + exfalso. apply Forall_app in HF as [_ HF]. inversion HF as [|? ? H0 _]; subst. pose proof (quality_det _ _ _ _ H0 HQ). lia.
    + clear H2. assert (HG : forall (a a' : list (list N)) x y b b' q q', 0 < q -> 0 < q' -> Quality es x q -> Quality es y q' -> a' ++ y :: b' = a ++ x :: b ->
        Forall (fun y => exists p, Quality es y p /\ p < q) a -> Forall (fun y => exists p, Quality es y p /\ p <= q) b ->
        Forall (fun y => exists p, Quality es y p /\ p < q') a' -> Forall (fun y => exists p, Quality es y p /\ p <= q') b' -> x = y).
      { clear. induction a as [|z a IH]; intros [|z' a'] x y b b' q q' Hq Hq' HQ HQ' E Ha Hb Ha' Hb'; cbn [app] in E.
        - congruence.
        - exfalso. injection E as Ez E. subst z'. subst b. inversion Ha' as [|? ? (p & Hp & Hl) _]; subst. pose proof (quality_det _ _ _ _ Hp HQ). apply Forall_app in Hb as [_ Hb]. inversion Hb as [|? ? (p' & Hp' & Hl') _]; subst.
          pose proof (quality_det _ _ _ _ Hp' HQ'). lia.
        - exfalso. injection E as Ez E. subst z. subst b'. inversion Ha as [|? ? (p & Hp & Hl) _]; subst. pose proof (quality_det _ _ _ _ Hp HQ'). apply Forall_app in Hb' as [_ Hb']. inversion Hb' as [|? ? (p' & Hp' & Hl') _]; subst.
          pose proof (quality_det _ _ _ _ Hp' HQ). lia.
        - injection E as _ E. inversion Ha; inversion Ha'; subst. apply (IH a' x y b b' q q'); assumption. }
      exact (HG a a' x y b b' q q' Hq Hq' HQ HQ' E1 Ha Hb Ha' Hb').
Qed.
Theorem c119_never_excluded : forall o accept es, bytes_ok accept -> Forall (fun x => bytes_ok x /\ x <> []) (o_preferred o) -> Accepts accept es ->
  select_best_encoding accept o <> [] -> In (select_best_encoding accept o) (o_preferred o) /\ ~ Quality es (select_best_encoding accept o) 0 /\
  exists e, In e es /\ 0 < snd e /\ (Same (fst e) (select_best_encoding accept o) \/ fst e = str "*").
Proof.
  intros o accept es HA HP HE HN. assert (HN2 : accept <> []) by (intros ->; apply HN; reflexivity). pose proof (c119_choice o accept es HA HP HN2 HE) as HC.
  inversion HC as [prefs HF E1 E2|a x b q Hq HQ Ha Hb E1 E2]; [congruence|]. split; [apply in_or_app; right; now left|]. split.
  - intros H0. pose proof (quality_det _ _ _ _ H0 HQ). lia.
  - inversion HQ as [a' n q' b' E Hs _|a' q' b' _ E _|_]; subst.
    + exists (n, q). split; [apply in_or_app; right; now left|]. split; [exact Hq|left; exact Hs].
    + exists (str "*", q). split; [apply in_or_app; right; now left|]. split; [exact Hq|right; reflexivity].
    + lia.
Qed.
