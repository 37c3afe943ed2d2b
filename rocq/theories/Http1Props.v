(** HTTP/1.1 serialization: C83-C86. *)
From Verif Require Import Base UtilModel UtilSpec UtilProofs CookieSpec H2FieldSpec StaticModel CookieProps
  Http1Model Http1Spec Http1Proofs.
Local Open Scope N_scope.

(** ** The reader of the specification reads an octet stream in one way only *)
Lemma cut_unique (P : N -> Prop) a a' x y s s' :
  Forall P a -> Forall P a' -> ~ P x -> ~ P y -> a ++ x :: s = a' ++ y :: s' -> a = a' /\ x = y /\ s = s'.
Proof.
  intros Ha. revert a'. induction Ha as [|c a Hc Ha IH]; intros a' Ha' Hx Hy E.
  - destruct a' as [|c' a']; cbn [app] in E; [injection E as -> ->; auto|]. injection E as -> E. inversion Ha'; subst. contradiction.
  - destruct a' as [|c' a']; cbn [app] in E; [injection E as -> E; contradiction|]. injection E as -> E. inversion Ha'; subst.
    destruct (IH a' ltac:(auto) Hx Hy E) as (-> & -> & ->). auto.
Qed.
Lemma eol_unique a a' s s' : NoEol a -> NoEol a' -> a ++ CRLF ++ s = a' ++ CRLF ++ s' -> a = a' /\ s = s'.
Proof.
  intros H H' E. destruct (cut_unique (fun c => c <> 13 /\ c <> 10) a a' 13 13 (10 :: s) (10 :: s') H H') as (-> & _ & E2);
    [lia|lia|exact E|]. injection E2 as ->. auto.
Qed.
Lemma digit_noeol ds : Forall Digit ds -> NoEol ds.
Proof. apply Forall_impl. unfold Digit. lia. Qed.
Lemma hex_noeol ds n : Hexadecimal ds n -> NoEol ds.
Proof. intros (_ & vs & H & _). induction H as [|c v ds vs Hc H IH]; constructor; [|auto]. inversion Hc; lia. Qed.
Lemma hex_det ds n m : Hexadecimal ds n -> Hexadecimal ds m -> n = m.
Proof.
  intros (_ & vs & H & <-) (_ & ws & H' & <-). f_equal. revert ws H'. induction H as [|c v ds vs Hc H IH]; intros ws H'; inversion H'; subst; [reflexivity|].
  f_equal; [|auto]. eapply hexval_fun; eauto.
Qed.
Lemma dec_det ds n m : Decimal ds n -> Decimal ds m -> n = m.
Proof. intros (_ & _ & H) (_ & _ & H'). congruence. Qed.

Lemma field_line_noeol f l : FieldLine f l -> NoEol l /\ l <> [].
Proof.
  intros (Ht & raw & -> & Hr & _). split.
  - apply Forall_app. split; [now apply token_noeol|]. constructor; [lia|auto].
  - destruct Ht as [Ht _]. destruct (fst f); [congruence|discriminate].
Qed.
Lemma field_line_det f f' l : FieldLine f l -> FieldLine f' l -> f = f'.
Proof.
  intros ([_ Ht] & raw & E & _ & Hv) ([_ Ht'] & raw' & E' & _ & Hv'). rewrite E in E'.
  destruct (cut_unique TokenChar (fst f) (fst f') 58 58 raw raw' Ht Ht') as (En & _ & Er); try exact E';
    try (intros K; apply token_range in K; lia).
  subst raw'. rewrite (surjective_pairing f), (surjective_pairing f'). f_equal; [exact En|]. eapply Trimmed_det; eauto.
Qed.
Lemma field_lines_det fs s rest : FieldLines fs s rest -> forall fs' rest', FieldLines fs' s rest' -> fs = fs' /\ rest = rest'.
Proof.
  induction 1 as [rest|f l fs s rest Hf H IH]; intros fs' rest' H'.
  - remember (CRLF ++ rest) as x eqn:Ex. destruct H' as [rest'|f' l' fs' s' rest' Hf' H'].
    + injection Ex as ->. auto.
    + exfalso. destruct (field_line_noeol _ _ Hf') as [Hn Hne]. destruct l' as [|c l']; [congruence|].
      injection Ex as -> _. inversion Hn; lia.
  - remember (l ++ CRLF ++ s) as x eqn:Ex. destruct H' as [rest'|f' l' fs' s' rest' Hf' H'].
    + exfalso. destruct (field_line_noeol _ _ Hf) as [Hn Hne]. destruct l as [|c l]; [congruence|].
      injection Ex as <- _. inversion Hn; lia.
    + destruct (field_line_noeol _ _ Hf) as [Hn _]. destruct (field_line_noeol _ _ Hf') as [Hn' _].
      destruct (eol_unique l' l s' s Hn' Hn Ex) as [-> ->]. destruct (IH _ _ H') as [-> ->].
      rewrite (field_line_det _ _ _ Hf Hf'). auto.
Qed.

Lemma chunked_det b s rest : ChunkedBody b s rest -> forall b' rest', ChunkedBody b' s rest' -> b = b' /\ rest = rest'.
Proof.
  induction 1 as [size rest Hs|size data more s rest Hd Hs H IH]; intros b' rest' H'.
  - remember (size ++ CRLF ++ CRLF ++ rest) as x eqn:Ex. destruct H' as [size' rest' Hs'|size' data' more' s' rest' Hd' Hs' H'].
    + destruct (eol_unique _ _ _ _ (hex_noeol _ _ Hs') (hex_noeol _ _ Hs) Ex) as [-> E]. injection E as ->. auto.
    + destruct (eol_unique _ _ _ _ (hex_noeol _ _ Hs') (hex_noeol _ _ Hs) Ex) as [-> E].
      pose proof (hex_det _ _ _ Hs Hs'). destruct data'; [congruence|cbn [length] in *; lia].
  - remember (size ++ CRLF ++ data ++ CRLF ++ s) as x eqn:Ex. destruct H' as [size' rest' Hs'|size' data' more' s' rest' Hd' Hs' H'].
    + destruct (eol_unique _ _ _ _ (hex_noeol _ _ Hs') (hex_noeol _ _ Hs) Ex) as [-> E].
      pose proof (hex_det _ _ _ Hs Hs'). destruct data; [congruence|cbn [length] in *; lia].
    + destruct (eol_unique _ _ _ _ (hex_noeol _ _ Hs') (hex_noeol _ _ Hs) Ex) as [-> E].
      pose proof (hex_det _ _ _ Hs Hs') as EL. assert (EL' : length data = length data') by lia.
      assert (Ed : data' = data) by (apply (f_equal (firstn (length data'))) in E; rewrite firstn_length_app, <- EL', firstn_length_app in E; exact E).
      subst data'. apply app_inv_head in E. injection E as ->. destruct (IH _ _ H') as [-> ->]. auto.
Qed.
Lemma declares_det fs a b : Declares fs a -> Declares fs b -> a = b.
Proof.
  intros Ha Hb. destruct Ha as [tss t T1 T2 T3 T4 T5|n T1 T2 T3|T1 T2]; destruct Hb as [tss' t' U1 U2 U3 U4 U5|m U1 U2 U3|U1 U2]; try congruence.
  f_equal. destruct (values_of (str "Content-Length") fs) as [|v vs]; [congruence|]. inversion T3; inversion U3; subst. eapply dec_det; eauto.
Qed.

(** C83: the specification's reader is a function of the octets. *)
Theorem http1_request_unique : forall s m t mj mn fs b rest m' t' mj' mn' fs' b' rest',
  ReadRequest s m t mj mn fs b rest -> ReadRequest s m' t' mj' mn' fs' b' rest' ->
  m = m' /\ t = t' /\ mj = mj' /\ mn = mn' /\ fs = fs' /\ b = b' /\ rest = rest'.
Proof.
  intros s m t mj mn fs b rest m' t' mj' mn' fs' b' rest'
    (maj & min & s1 & s2 & fr & E & Hm & _ & Ht & Hj & Hn & Hf & Hd & Hb)
    (maj' & min' & s1' & s2' & fr' & E' & Hm' & _ & Ht' & Hj' & Hn' & Hf' & Hd' & Hb').
  rewrite E in E'. clear E.
  destruct (cut_unique TokenChar m m' 32 32 _ _ (proj2 Hm) (proj2 Hm')
              ltac:(intros K; apply token_range in K; lia) ltac:(intros K; apply token_range in K; lia) E') as (-> & _ & E).
  clear E'. destruct (cut_unique (fun c => c <> 32 /\ c <> 13 /\ c <> 10) t t' 32 32 _ _ Ht Ht' ltac:(cbv beta; lia) ltac:(cbv beta; lia) E) as (-> & _ & E'). clear E.
  apply app_inv_head in E'.
  destruct (cut_unique Digit maj maj' 46 46 _ _ (proj1 (proj2 Hj)) (proj1 (proj2 Hj')) ltac:(unfold Digit; lia) ltac:(unfold Digit; lia) E')
    as (-> & _ & E). clear E'.
  destruct (eol_unique _ _ _ _ (digit_noeol _ (proj1 (proj2 Hn))) (digit_noeol _ (proj1 (proj2 Hn'))) E) as (-> & ->). clear E.
  destruct (field_lines_det _ _ _ Hf _ _ Hf') as [-> ->].
  rewrite (declares_det _ _ _ Hd Hd') in Hb.
  assert (B : b = b' /\ rest = rest').
  { destruct fr'; cbn [RequestBody] in *.
    - eapply chunked_det; eauto.
    - destruct Hb as [-> Hl]. destruct Hb' as [E Hl']. assert (EL : length b = length b') by lia.
      assert (b = b') by (apply (f_equal (firstn (length b))) in E; rewrite firstn_length_app, EL, firstn_length_app in E; exact E).
      subst b'. apply app_inv_head in E. auto.
    - destruct Hb, Hb'; subst; auto. }
  destruct B as [-> ->]. rewrite (dec_det _ _ _ Hj Hj'), (dec_det _ _ _ Hn Hn'). repeat split.
Qed.
Print Assumptions http1_request_unique.

Theorem http1_response_unique : forall s mj mn st re fs b rest mj' mn' st' re' fs' b' rest',
  ReadResponse s mj mn st re fs b rest -> ReadResponse s mj' mn' st' re' fs' b' rest' ->
  mj = mj' /\ mn = mn' /\ st = st' /\ re = re' /\ fs = fs' /\ b = b' /\ rest = rest'.
Proof.
  intros s mj mn st re fs b rest mj' mn' st' re' fs' b' rest'
    (maj & min & code & s1 & s2 & fr & E & Hj & Hn & Hc & Hr & Hf & Hd & Hb)
    (maj' & min' & code' & s1' & s2' & fr' & E' & Hj' & Hn' & Hc' & Hr' & Hf' & Hd' & Hb').
  rewrite E in E'. clear E. apply app_inv_head in E'.
  destruct (cut_unique Digit maj maj' 46 46 _ _ (proj1 (proj2 Hj)) (proj1 (proj2 Hj')) ltac:(unfold Digit; lia) ltac:(unfold Digit; lia) E')
    as (-> & _ & E). clear E'.
  destruct (cut_unique Digit min min' 32 32 _ _ (proj1 (proj2 Hn)) (proj1 (proj2 Hn')) ltac:(unfold Digit; lia) ltac:(unfold Digit; lia) E)
    as (-> & _ & E'). clear E.
  destruct (cut_unique Digit code code' 32 32 _ _ (proj1 (proj2 Hc)) (proj1 (proj2 Hc')) ltac:(unfold Digit; lia) ltac:(unfold Digit; lia) E')
    as (-> & _ & E). clear E'.
  destruct (eol_unique _ _ _ _ Hr Hr' E) as (-> & ->). clear E.
  destruct (field_lines_det _ _ _ Hf _ _ Hf') as [-> ->].
  rewrite (declares_det _ _ _ Hd Hd') in Hb. rewrite (dec_det _ _ _ Hj Hj'), (dec_det _ _ _ Hn Hn').
  pose proof (dec_det _ _ _ Hc Hc'). subst st'.
  assert (B : b = b' /\ rest = rest').
  { unfold ResponseBody in *. destruct Hb as [(K & -> & ->)|[K Hb]]; destruct Hb' as [(K' & -> & ->)|[K' Hb']]; try contradiction; auto.
    destruct fr'.
    - eapply chunked_det; eauto.
    - destruct Hb as [-> Hl]. destruct Hb' as [E Hl']. assert (EL : length b = length b') by lia.
      assert (b = b') by (apply (f_equal (firstn (length b))) in E; rewrite firstn_length_app, EL, firstn_length_app in E; exact E).
      subst b'. apply app_inv_head in E. auto.
    - destruct Hb, Hb'; subst; auto. }
  destruct B as [-> ->]. repeat split.
Qed.
Print Assumptions http1_response_unique.

(** ** Chunks *)
(** C86: any sequence of non-empty chunks followed by the empty chunk reads back as their concatenation. *)
Theorem http1_chunk_stream : forall chunks rest, Forall (fun c => c <> []) chunks ->
  ChunkedBody (concat chunks) (put_chunk (fold_left put_chunk chunks []) [] ++ rest) rest.
Proof.
  intros chunks rest H.
  assert (P : forall p d, put_chunk p d = p ++ put_chunk [] d).
  { intros p d. unfold put_chunk. destruct d; cbn [app]; now rewrite <- !app_assoc. }
  assert (F : forall l p, fold_left put_chunk l p = p ++ fold_left put_chunk l []).
  { induction l as [|c l IH]; intros p; cbn [fold_left]; [now rewrite app_nil_r|]. rewrite IH, (IH (put_chunk [] c)), (P p c). now rewrite app_assoc. }
  rewrite P, <- app_assoc. induction H as [|c l Hc H IH]; cbn [concat fold_left].
  - cbn [app]. change (put_chunk [] [] ++ rest) with ([48] ++ CRLF ++ CRLF ++ rest). constructor.
    split; [discriminate|]. exists [0]. split; [|reflexivity]. constructor; [apply (hex_dec 0); lia|constructor].
  - rewrite F, <- app_assoc. unfold put_chunk at 1. destruct c as [|x c]; [congruence|]. set (d := x :: c) in *. clearbody d.
    cbn [app]. rewrite <- !app_assoc. constructor; [auto|apply to_hex_spec|exact IH].
Qed.
Print Assumptions http1_chunk_stream.

Lemma put_chunk_app p d : put_chunk p d = p ++ put_chunk [] d.
Proof. unfold put_chunk. destruct d; cbn [app]; now rewrite <- !app_assoc. Qed.
Lemma chunk_body b rest : b <> [] -> ChunkedBody b (put_chunk [] b ++ put_chunk [] [] ++ rest) rest.
Proof.
  intros H. pose proof (http1_chunk_stream [b] rest ltac:(repeat constructor; auto)) as K. cbn [concat fold_left] in K.
  rewrite app_nil_r in K. rewrite put_chunk_app, <- app_assoc in K. exact K.
Qed.

(** ** Requests *)
Lemma ok_map_iff h : HeaderMap h -> (ok_map h <-> Forall SendableField (fields_of h)).
Proof.
  intros [H _]. induction H as [|[n vs] h (_ & Hne & _) H IH]; [split; constructor|]. rewrite fields_cons. cbn [fst snd] in *.
  rewrite Forall_app, <- IH. unfold ok_map at 1. rewrite Forall_cons_iff. fold (ok_map h). cbn [fst snd]. rewrite name_valid_iff.
  assert (G : Forall SendableField (map (fun v => (n, v)) vs) <-> (Token n /\ len n <= 1024) /\ Forall (fun v => header_value_is_valid v = true) vs).
  { clear -Hne. split.
    - intros K. rewrite Forall_map in K. split.
      + destruct vs as [|v vs]; [congruence|]. inversion K as [|? ? [K1 _] _]; subst. exact K1.
      + eapply Forall_impl; [|exact K]. intros v [_ Kv]. now apply value_valid_iff.
    - intros [K1 K2]. rewrite Forall_map. eapply Forall_impl; [|exact K2]. intros v Kv. split; [exact K1|]. now apply value_valid_iff. }
  rewrite G. tauto.
Qed.

(** the framing a header map declares, as the model computes it *)
Lemma framing_iff h r chunked cl : HeaderMap h -> SentAs (fields_of h) r ->
  transfer_encoding h = Some chunked -> declared_content_length h = Some cl -> (chunked = true -> cl = None) ->
  Declares r (if chunked then Chunked else match cl with Some n => Length n | None => Undeclared end).
Proof.
  intros Hm Hs Ht Hc Hx. apply (proj1 (cl_spec h r cl Hm Hs)) in Hc. destruct chunked.
  - rewrite (Hx eq_refl) in Hc. apply (proj1 (te_chunked h r Hm Hs)) in Ht as (H1 & tss & t & H2 & H3 & H4). econstructor; eauto.
  - apply (proj1 (te_absent h r Hm Hs)) in Ht. destruct cl as [n|].
    + destruct Hc as (H1 & H2 & H3). constructor; auto.
    + constructor; auto.
Qed.

Lemma values_snoc n r x v : values_of n (r ++ [(x, v)]) = values_of n r ++ (if beq (map lower x) (map lower n) then [v] else []).
Proof. rewrite values_app. unfold values_of at 2. cbn [filter fst]. destruct (beq _ _); reflexivity. Qed.
Lemma cl_line n : SendableField (str "content-length", dec n) -> seen (str "content-length", dec n) = (str "content-length", dec n).
Proof.
  intros _. unfold seen. cbn [fst snd]. f_equal. destruct (dec_spec n) as (Hne & Hd & _). clear -Hne Hd.
  apply trim_id.
  - intros c r E. rewrite E in Hd. inversion Hd; subst. now apply digit_no_ws.
  - intros c r E. rewrite E in Hd. apply Forall_app in Hd as [_ Hd]. inversion Hd; subst. now apply digit_no_ws.
Qed.
Lemma cl_trimmed n : Trimmed (dec n) (dec n).
Proof.
  exists [], []. rewrite app_nil_r. refine (conj eq_refl (conj _ (conj _ (conj _ _)))); try constructor;
    intros c r E; destruct (dec_spec n) as (_ & Hd & _); rewrite E in Hd; [|apply Forall_app in Hd as [_ Hd]]; inversion Hd; subst;
    unfold Digit, Ows in *; lia.
Qed.

Lemma field_line_cl n : FieldLine (str "content-length", dec n) (str "content-length: " ++ dec n).
Proof.
  split; cbn [fst snd].
  - apply (proj1 (name_valid_iff (str "content-length"))). reflexivity.
  - exists (32 :: dec n). split; [reflexivity|]. split.
    + constructor; [lia|]. apply digit_noeol. apply dec_spec.
    + destruct (cl_trimmed n) as (a & b & E & Ha & Hb & H1 & H2). exists (32 :: a), b. refine (conj _ (conj _ (conj Hb (conj H1 H2)))).
      * cbn [app]. now rewrite <- E.
      * constructor; [now left|auto].
Qed.
Lemma field_lines_snoc fs n : Forall ok_field fs -> forall rest,
  FieldLines (map seen fs ++ [(str "content-length", dec n)])
    (flat_map line_of fs ++ str "content-length: " ++ dec n ++ endl ++ endl ++ rest) rest.
Proof.
  induction 1 as [|f fs Hf H IH]; intros rest; cbn [map flat_map app].
  - change (str "content-length: " ++ dec n ++ endl ++ endl ++ rest) with (str "content-length: " ++ dec n ++ CRLF ++ endl ++ rest).
    rewrite (app_assoc (str "content-length: ")). constructor; [apply field_line_cl|apply fl_end].
  - unfold line_of at 1. rewrite <- !app_assoc. cbn [app].
    match goal with |- FieldLines _ ?s _ => replace s with ((fst f ++ [58; 32] ++ snd f) ++ CRLF ++
       (flat_map line_of fs ++ str "content-length: " ++ dec n ++ endl ++ endl ++ rest)) by (now rewrite <- !app_assoc) end.
    constructor; [now apply field_line|apply IH].
Qed.
Lemma declares_added r n : values_of (str "Transfer-Encoding") r = [] -> values_of (str "Content-Length") r = [] ->
  Declares (r ++ [(str "content-length", dec n)]) (Length n).
Proof.
  intros H1 H2. assert (V : values_of (str "Content-Length") (r ++ [(str "content-length", dec n)]) = [dec n]) by (rewrite values_snoc, H2; reflexivity).
  constructor.
  - now rewrite values_snoc, H1.
  - now rewrite V.
  - rewrite V. constructor; [apply dec_spec|constructor].
Qed.

Definition head_of (r : request) : list N :=
  rq_method r ++ [32] ++ (rq_path r ++ match rq_query r with [] => [] | q => 63 :: q end) ++ [32] ++
  str "HTTP/" ++ dec (rq_major r) ++ [46] ++ dec (rq_minor r) ++ endl.
Definition tail_of (chunked : bool) (cl : option N) (body : list N) : list N :=
  match body with
  | [] => endl
  | _ => if chunked then endl ++ put_chunk [] body ++ put_chunk [] []
         else match cl with None => str "content-length: " ++ dec (len body) ++ endl | Some _ => [] end ++ endl ++ body
  end.
Definition request_ok (r : request) (chunked : bool) (cl : option N) : Prop :=
  len (rq_path r) + len (rq_query r) <= 8192 /\ len (rq_body r) <= 104857600 /\
  transfer_encoding (rq_headers r) = Some chunked /\ declared_content_length (rq_headers r) = Some cl /\
  (chunked = true -> cl = None) /\ (chunked = false -> forall n, cl = Some n -> n = len (rq_body r)) /\
  ok_map (rq_headers r) /\
  64 + len (rq_path r) + (len (rq_query r) + 1) + section_size (rq_headers r) + 2 + len (rq_body r) <= 115343360.

Lemma put_request_ok p r chunked cl : request_ok r chunked cl ->
  put_request p r = (p ++ head_of r ++ flat_map line_of (fields_of (rq_headers r)) ++ tail_of chunked cl (rq_body r), true).
Proof.
  intros (H1 & H2 & H3 & H4 & H5 & H6 & H7 & H8). unfold put_request, MAX_URL_LENGTH, MAX_BODY_SIZE, MAX_SERIALIZED_SIZE.
  replace (8192 <? _) with false by lia. replace (104857600 <? _) with false by lia. rewrite H3, H4.
  replace (chunked && _) with false by (destruct chunked; [rewrite (H5 eq_refl)|]; reflexivity).
  replace (negb chunked && _) with false.
  2:{ destruct chunked; [reflexivity|]. destruct cl as [n|]; [|reflexivity]. rewrite (H6 eq_refl n eq_refl), N.eqb_refl. reflexivity. }
  rewrite (proj2 (headers_cost_spec _ _ _) (conj H7 eq_refl)). change (cost (rq_headers r)) with (section_size (rq_headers r)).
  replace (115343360 <? _) with false by lia. rewrite put_headers_ok by auto.
  set (F := flat_map line_of (fields_of (rq_headers r))). unfold head_of, tail_of. unfold len. destruct (rq_query r) as [|qc qr]; destruct (rq_body r) as [|bc br]; cbn [length].
  - change (N.of_nat 0 =? 0) with true. cbn [negb]. unfold sep, endl. rewrite app_nil_r. now rewrite <- !app_assoc.
  - change (N.of_nat 0 =? 0) with true. replace (N.of_nat (S (length br)) =? 0) with false by lia. cbn [negb]. rewrite app_nil_r. destruct chunked.
    + f_equal. rewrite (put_chunk_app (put_chunk _ _)), (put_chunk_app (_ ++ endl)). unfold sep, endl. now rewrite <- !app_assoc.
    + f_equal. unfold sep, endl. destruct cl; now rewrite <- !app_assoc.
  - change (N.of_nat 0 =? 0) with true. replace (N.of_nat (S (length qr)) =? 0) with false by lia. cbn [negb]. unfold sep, endl. now rewrite <- !app_assoc.
  - replace (N.of_nat (S (length br)) =? 0) with false by lia. replace (N.of_nat (S (length qr)) =? 0) with false by lia. cbn [negb]. destruct chunked.
    + f_equal. rewrite (put_chunk_app (put_chunk _ _)), (put_chunk_app (_ ++ endl)). unfold sep, endl. now rewrite <- !app_assoc.
    + f_equal. unfold sep, endl. destruct cl; now rewrite <- !app_assoc.
Qed.
Lemma put_request_inv p r : (exists chunked cl, request_ok r chunked cl) \/ put_request p r = ([], false).
Proof.
  unfold put_request, MAX_URL_LENGTH, MAX_BODY_SIZE, MAX_SERIALIZED_SIZE.
  destruct (N.ltb_spec 8192 (len (rq_path r) + len (rq_query r))); [now right|].
  destruct (N.ltb_spec 104857600 (len (rq_body r))); [now right|].
  destruct (transfer_encoding (rq_headers r)) as [chunked|] eqn:T; [|now right].
  destruct (declared_content_length (rq_headers r)) as [cl|] eqn:D; [|now right].
  destruct (chunked && _) eqn:E1; [now right|]. destruct (negb chunked && _) eqn:E2; [now right|].
  destruct (headers_cost _ _) as [e|] eqn:HC; [|now right].
  destruct (N.ltb_spec 115343360 (e + 2 + len (rq_body r))); [now right|].
  apply headers_cost_spec in HC as [HO ->]. left. exists chunked, cl. unfold request_ok.
  change (section_size (rq_headers r)) with (cost (rq_headers r)).
  refine (conj _ (conj _ (conj T (conj D (conj _ (conj _ (conj HO _))))))); try lia.
  - intros ->. destruct cl; [discriminate|reflexivity].
  - intros -> n ->. cbn [negb andb] in E2. apply negb_false_iff, N.eqb_eq in E2. exact E2.
Qed.

(** Start line of a request: a method token, a non-empty target without blanks or line ends. *)
Definition CleanStart (r : request) : Prop :=
  Token (rq_method r) /\ rq_path r <> [] /\ Forall (fun c => c <> 32 /\ c <> 13 /\ c <> 10) (rq_path r ++ rq_query r).

Lemma tail_lines fs (chunked : bool) (cl : option N) body rest : Forall ok_field fs -> exists s2,
  FieldLines (map seen fs ++ (if chunked then [] else match cl, body with None, _ :: _ => [(str "content-length", dec (len body))] | _, _ => [] end))
    (flat_map line_of fs ++ tail_of chunked cl body ++ rest) s2 /\
  s2 = (match body with [] => [] | _ => if chunked then put_chunk [] body ++ put_chunk [] [] else body end) ++ rest.
Proof.
  intros H. eexists. split; [|reflexivity]. unfold tail_of. destruct body as [|b body].
  - replace (if chunked then [] else match cl with Some _ | _ => [] end) with (@nil (list N * list N)) by (destruct chunked, cl; reflexivity).
    rewrite app_nil_r. now apply field_lines.
  - set (bd := b :: body). destruct chunked.
    + rewrite app_nil_r, <- !app_assoc. now apply field_lines.
    + destruct cl as [n|].
      * cbn [app]. rewrite app_nil_r, <- !app_assoc. now apply field_lines.
      * rewrite <- !app_assoc. now apply field_lines_snoc.
Qed.

(** C83: what is appended to the buffer for an accepted request is read back, whatever follows it on the
    connection, as exactly that request: method, target, version, the fields given (plus a content-length
    when the body was not declared) and the body.  Not for a chunked request with an empty body: see
    http1_empty_chunked_request_refuted. *)
Theorem http1_request_wire : forall buffer r out,
  HeaderMap (rq_headers r) -> CleanStart r -> put_request buffer r = (out, true) ->
  (rq_body r = [] -> values_of (str "Transfer-Encoding") (fields_of (rq_headers r)) = []) ->
  exists s fs extra,
    out = buffer ++ s /\ SentAs (fields_of (rq_headers r)) fs /\
    (extra = [] \/ exists n, extra = [(str "content-length", n)] /\ Decimal n (N.of_nat (length (rq_body r)))) /\
    forall rest, ReadRequest (s ++ rest) (rq_method r)
      (rq_path r ++ match rq_query r with [] => [] | q => 63 :: q end) (rq_major r) (rq_minor r)
      (fs ++ extra) (rq_body r) rest.
Proof.
  intros p r out Hm (Hmt & Hp & Ht) H Hx. destruct (put_request_inv p r) as [(chunked & cl & Hok)|E]; [|congruence].
  rewrite (put_request_ok p r chunked cl Hok) in H. apply (f_equal fst) in H. cbn [fst] in H. subst out.
  destruct Hok as (_ & _ & T & D & Hc & Hl & Ho & _).
  pose proof (ok_map_fields _ Ho) as Hf. set (fs := fields_of (rq_headers r)) in *.
  exists (head_of r ++ flat_map line_of fs ++ tail_of chunked cl (rq_body r)), (map seen fs),
    (if chunked then [] else match cl, rq_body r with None, _ :: _ => [(str "content-length", dec (len (rq_body r)))] | _, _ => [] end).
  pose proof (sent_seen fs) as Hs. refine (conj eq_refl (conj Hs (conj _ _))).
  { destruct chunked; [now left|]. destruct cl; [now left|]. destruct (rq_body r); [now left|]. right. eexists. split; [reflexivity|]. apply dec_spec. }
  intros rest. destruct (tail_lines fs chunked cl (rq_body r) rest Hf) as (s2 & FL & E2).
  exists (dec (rq_major r)), (dec (rq_minor r)), (flat_map line_of fs ++ tail_of chunked cl (rq_body r) ++ rest), s2,
    (if chunked then Chunked else match cl, rq_body r with None, _ :: _ => Length (len (rq_body r)) | Some n, _ => Length n | None, [] => Undeclared end).
  refine (conj _ (conj Hmt (conj _ (conj _ (conj (dec_spec _) (conj (dec_spec _) (conj FL (conj _ _)))))))).
  - unfold head_of. rewrite <- !app_assoc. reflexivity.
  - destruct (rq_path r); [congruence|discriminate].
  - apply Forall_app in Ht as [Ht1 Ht2]. apply Forall_app. split; [auto|]. destruct (rq_query r); [constructor|]. constructor; [lia|auto].
  - pose proof (framing_iff _ (map seen fs) chunked cl Hm Hs T D Hc) as FR. destruct chunked.
    + now rewrite app_nil_r.
    + destruct cl as [n|]; [now rewrite app_nil_r|]. destruct (rq_body r) as [|b bd]; [now rewrite app_nil_r|].
      apply declares_added; [exact (proj1 (te_absent _ _ Hm Hs) T)|exact (proj1 (cl_spec _ _ None Hm Hs) D)].
  - rewrite E2. destruct chunked.
    + cbn [RequestBody]. destruct (rq_body r) as [|b bd] eqn:Eb.
      * exfalso. pose proof (proj1 (te_chunked _ _ Hm Hs) T) as [K _]. apply K. specialize (Hx eq_refl).
        pose proof (values_sent (str "Transfer-Encoding") _ _ Hs) as V. rewrite Hx in V. now inversion V.
      * rewrite <- app_assoc. apply chunk_body. discriminate.
    + destruct cl as [n|].
      * cbn [RequestBody]. pose proof (Hl eq_refl n eq_refl) as ->. split; [|reflexivity]. destruct (rq_body r); reflexivity.
      * destruct (rq_body r); cbn [RequestBody]; (split; reflexivity).
Qed.
Print Assumptions http1_request_wire.

(** C84: the requests that are refused, exactly. *)
Theorem http1_request_accepts : forall buffer r, HeaderMap (rq_headers r) ->
  (snd (put_request buffer r) = true <->
   exists fs framing,
     SentAs (fields_of (rq_headers r)) fs /\ Forall SendableField (fields_of (rq_headers r)) /\
     Declares fs framing /\ (forall n, framing = Length n -> n = N.of_nat (length (rq_body r))) /\
     N.of_nat (length (rq_path r)) + N.of_nat (length (rq_query r)) <= 8192 /\
     N.of_nat (length (rq_body r)) <= 100 * 1024 * 1024 /\
     67 + N.of_nat (length (rq_path r)) + N.of_nat (length (rq_query r)) + section_size (rq_headers r) +
       N.of_nat (length (rq_body r)) <= 110 * 1024 * 1024).
Proof.
  intros p r Hm. split.
  - intros H. destruct (put_request_inv p r) as [(chunked & cl & Hok)|E]; [|rewrite E in H; discriminate].
    destruct Hok as (H1 & H2 & T & D & Hc & Hl & Ho & H3). exists (map seen (fields_of (rq_headers r))). eexists.
    pose proof (sent_seen (fields_of (rq_headers r))) as Hs.
    refine (conj Hs (conj _ (conj (framing_iff _ _ chunked cl Hm Hs T D Hc) (conj _ _)))).
    + now apply ok_map_iff.
    + intros n. destruct chunked; [discriminate|]. destruct cl as [m|]; [|discriminate]. intros K. injection K as ->. now apply Hl.
    + unfold len in *. lia.
  - intros (fs & fr & Hs & Hf & Hd & Hl & H1 & H2 & H3).
    assert (K : exists chunked cl, request_ok r chunked cl).
    { assert (Ho : ok_map (rq_headers r)) by now apply ok_map_iff.
      assert (B : N.of_nat (length (rq_body r)) < 2 ^ 64) by (change (2 ^ 64) with 18446744073709551616; lia).
      destruct Hd as [tss t T1 T2 T3 T4 T5|n T1 T2 T3|T1 T2].
      - exists true, None. unfold request_ok, len. refine (conj _ (conj _ (conj _ (conj _ (conj _ (conj _ (conj Ho _)))))));
          [lia|lia| | |reflexivity|discriminate|lia].
        + apply (te_chunked _ fs Hm Hs). split; [auto|]. eauto.
        + now apply (cl_spec _ fs None Hm Hs).
      - exists false, (Some n). unfold request_ok, len. refine (conj _ (conj _ (conj _ (conj _ (conj _ (conj _ (conj Ho _)))))));
          [lia|lia| | |discriminate| |lia].
        + now apply (te_absent _ fs Hm Hs).
        + apply (cl_spec _ fs (Some n) Hm Hs). rewrite (Hl n eq_refl) in *. auto.
        + intros _ m K. apply some_inj in K. subst m. now apply Hl.
      - exists false, None. unfold request_ok, len. refine (conj _ (conj _ (conj _ (conj _ (conj _ (conj _ (conj Ho _)))))));
          [lia|lia| | |discriminate|discriminate|lia].
        + now apply (te_absent _ fs Hm Hs).
        + now apply (cl_spec _ fs None Hm Hs). }
    destruct K as (chunked & cl & K). now rewrite (put_request_ok p r chunked cl K).
Qed.
Print Assumptions http1_request_accepts.

(** A refusal empties the buffer. *)
Theorem http1_request_refused : forall buffer r, snd (put_request buffer r) = false -> fst (put_request buffer r) = [].
Proof.
  intros p r H. destruct (put_request_inv p r) as [(chunked & cl & K)|E]; [|now rewrite E].
  rewrite (put_request_ok p r chunked cl K) in H. discriminate.
Qed.

(** ** Responses *)
Definition status_line (r : response) : list N :=
  str "HTTP/" ++ dec (rs_major r) ++ [46] ++ dec (rs_minor r) ++ [32] ++ dec (rs_status r) ++ [32] ++ rs_reason r ++ endl.
Definition rtail_of (status : N) (chunked : bool) (cl : option N) (body : list N) : list N :=
  match body with
  | [] => (if negb chunked && (match cl with Some _ => false | None => true end) && negb (response_must_not_carry_body status)
           then str "content-length: " ++ dec 0 ++ endl else []) ++ endl
  | _ => tail_of chunked cl body
  end.
Definition response_ok (r : response) (chunked : bool) (cl : option N) : Prop :=
  len (rs_body r) <= 104857600 /\
  (rs_body r <> [] -> response_must_not_carry_body (rs_status r) = false) /\
  transfer_encoding (rs_headers r) = Some chunked /\
  (chunked = true -> response_must_not_carry_body (rs_status r) = false) /\
  declared_content_length (rs_headers r) = Some cl /\
  (chunked = true -> cl = None) /\
  (response_forbids_nonzero_content_length (rs_status r) = true -> forall n, cl = Some n -> n = 0) /\
  (rs_body r <> [] -> chunked = false -> forall n, cl = Some n -> n = len (rs_body r)) /\
  ok_map (rs_headers r) /\
  32 + len (dec (rs_status r)) + 32 + section_size (rs_headers r) + 2 + len (rs_body r) <= 115343360.

Lemma len_nil (s : list N) : (len s =? 0) = true <-> s = [].
Proof. unfold len. destruct s; cbn [length]; split; try congruence; try lia. Qed.
Lemma put_response_ok p r chunked cl : response_ok r chunked cl ->
  put_response p r = (p ++ status_line r ++ flat_map line_of (fields_of (rs_headers r)) ++ rtail_of (rs_status r) chunked cl (rs_body r), true).
Proof.
  intros (H1 & H2 & H3 & H4 & H5 & H6 & H7 & H8 & H9 & H10). unfold put_response, MAX_BODY_SIZE, MAX_SERIALIZED_SIZE.
  replace (104857600 <? _) with false by lia.
  replace (negb (len (rs_body r) =? 0) && response_must_not_carry_body (rs_status r)) with false.
  2:{ destruct (len (rs_body r) =? 0) eqn:E; [reflexivity|]. cbn [negb andb]. symmetry. apply H2. intros K. apply len_nil in K. congruence. }
  rewrite H3, H5.
  replace (chunked && response_must_not_carry_body (rs_status r)) with false by (destruct chunked; [rewrite H4|]; reflexivity).
  replace (chunked && _) with false by (destruct chunked; [rewrite (H6 eq_refl)|]; reflexivity).
  replace (response_forbids_nonzero_content_length (rs_status r) && _) with false.
  2:{ destruct (response_forbids_nonzero_content_length _); [|reflexivity]. destruct cl as [n|]; [|reflexivity]. now rewrite (H7 eq_refl n eq_refl). }
  replace (negb (len (rs_body r) =? 0) && negb chunked && _) with false.
  2:{ destruct (len (rs_body r) =? 0) eqn:E; [reflexivity|]. destruct chunked; [reflexivity|]. destruct cl as [n|]; [|reflexivity].
      rewrite (H8 ltac:(intros K; apply len_nil in K; congruence) eq_refl n eq_refl), N.eqb_refl. reflexivity. }
  rewrite (proj2 (headers_cost_spec _ _ _) (conj H9 eq_refl)). change (cost (rs_headers r)) with (section_size (rs_headers r)).
  replace (115343360 <? _) with false by lia. rewrite put_headers_ok by auto.
  set (F := flat_map line_of (fields_of (rs_headers r))). unfold status_line, rtail_of. destruct (rs_body r) as [|bc br].
  - change (len [] =? 0) with true. cbn [negb]. change (str "content-length: 0") with (str "content-length: " ++ dec 0).
    f_equal. unfold sep, endl. destruct (negb chunked && _ && _); now rewrite <- !app_assoc.
  - replace (len (bc :: br) =? 0) with false by (unfold len; cbn [length]; lia). cbn [negb]. unfold tail_of. destruct chunked.
    + f_equal. rewrite (put_chunk_app (put_chunk _ _)), (put_chunk_app (_ ++ endl)). unfold sep, endl. now rewrite <- !app_assoc.
    + f_equal. unfold sep, endl. destruct cl; now rewrite <- !app_assoc.
Qed.
Lemma put_response_inv p r : (exists chunked cl, response_ok r chunked cl) \/ put_response p r = ([], false).
Proof.
  unfold put_response, MAX_BODY_SIZE, MAX_SERIALIZED_SIZE.
  destruct (N.ltb_spec 104857600 (len (rs_body r))); [now right|].
  destruct (negb (len (rs_body r) =? 0) && response_must_not_carry_body (rs_status r)) eqn:E0; [now right|].
  destruct (transfer_encoding (rs_headers r)) as [chunked|] eqn:T; [|now right].
  destruct (chunked && response_must_not_carry_body (rs_status r)) eqn:Ec; [now right|].
  destruct (declared_content_length (rs_headers r)) as [cl|] eqn:D; [|now right].
  destruct (chunked && match cl with Some _ => true | None => false end) eqn:E1; [now right|]. destruct (response_forbids_nonzero_content_length (rs_status r) && _) eqn:E2; [now right|].
  destruct (negb (len (rs_body r) =? 0) && negb chunked && _) eqn:E3; [now right|].
  destruct (headers_cost _ _) as [e|] eqn:HC; [|now right].
  destruct (N.ltb_spec 115343360 (e + 2 + len (rs_body r))); [now right|].
  apply headers_cost_spec in HC as [HO ->]. left. exists chunked, cl. unfold response_ok.
  change (section_size (rs_headers r)) with (cost (rs_headers r)).
  assert (NB : rs_body r <> [] -> (len (rs_body r) =? 0) = false).
  { intros K. destruct (len (rs_body r) =? 0) eqn:E; [apply len_nil in E; congruence|reflexivity]. }
  refine (conj _ (conj _ (conj T (conj _ (conj D (conj _ (conj _ (conj _ (conj HO _)))))))));
    [lia| | | | | |lia].
  - intros K. rewrite (NB K) in E0. exact E0.
  - intros ->. exact Ec.
  - intros ->. destruct cl; [discriminate|reflexivity].
  - intros K n ->. rewrite K in E2. cbn [andb] in E2. apply negb_false_iff, N.eqb_eq in E2. exact E2.
  - intros K -> n ->. rewrite (NB K) in E3. cbn [negb andb] in E3. apply negb_false_iff, N.eqb_eq in E3. exact E3.
Qed.
Lemma bodyless_iff s : response_must_not_carry_body s = true <-> Bodyless s.
Proof. unfold response_must_not_carry_body, Bodyless. lia. Qed.

Definition radded (status : N) (chunked : bool) (cl : option N) (body : list N) : list (list N * list N) :=
  if chunked then [] else match cl with
  | Some _ => []
  | None => match body with
            | [] => if response_must_not_carry_body status then [] else [(str "content-length", dec 0)]
            | _ => [(str "content-length", dec (len body))]
            end
  end.
Lemma rtail_lines fs status chunked cl body rest : Forall ok_field fs -> (body <> [] -> response_must_not_carry_body status = false) ->
  exists s2,
  FieldLines (map seen fs ++ radded status chunked cl body)
    (flat_map line_of fs ++ rtail_of status chunked cl body ++ rest) s2 /\
  s2 = (match body with [] => [] | _ => if chunked then put_chunk [] body ++ put_chunk [] [] else body end) ++ rest.
Proof.
  intros H Hb. destruct body as [|b body].
  - eexists. split; [|reflexivity]. unfold rtail_of, radded. destruct chunked; [rewrite app_nil_r; now apply field_lines|].
    destruct cl; [rewrite app_nil_r; now apply field_lines|]. cbn [negb andb]. destruct (response_must_not_carry_body status); cbn [negb].
    + rewrite app_nil_r. now apply field_lines.
    + rewrite <- !app_assoc. now apply field_lines_snoc.
  - destruct (tail_lines fs chunked cl (b :: body) rest H) as (s2 & H1 & H2). exists s2. split; [|exact H2].
    unfold radded, rtail_of. destruct chunked; [exact H1|]. destruct cl; exact H1.
Qed.

(** C85: the same for responses; a response sent without a body under a declared length (as for HEAD) is
    excluded, as is the empty chunked one: see the refutations. *)
Theorem http1_response_wire : forall buffer r out,
  HeaderMap (rs_headers r) -> NoEol (rs_reason r) -> put_response buffer r = (out, true) ->
  (rs_body r = [] -> ~ Bodyless (rs_status r) ->
     values_of (str "Transfer-Encoding") (fields_of (rs_headers r)) = [] /\
     forall v t n, In v (values_of (str "Content-Length") (fields_of (rs_headers r))) -> Trimmed v t -> Decimal t n -> n = 0) ->
  exists s fs extra,
    out = buffer ++ s /\ SentAs (fields_of (rs_headers r)) fs /\
    (extra = [] \/ exists n, extra = [(str "content-length", n)] /\ Decimal n (N.of_nat (length (rs_body r)))) /\
    forall rest, ReadResponse (s ++ rest) (rs_major r) (rs_minor r) (rs_status r) (rs_reason r)
      (fs ++ extra) (rs_body r) rest.
Proof.
  intros p r out Hm Hre H Hx. destruct (put_response_inv p r) as [(chunked & cl & Hok)|E]; [|congruence].
  rewrite (put_response_ok p r chunked cl Hok) in H. apply (f_equal fst) in H. cbn [fst] in H. subst out.
  destruct Hok as (_ & Hnb & T & Hcb & D & Hc & Hz & Hl & Ho & _).
  pose proof (ok_map_fields _ Ho) as Hf. set (fs := fields_of (rs_headers r)) in *.
  exists (status_line r ++ flat_map line_of fs ++ rtail_of (rs_status r) chunked cl (rs_body r)), (map seen fs),
    (radded (rs_status r) chunked cl (rs_body r)).
  pose proof (sent_seen fs) as Hs. refine (conj eq_refl (conj Hs (conj _ _))).
  { unfold radded. destruct chunked; [now left|]. destruct cl; [now left|]. destruct (rs_body r).
    - destruct (response_must_not_carry_body _); [now left|]. right. eexists. split; [reflexivity|]. apply dec_spec.
    - right. eexists. split; [reflexivity|]. apply dec_spec. }
  intros rest. destruct (rtail_lines fs (rs_status r) chunked cl (rs_body r) rest Hf Hnb) as (s2 & FL & E2).
  exists (dec (rs_major r)), (dec (rs_minor r)), (dec (rs_status r)), (flat_map line_of fs ++ rtail_of (rs_status r) chunked cl (rs_body r) ++ rest), s2,
    (if chunked then Chunked else match cl with
       | None => if response_must_not_carry_body (rs_status r) then Undeclared else Length (len (rs_body r)) | Some n => Length n end).
  refine (conj _ (conj (dec_spec _) (conj (dec_spec _) (conj (dec_spec _) (conj Hre (conj FL (conj _ _))))))).
  - unfold status_line. rewrite <- !app_assoc. reflexivity.
  - pose proof (framing_iff _ (map seen fs) chunked cl Hm Hs T D Hc) as FR. unfold radded. destruct chunked.
    + now rewrite app_nil_r.
    + destruct cl as [n|]; [now rewrite app_nil_r|]. destruct (rs_body r) as [|b bd] eqn:Eb.
      * destruct (response_must_not_carry_body (rs_status r)); [now rewrite app_nil_r|]. change (len []) with 0.
        apply declares_added; [exact (proj1 (te_absent _ _ Hm Hs) T)|exact (proj1 (cl_spec _ _ None Hm Hs) D)].
      * rewrite Hnb by discriminate. apply declares_added; [exact (proj1 (te_absent _ _ Hm Hs) T)|exact (proj1 (cl_spec _ _ None Hm Hs) D)].
  - rewrite E2. unfold ResponseBody. destruct (response_must_not_carry_body (rs_status r)) eqn:Eb.
    + left. split; [now apply bodyless_iff|]. destruct (rs_body r) as [|b bd]; [split; reflexivity|]. specialize (Hnb ltac:(discriminate)). discriminate.
    + assert (NB : ~ Bodyless (rs_status r)) by (intros K; apply bodyless_iff in K; congruence). right. split; [exact NB|]. destruct chunked.
      * destruct (rs_body r) as [|b bd] eqn:Ebd.
        -- exfalso. pose proof (proj1 (te_chunked _ _ Hm Hs) T) as [K _]. apply K. destruct (Hx eq_refl NB) as [Hx1 _].
           pose proof (values_sent (str "Transfer-Encoding") _ _ Hs) as V. fold fs in Hx1. rewrite Hx1 in V. now inversion V.
        -- rewrite <- app_assoc. apply chunk_body. discriminate.
      * destruct cl as [n|].
        -- destruct (rs_body r) as [|b bd] eqn:Ebd.
           ++ split; [reflexivity|]. destruct (Hx eq_refl NB) as [_ Hx2].
              pose proof (proj1 (cl_spec _ _ (Some n) Hm Hs) D) as (K1 & K2 & K3).
              pose proof (values_sent (str "Content-Length") _ _ Hs) as V. fold fs in Hx2.
              destruct V as [|x y l l' Hxy V]; [congruence|]. inversion K3; subst.
              cbn [length]. symmetry. eapply (Hx2 x); [now left|exact Hxy|assumption].
           ++ split; [reflexivity|]. symmetry. apply (Hl ltac:(discriminate) eq_refl n eq_refl).
        -- destruct (rs_body r); (split; reflexivity).
Qed.
Print Assumptions http1_response_wire.

Lemma status_digits n : 100 <= n <= 999 -> len (dec n) = 3.
Proof.
  intros H. assert (E : forallb (fun k => len (dec (N.of_nat k)) =? 3) (seq 100 900) = true) by (vm_compute; reflexivity).
  rewrite forallb_forall in E. specialize (E (N.to_nat n)). rewrite N2Nat.id in E. apply N.eqb_eq. apply E. apply in_seq. lia.
Qed.

(** C84: the responses that are refused, exactly. *)
Theorem http1_response_accepts : forall buffer r, HeaderMap (rs_headers r) -> 100 <= rs_status r <= 999 ->
  (snd (put_response buffer r) = true <->
   exists fs framing,
     SentAs (fields_of (rs_headers r)) fs /\ Forall SendableField (fields_of (rs_headers r)) /\
     Declares fs framing /\
     (Bodyless (rs_status r) -> rs_body r = [] /\ framing <> Chunked) /\
     (forall n, framing = Length n ->
        n < 2 ^ 64 /\ (rs_status r < 200 \/ rs_status r = 204 -> n = 0) /\
        (rs_body r <> [] -> n = N.of_nat (length (rs_body r)))) /\
     N.of_nat (length (rs_body r)) <= 100 * 1024 * 1024 /\
     69 + section_size (rs_headers r) + N.of_nat (length (rs_body r)) <= 110 * 1024 * 1024).
Proof.
  intros p r Hm Hst. pose proof (status_digits _ Hst) as HD. split.
  - intros H. destruct (put_response_inv p r) as [(chunked & cl & Hok)|E]; [|rewrite E in H; discriminate].
    destruct Hok as (H1 & Hnb & T & Hcb & D & Hc & Hz & Hl & Ho & H3). exists (map seen (fields_of (rs_headers r))). eexists.
    pose proof (sent_seen (fields_of (rs_headers r))) as Hs.
    refine (conj Hs (conj _ (conj (framing_iff _ _ chunked cl Hm Hs T D Hc) (conj _ (conj _ _))))).
    + now apply ok_map_iff.
    + intros K. apply bodyless_iff in K. split.
      * destruct (rs_body r); [reflexivity|]. specialize (Hnb ltac:(discriminate)). congruence.
      * destruct chunked; [specialize (Hcb eq_refl); congruence|]. destruct cl; discriminate.
    + intros n. destruct chunked; [discriminate|]. destruct cl as [m|]; [|discriminate]. intros K. injection K as ->.
      refine (conj _ (conj _ _)).
      * apply (proj1 (cl_spec _ _ (Some n) Hm Hs)) in D. tauto.
      * intros K. apply (Hz ltac:(unfold response_forbids_nonzero_content_length; lia) n eq_refl).
      * intros K. apply (Hl K eq_refl n eq_refl).
    + unfold len in *. lia.
  - intros (fs & fr & Hs & Hf & Hd & Hb & Hl & H1 & H2).
    assert (K : exists chunked cl, response_ok r chunked cl).
    { assert (Ho : ok_map (rs_headers r)) by now apply ok_map_iff.
      assert (NB : rs_body r <> [] -> response_must_not_carry_body (rs_status r) = false).
      { intros K. destruct (response_must_not_carry_body _) eqn:E; [|reflexivity]. apply bodyless_iff in E. apply Hb in E as [E _]. congruence. }
      destruct Hd as [tss t T1 T2 T3 T4 T5|n T1 T2 T3|T1 T2].
      - exists true, None. unfold response_ok. rewrite HD. unfold len.
        refine (conj _ (conj NB (conj _ (conj _ (conj _ (conj _ (conj _ (conj _ (conj Ho _)))))))));
          [lia| | | |reflexivity|discriminate|discriminate|lia].
        + apply (te_chunked _ fs Hm Hs). split; [auto|]. eauto.
        + intros _. destruct (response_must_not_carry_body _) eqn:E; [|reflexivity]. apply bodyless_iff in E. apply Hb in E as [_ E]. congruence.
        + now apply (cl_spec _ fs None Hm Hs).
      - destruct (Hl n eq_refl) as (L1 & L2 & L3). exists false, (Some n). unfold response_ok. rewrite HD. unfold len.
        refine (conj _ (conj NB (conj _ (conj _ (conj _ (conj _ (conj _ (conj _ (conj Ho _)))))))));
          [lia| |discriminate| |discriminate| | |lia].
        + now apply (te_absent _ fs Hm Hs).
        + apply (cl_spec _ fs (Some n) Hm Hs). auto.
        + intros K m Em. apply some_inj in Em. subst m. apply L2. unfold response_forbids_nonzero_content_length in K. lia.
        + intros K _ m Em. apply some_inj in Em. subst m. now apply L3.
      - exists false, None. unfold response_ok. rewrite HD. unfold len.
        refine (conj _ (conj NB (conj _ (conj _ (conj _ (conj _ (conj _ (conj _ (conj Ho _)))))))));
          [lia| |discriminate| |discriminate|discriminate|discriminate|lia].
        + now apply (te_absent _ fs Hm Hs).
        + now apply (cl_spec _ fs None Hm Hs). }
    destruct K as (chunked & cl & K). now rewrite (put_response_ok p r chunked cl K).
Qed.
Print Assumptions http1_response_accepts.

(** ** Limits *)
(** The body part of any reading of a stream whose head is known. *)
Lemma read_request_body m t maj min mj mn s1 s2 fs fr m' t' mj' mn' fs' b' rest' :
  Token m -> Forall (fun c => c <> 32 /\ c <> 13 /\ c <> 10) t -> Decimal maj mj -> Decimal min mn ->
  FieldLines fs s1 s2 -> Declares fs fr ->
  ReadRequest (m ++ [32] ++ t ++ [32] ++ str "HTTP/" ++ maj ++ [46] ++ min ++ CRLF ++ s1) m' t' mj' mn' fs' b' rest' ->
  RequestBody fr b' s2 rest'.
Proof.
  intros Hm Ht Hj Hn Hf Hd (maj' & min' & s1' & s2' & fr' & E' & Hm' & _ & Ht' & Hj' & Hn' & Hf' & Hd' & Hb').
  destruct (cut_unique TokenChar m m' 32 32 _ _ (proj2 Hm) (proj2 Hm')
              ltac:(intros K; apply token_range in K; lia) ltac:(intros K; apply token_range in K; lia) E') as (-> & _ & E).
  clear E'. destruct (cut_unique (fun c => c <> 32 /\ c <> 13 /\ c <> 10) t t' 32 32 _ _ Ht Ht' ltac:(cbv beta; lia) ltac:(cbv beta; lia) E) as (-> & _ & E'). clear E.
  apply app_inv_head in E'.
  destruct (cut_unique Digit maj maj' 46 46 _ _ (proj1 (proj2 Hj)) (proj1 (proj2 Hj')) ltac:(unfold Digit; lia) ltac:(unfold Digit; lia) E')
    as (-> & _ & E). clear E'.
  destruct (eol_unique _ _ _ _ (digit_noeol _ (proj1 (proj2 Hn))) (digit_noeol _ (proj1 (proj2 Hn'))) E) as (-> & ->). clear E.
  destruct (field_lines_det _ _ _ Hf _ _ Hf') as [-> ->].
  now rewrite (declares_det _ _ _ Hd Hd').
Qed.
Lemma chunked_first b s rest : ChunkedBody b s rest -> exists c v r, s = c :: r /\ HexVal c v.
Proof.
  assert (G : forall size n, Hexadecimal size n -> exists c v r, size = c :: r /\ HexVal c v).
  { intros size n (Hne & vs & F & _). destruct F as [|c v l l' Hc F]; [congruence|]. eauto. }
  intros [size r H|size data more s' r Hd H Hb]; destruct (G _ _ H) as (c & v & q & -> & Hc); cbn [app]; eauto.
Qed.

Definition empty_chunked : request :=
  mkReq (str "POST") (str "/upload") [] 1 1 [(str "transfer-encoding", [str "chunked"])] [].
(** A chunked request with an empty body is accepted, but the last chunk is missing: the message has no end,
    and a following request is taken for chunk data (here: refused). *)
Theorem http1_empty_chunked_request_refuted : exists r s,
  HeaderMap (rq_headers r) /\ CleanStart r /\ put_request [] r = (s, true) /\
  (forall m t mj mn fs b rest, ~ ReadRequest s m t mj mn fs b rest) /\
  (forall m t mj mn fs b rest, ~ ReadRequest (s ++ s) m t mj mn fs b rest).
Proof.
  exists empty_chunked, (str "POST /upload HTTP/1.1" ++ CRLF ++ str "transfer-encoding: chunked" ++ CRLF ++ CRLF).
  assert (HM : HeaderMap (rq_headers empty_chunked)).
  { split; [repeat constructor; discriminate|]. constructor; [intros []|constructor]. }
  assert (TK : Token (str "POST")) by (apply (proj1 (name_valid_iff _)); reflexivity).
  assert (TG : Forall (fun c => c <> 32 /\ c <> 13 /\ c <> 10) (str "/upload")) by (repeat constructor; discriminate).
  assert (FL : forall rest, FieldLines [(str "transfer-encoding", str "chunked")] (str "transfer-encoding: chunked" ++ CRLF ++ CRLF ++ rest) rest).
  { intros rest. constructor; [|constructor]. apply (field_line (str "transfer-encoding", str "chunked")).
    split; [apply (proj1 (name_valid_iff _)); reflexivity|apply (proj1 (value_valid_iff _)); reflexivity]. }
  assert (DC : Declares [(str "transfer-encoding", str "chunked")] Chunked).
  { eapply (d_chunked _ [[str "chunked"]] (str "chunked")); try reflexivity; [discriminate|]. constructor; [|constructor].
    apply items_iff. reflexivity. }
  assert (D1 : Decimal (str "1") 1) by (split; [discriminate|]; split; [repeat constructor; discriminate|reflexivity]).
  refine (conj HM (conj (conj TK (conj _ TG)) (conj _ (conj _ _)))); [discriminate|vm_compute; reflexivity| |].
  - intros m t mj mn fs b rest R.
    pose proof (read_request_body (str "POST") (str "/upload") (str "1") (str "1") 1 1 _ [] _ Chunked m t mj mn fs b rest
                  TK TG D1 D1 (FL []) DC R) as K. cbn [RequestBody] in K.
    apply chunked_first in K as (c & v & q & E & _). discriminate.
  - intros m t mj mn fs b rest R. set (s := str "POST /upload HTTP/1.1" ++ CRLF ++ str "transfer-encoding: chunked" ++ CRLF ++ CRLF) in R.
    unfold s in R at 1. rewrite <- !app_assoc in R.
    pose proof (read_request_body (str "POST") (str "/upload") (str "1") (str "1") 1 1 _ s _ Chunked m t mj mn fs b rest
                  TK TG D1 D1 (FL s) DC R) as K. cbn [RequestBody] in K.
    apply chunked_first in K as (c & v & q & E & Hc). assert (c = 80) by (vm_compute in E; injection E as <- _; reflexivity). subst c.
    inversion Hc; lia.
Qed.
Print Assumptions http1_empty_chunked_request_refuted.

(** Refusing one message discards the octets of messages queued before it. *)
Theorem http1_refusal_loses_queue_refuted : exists buffer r, buffer <> [] /\ put_request buffer r = ([], false).
Proof. exists (str "HTTP/1.1 200 OK"), (mkReq (str "GET") (str "/") [] 1 1 [(str "bad name", [str "x"])] []). split; [discriminate|reflexivity]. Qed.

(** The request target is not examined: line ends in it become header lines. *)
Definition injected : request :=
  mkReq (str "GET") (str "/ HTTP/1.1" ++ CRLF ++ str "X-Injected: 1" ++ CRLF ++ str "Y:") [] 1 1 [] [].
Theorem http1_target_injection_refuted : exists r s, rq_headers r = [] /\ put_request [] r = (s, true) /\
  ReadRequest s (str "GET") (str "/") 1 1 [(str "X-Injected", str "1"); (str "Y", str "HTTP/1.1")] [] [].
Proof.
  exists injected. eexists. refine (conj eq_refl (conj _ _)); [vm_compute; reflexivity|].
  exists (str "1"), (str "1"), (str "X-Injected: 1" ++ CRLF ++ str "Y: HTTP/1.1" ++ CRLF ++ CRLF), [], Undeclared.
  assert (D1 : Decimal (str "1") 1) by (split; [discriminate|]; split; [repeat constructor; discriminate|reflexivity]).
  refine (conj _ (conj _ (conj _ (conj _ (conj D1 (conj D1 (conj _ (conj _ _)))))))).
  - vm_compute. reflexivity.
  - apply (proj1 (name_valid_iff _)). reflexivity.
  - discriminate.
  - repeat constructor; discriminate.
  - constructor; [|change (str "Y: HTTP/1.1" ++ CRLF ++ CRLF) with (str "Y: HTTP/1.1" ++ CRLF ++ CRLF ++ []); constructor; [|constructor]].
    + apply (field_line (str "X-Injected", str "1")).
      split; [apply (proj1 (name_valid_iff _)); reflexivity|apply (proj1 (value_valid_iff _)); reflexivity].
    + apply (field_line (str "Y", str "HTTP/1.1")).
      split; [apply (proj1 (name_valid_iff _)); reflexivity|apply (proj1 (value_valid_iff _)); reflexivity].
  - constructor; reflexivity.
  - split; reflexivity.
Qed.
Print Assumptions http1_target_injection_refuted.

(** A response whose declared length is not zero is sent although its body is empty: the reader takes the
    beginning of the next response for the missing body. *)
Definition promised : response := mkRes 200 (str "OK") 1 1 [(str "content-length", [str "5"])] [].
Theorem http1_missing_body_refuted : exists r s, HeaderMap (rs_headers r) /\ rs_body r = [] /\ put_response [] r = (s, true) /\
  ReadResponse (s ++ s) 1 1 200 (str "OK") [(str "content-length", str "5")] (str "HTTP/") (skipn 5 s).
Proof.
  exists promised, (str "HTTP/1.1 200 OK" ++ CRLF ++ str "content-length: 5" ++ CRLF ++ CRLF).
  refine (conj _ (conj eq_refl (conj _ _))).
  - split; [repeat constructor; discriminate|]. constructor; [intros []|constructor].
  - vm_compute. reflexivity.
  - exists (str "1"), (str "1"), (str "200"). do 3 eexists.
    assert (D1 : Decimal (str "1") 1) by (split; [discriminate|]; split; [repeat constructor; discriminate|reflexivity]).
    refine (conj _ (conj D1 (conj D1 (conj _ (conj _ (conj _ (conj _ _))))))).
    + rewrite <- !app_assoc. change (str "HTTP/1.1 200 OK") with (str "HTTP/" ++ str "1" ++ [46] ++ str "1" ++ [32] ++ str "200" ++ [32] ++ str "OK").
      rewrite <- !app_assoc. reflexivity.
    + split; [discriminate|]. split; [repeat constructor; discriminate|reflexivity].
    + repeat constructor; discriminate.
    + constructor; [|constructor]. apply (field_line (str "content-length", str "5")).
      split; [apply (proj1 (name_valid_iff _)); reflexivity|apply (proj1 (value_valid_iff _)); reflexivity].
    + apply (d_length _ 5); [reflexivity|discriminate|]. constructor; [|constructor].
      split; [discriminate|]. split; [repeat constructor; discriminate|reflexivity].
    + right. split; [unfold Bodyless; lia|]. split; reflexivity.
Qed.
Print Assumptions http1_missing_body_refuted.

(** ** The hypotheses are met *)
Definition sample : request :=
  mkReq (str "POST") (str "/a/b") (str "x=1&y=2") 1 1
    [(str "Host", [str "example.org"]); (str "X-Tag", [str " one "; str "two"])] (str "hello").
Example http1_request_ex :
  HeaderMap (rq_headers sample) /\ CleanStart sample /\
  put_request (str "queued") sample =
    (str "queued" ++ str "POST /a/b?x=1&y=2 HTTP/1.1" ++ CRLF ++ str "Host: example.org" ++ CRLF ++ str "X-Tag:  one " ++ CRLF ++
     str "X-Tag: two" ++ CRLF ++ str "content-length: 5" ++ CRLF ++ CRLF ++ str "hello", true).
Proof.
  split; [|split].
  - split; [repeat constructor; discriminate|]. repeat constructor; vm_compute; intuition discriminate.
  - split; [apply (proj1 (name_valid_iff _)); reflexivity|]. split; [discriminate|]. repeat constructor; discriminate.
  - vm_compute. reflexivity.
Qed.
Example http1_request_chunked_ex :
  fst (put_request [] (mkReq (str "POST") (str "/") [] 1 1 [(str "Transfer-Encoding", [str " , chunked"])] (str "0123456789abcdefX"))) =
    str "POST / HTTP/1.1" ++ CRLF ++ str "Transfer-Encoding:  , chunked" ++ CRLF ++ CRLF ++ str "11" ++ CRLF ++ str "0123456789abcdefX" ++ CRLF ++
    str "0" ++ CRLF ++ CRLF.
Proof. vm_compute. reflexivity. Qed.
Example http1_response_ex :
  put_response [] (mkRes 204 (str "No Content") 1 1 [] []) = (str "HTTP/1.1 204 No Content" ++ CRLF ++ CRLF, true) /\
  put_response [] (mkRes 404 (str "Not Found") 1 1 [] []) = (str "HTTP/1.1 404 Not Found" ++ CRLF ++ str "content-length: 0" ++ CRLF ++ CRLF, true) /\
  put_response [] (mkRes 304 (str "Not Modified") 1 1 [] (str "x")) = ([], false) /\
  put_response [] (mkRes 200 (str "OK") 1 1 [(str "Content-Length", [str "5"; str " 5"])] (str "hello")) =
    (str "HTTP/1.1 200 OK" ++ CRLF ++ str "Content-Length: 5" ++ CRLF ++ str "Content-Length:  5" ++ CRLF ++ CRLF ++ str "hello", true).
Proof. vm_compute. repeat split. Qed.
