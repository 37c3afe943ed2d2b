(** Property C90: how a stream is cut into messages, and what each message contains. *)
From Verif Require Import Base UtilModel UtilSpec UtilProofs StaticModel DateModel CookieSpec H2FieldSpec Http1Model Http1Spec Http1Proofs
  RecvModel RecvSpec RecvProofs RecvInv RecvProps.
From Coq Require Import ZifyBool ZifyN.
Local Open Scope N_scope.

Section Frame.
Variable M : machine.
Variable req : bool.
Notation seq_all := (seq_all M req).
Notation seq_loop := (seq_loop M req).

(** ** The header part of the parser *)
Notation hstate := (headers_map * list N * list N * token * N)%type.
Definition hof (p : parser M) : hstate := (m_headers (p_msg p), p_key p, p_val p, p_token p, p_pairs p).
Definition settled (s : hstate) : headers_map :=
  let '(h, k, v, t, n) := s in match t, k with TValue, _ :: _ => add_value k v h | _, _ => h end.
Definition hstep (s : hstate) (d : dat) : option hstate :=
  let '(h, k, v, t, n) := s in
  match d with
  | DField x =>
      if match t, k with TValue, _ :: _ => 8192 <? len v | _, _ => false end then None
      else
        let v' := match t, k with TValue, _ :: _ => [] | _, _ => v end in
        match t with
        | TField => if 1024 <? len (k ++ x) then None else Some (h, k ++ x, v, TField, n)
        | _ => if (100 <? n + 1) || (1024 <? len x) then None else Some (settled s, x, v', TField, n + 1)
        end
  | DValue x =>
      let v := (match t with TValue => v | _ => [] end) ++ x in
      if 8192 <? len v then None else Some (h, k, v, TValue, n)
  | _ => Some s
  end.
Fixpoint hfold (s : hstate) (ds : list dat) : option hstate :=
  match ds with [] => Some s | d :: r => match hstep s d with Some s' => hfold s' r | None => None end end.

Lemma hstep_callback : forall p d s, (match d with DField _ => True | DValue _ => True | _ => False end) ->
  hstep (hof p) d = Some s ->
  exists q, callback M req p d = Some q /\ hof q = s /\ p_l q = p_l p /\ p_url q = p_url p /\ p_urln q = p_urln p /\
    m_url (p_msg q) = m_url (p_msg p) /\ p_chunked q = p_chunked p /\ p_body q = p_body p /\ m_meta (p_msg q) = m_meta (p_msg p) /\
    m_ct (p_msg q) = m_ct (p_msg p) /\ m_body (p_msg q) = m_body (p_msg p).
Proof.
  intros p d s HD. destruct p as [pl pr pm pk pv pu pt pd pc pp pb pn pln pe].
  destruct d as [x|x|x|x|]; try contradiction; unfold hof;
    cbn [hstep callback p_l p_run p_msg p_key p_val p_url p_token p_done p_chunked p_pairs p_body p_urln p_length p_needs_eof].
  - unfold on_header_field, commit, settled, MAX_HEADER_VALUE_LENGTH, MAX_HEADERS_COUNT, MAX_HEADER_NAME_LENGTH.
    cbn [p_l p_run p_msg p_key p_val p_url p_token p_done p_chunked p_pairs p_body p_urln p_length p_needs_eof].
    destruct pt.
    + cbn [p_l p_run p_msg p_key p_val p_url p_token p_done p_chunked p_pairs p_body p_urln p_length p_needs_eof app].
      destruct (100 <? pp + 1); [discriminate|]. cbn [orb app]. destruct (1024 <? len x); [discriminate|]. intros H. injection H as <-.
      eexists. split; [reflexivity|]. cbn. auto 12.
    + cbn [p_l p_run p_msg p_key p_val p_url p_token p_done p_chunked p_pairs p_body p_urln p_length p_needs_eof].
      destruct (1024 <? len (pk ++ x)); [discriminate|]. intros H. injection H as <-.
      eexists. split; [reflexivity|]. cbn. auto 12.
    + destruct pk as [|k0 pk].
      * cbn [p_l p_run p_msg p_key p_val p_url p_token p_done p_chunked p_pairs p_body p_urln p_length p_needs_eof app].
        destruct (100 <? pp + 1); [discriminate|]. cbn [orb app]. destruct (1024 <? len x); [discriminate|]. intros H. injection H as <-.
        eexists. split; [reflexivity|]. cbn. auto 12.
      * destruct (8192 <? len pv); [discriminate|].
        cbn [p_l p_run p_msg p_key p_val p_url p_token p_done p_chunked p_pairs p_body p_urln p_length p_needs_eof app].
        destruct (100 <? pp + 1); [discriminate|]. cbn [orb app]. destruct (1024 <? len x); [discriminate|]. intros H. injection H as <-.
        eexists. split; [reflexivity|]. cbn. auto 12.
  - unfold on_header_value, MAX_HEADER_VALUE_LENGTH.
    cbn [p_l p_run p_msg p_key p_val p_url p_token p_done p_chunked p_pairs p_body p_urln p_length p_needs_eof].
    match goal with |- context [8192 <? ?y] => destruct (8192 <? y); [discriminate|] end. intros H. injection H as <-.
    eexists. split; [reflexivity|]. cbn. auto 12.
Qed.

(** all callbacks succeed when the limits are respected *)
Lemma seq_ok : forall ds p s', p_urln p = len (p_url p) -> (req = true -> m_url (p_msg p) = p_url p) ->
  len (p_url p) + len (urls ds) <= 8192 ->
  p_body p + len (body_of ds) <= 104857600 -> Forall (fun d => match d with DBody x => len x <= 16777216 | _ => True end) ds ->
  hfold (hof p) (about_fields ds) = Some s' ->
  exists q, seq_all p ds = Some q /\ hof q = s' /\ p_l q = p_l p /\
    p_urln q = len (p_url q) /\ (req = true -> m_url (p_msg q) = p_url q /\ p_url q = p_url p ++ urls ds) /\
    (req = false -> p_url q = p_url p) /\
    p_chunked q = p_chunked p ++ body_of ds /\ p_body q = p_body p + len (body_of ds) /\ m_meta (p_msg q) = m_meta (p_msg p) /\
    m_ct (p_msg q) = m_ct (p_msg p) /\ m_body (p_msg q) = m_body (p_msg p).
Proof.
  induction ds as [|d r IH]; intros p s' HU HM HL HBd HF HH.
  - cbn [about_fields filter hfold] in HH. injection HH as <-. exists p. cbn [RecvProofs.seq_all urls body_of flat_map].
    rewrite !app_nil_r, len_nil, N.add_0_r. auto 20.
  - inversion HF as [|? ? HF1 HF2]; subst.
    destruct d as [x|x|x|x|]; cbn [RecvProofs.seq_all about_fields filter urls body_of flat_map app] in *.
    + unfold callback, on_url. destruct req eqn:EQ.
      * rewrite len_app in HL. unfold MAX_URL_LENGTH. rewrite HU.
        replace (8192 <? len (p_url p) + len x) with false by lia.
        assert (HBUF : (if len (p_url p) =? 0 then [] else p_url p) ++ x = p_url p ++ x).
        { destruct (p_url p); [reflexivity|]. rewrite len_cons. replace (1 + len l =? 0) with false by lia. reflexivity. }
        rewrite HBUF.
        edestruct IH as (q & Q1 & Q2 & Q3 & Q4 & Q5 & Q6 & Q7 & Q8 & Q9 & Q10 & Q11); [| | | | | |
          exists q; split; [exact Q1|]].
        -- cbn [p_urln p_url]. rewrite len_app. reflexivity.
        -- intros _. reflexivity.
        -- cbn [p_url]. rewrite len_app. fold (urls r) in *. lia.
        -- cbn [p_body]. exact HBd.
        -- exact HF2.
        -- exact HH.
        -- cbn [p_l p_url p_chunked p_body p_msg m_meta m_ct m_body m_url] in *.
           refine (conj Q2 (conj Q3 (conj Q4 (conj _ (conj _ (conj Q7 (conj Q8 (conj Q9 (conj Q10 Q11))))))))).
           ++ intros _. destruct (Q5 eq_refl) as [A B]. split; [exact A|]. rewrite B, <- app_assoc. reflexivity.
           ++ discriminate.
      * rewrite len_app in HL.
        destruct (IH p s' HU HM ltac:(fold (urls r) in *; lia) HBd HF2 HH) as (q & Q1 & Q2 & Q3 & Q4 & Q5 & Q6).
        exists q. split; [exact Q1|]. refine (conj Q2 (conj Q3 (conj Q4 (conj _ Q6)))). discriminate.
    + cbn [hfold] in HH. destruct (hstep (hof p) (DField x)) as [s1|] eqn:ES; [|discriminate].
      destruct (hstep_callback _ (DField x) _ I ES) as (p1 & C1 & C2 & C3 & C4 & C5 & C6 & C7 & C8 & C9 & C10 & C11).
      rewrite C1. rewrite <- C2 in HH.
      destruct (IH p1 s') as (q & Q1 & Q2 & Q3 & Q4 & Q5 & Q6 & Q7 & Q8 & Q9 & Q10 & Q11);
        [rewrite C4, C5; exact HU|rewrite C6, C4; exact HM|rewrite C4; exact HL|rewrite C8; exact HBd|exact HF2|exact HH|].
      exists q. rewrite C4 in Q5. rewrite C7 in Q7. rewrite C8 in Q8. rewrite C4 in Q6.
      split; [exact Q1|]. refine (conj Q2 (conj _ (conj Q4 (conj Q5 (conj Q6 (conj Q7 (conj Q8 (conj _ (conj _ _))))))))); congruence.
    + cbn [hfold] in HH. destruct (hstep (hof p) (DValue x)) as [s1|] eqn:ES; [|discriminate].
      destruct (hstep_callback _ (DValue x) _ I ES) as (p1 & C1 & C2 & C3 & C4 & C5 & C6 & C7 & C8 & C9 & C10 & C11).
      rewrite C1. rewrite <- C2 in HH.
      destruct (IH p1 s') as (q & Q1 & Q2 & Q3 & Q4 & Q5 & Q6 & Q7 & Q8 & Q9 & Q10 & Q11);
        [rewrite C4, C5; exact HU|rewrite C6, C4; exact HM|rewrite C4; exact HL|rewrite C8; exact HBd|exact HF2|exact HH|].
      exists q. rewrite C4 in Q5. rewrite C7 in Q7. rewrite C8 in Q8. rewrite C4 in Q6.
      split; [exact Q1|]. refine (conj Q2 (conj _ (conj Q4 (conj Q5 (conj Q6 (conj Q7 (conj Q8 (conj _ (conj _ _))))))))); congruence.
    + unfold callback, on_body, MAX_CHUNK_SIZE, MAX_BODY_SIZE. rewrite len_app in HBd.
      replace (16777216 <? len x) with false by lia.
      replace (104857600 <? p_body p + len x) with false by (fold (body_of r) in *; lia).
      edestruct IH as (q & Q1 & Q2 & Q3 & Q4 & Q5 & Q6 & Q7 & Q8 & Q9 & Q10 & Q11); [| | | | | |
          exists q; split; [exact Q1|]].
      * exact HU.
      * exact HM.
      * exact HL.
      * cbn [p_body]. fold (body_of r) in *. lia.
      * exact HF2.
      * exact HH.
      * cbn [p_l p_url p_chunked p_body p_msg m_meta m_ct m_body m_url] in *.
        refine (conj Q2 (conj Q3 (conj Q4 (conj Q5 (conj Q6 (conj _ (conj _ (conj Q9 (conj Q10 Q11))))))))).
        -- rewrite Q7, <- app_assoc. reflexivity.
        -- rewrite Q8, len_app. fold (body_of r). lia.
    + destruct (IH p s' HU HM HL HBd HF2 HH) as (q & Q). exists q. exact Q.
Qed.

(** ** Reported fields end up in the headers *)
Lemma hfold_app : forall a s b, hfold s (a ++ b) = match hfold s a with Some s' => hfold s' b | None => None end.
Proof. induction a as [|d a IH]; intros; cbn [hfold app]; [reflexivity|]. destruct (hstep s d); auto. Qed.

Lemma hfold_fields : forall ks h k v n, len (k ++ concat ks) <= 1024 ->
  hfold (h, k, v, TField, n) (map DField ks) = Some (h, k ++ concat ks, v, TField, n).
Proof.
  induction ks as [|x ks IH]; intros h k v n HL; cbn [map hfold concat]; [now rewrite app_nil_r|].
  cbn [hstep]. cbn [concat] in HL. rewrite app_assoc, len_app in HL.
  replace (1024 <? len (k ++ x)) with false by lia.
  rewrite IH by (rewrite len_app; lia). now rewrite <- app_assoc.
Qed.
Lemma hfold_values : forall vs h k v n, len (v ++ concat vs) <= 8192 ->
  hfold (h, k, v, TValue, n) (map DValue vs) = Some (h, k, v ++ concat vs, TValue, n).
Proof.
  induction vs as [|x vs IH]; intros h k v n HL; cbn [map hfold concat]; [now rewrite app_nil_r|].
  cbn [hstep]. cbn [concat] in HL. rewrite app_assoc, len_app in HL.
  replace (8192 <? len (v ++ x)) with false by lia.
  rewrite IH by (rewrite len_app; lia). now rewrite <- app_assoc.
Qed.

Definition add_all (fs : list field) (h : headers_map) : headers_map := fold_left (fun h f => add_value (fst f) (snd f) h) fs h.

Lemma hfold_rep : forall es fs, Reported es fs -> forall h k v t n, t <> TField -> len v <= 8192 ->
  Forall okf fs -> n + N.of_nat (length fs) <= 100 ->
  exists h' k' v' t', hfold (h, k, v, t, n) es = Some (h', k', v', t', n + N.of_nat (length fs)) /\
    settled (h', k', v', t', n + N.of_nat (length fs)) = add_all fs (settled (h, k, v, t, n)) /\ len v' <= 8192 /\ t' <> TField.
Proof.
  induction 1 as [|ks vs ds fs HK HV HKN HR IH]; intros h k v t n HT HL HF HN.
  - exists h, k, v, t. cbn [hfold length add_all fold_left]. rewrite N.add_0_r. auto.
  - inversion HF as [|? ? [F1 F2] F3]; subst. cbn [fst snd length] in *. rewrite Nat2N.inj_succ in *.
    rewrite !hfold_app.
    destruct ks as [|k1 ks]; [congruence|]. destruct vs as [|v1 vs]; [congruence|].
    unfold size in F1, F2. fold (len (concat (k1 :: ks))) in F1. fold (len (concat (v1 :: vs))) in F2.
    cbn [map hfold]. cbn [concat] in F1, F2. rewrite len_app in F1, F2.
    assert (HS : hstep (h, k, v, t, n) (DField k1) =
                 Some (settled (h, k, v, t, n), k1, match t, k with TValue, _ :: _ => [] | _, _ => v end, TField, n + 1)).
    { cbn [hstep]. replace (match t, k with TValue, _ :: _ => 8192 <? len v | _, _ => false end) with false by (destruct t, k; lia).
      destruct t; [|congruence|]; replace ((100 <? n + 1) || (1024 <? len k1)) with false by lia; reflexivity. }
    rewrite HS.
    rewrite hfold_fields by (rewrite len_app; lia).
    cbn [hfold hstep app].
    replace (8192 <? len v1) with false by lia.
    rewrite hfold_app.
    rewrite hfold_values by (rewrite len_app; lia).
    specialize (IH (settled (h, k, v, t, n)) (k1 ++ concat ks) (v1 ++ concat vs) TValue (n + 1)).
    destruct IH as (h' & k' & v' & t' & I1 & I2 & I3 & I4); [discriminate|rewrite len_app; lia|exact F3|lia|].
    exists h', k', v', t'. rewrite I1.
    replace (n + N.succ (N.of_nat (length fs))) with (n + 1 + N.of_nat (length fs)) by lia.
    refine (conj eq_refl (conj _ (conj I3 I4))). rewrite I2. cbn [add_all fold_left fst snd concat].
    unfold settled at 1. cbn [concat] in HKN. destruct (k1 ++ concat ks); [congruence|reflexivity].
Qed.

Lemma add_all_values : forall fs h, Forall (fun f => bytes_ok (fst f) /\ bytes_ok (snd f)) fs -> HeaderMap h ->
  HeaderMap (add_all fs h) /\ forall n, values_of n (fields_of (add_all fs h)) = values_of n (fields_of h) ++ values_of n fs.
Proof.
  induction fs as [|[k v] fs IH]; intros h HF HM; cbn [add_all fold_left].
  - split; [exact HM|]. intros n. cbn. now rewrite app_nil_r.
  - inversion HF as [|? ? [F1 F2] F3]; subst. cbn [fst snd] in *.
    destruct (IH (add_value k v h) F3 (add_map _ _ _ F1 F2 HM)) as [I1 I2]. split; [exact I1|].
    intros n. unfold add_all in I2. rewrite I2. rewrite add_values by auto. rewrite <- app_assoc, <- values_app. reflexivity.
Qed.

Lemma rep_bytes : forall es fs, Reported es fs -> Forall (fun d => bytes_ok (text d)) es ->
  Forall (fun f => bytes_ok (fst f) /\ bytes_ok (snd f)) fs.
Proof.
  induction 1 as [|ks vs ds fs HK HV HKN HR IH]; intros HF; [constructor|].
  rewrite !Forall_app in HF. destruct HF as (F1 & F2 & F3). constructor; [|auto]. cbn [fst snd].
  split; [clear - F1|clear - F2].
  - induction ks; cbn [concat]; [constructor|]. inversion F1; subst. apply Forall_app. split; [assumption|]. apply IHks; assumption.
  - induction vs; cbn [concat]; [constructor|]. inversion F2; subst. apply Forall_app. split; [assumption|]. apply IHvs; assumption.
Qed.

(** ** Machine runs *)
Lemma seq_all_app : forall a p b, seq_all p (a ++ b) = match seq_all p a with Some q => seq_all q b | None => None end.
Proof. induction a as [|d a IH]; intros; cbn [RecvProofs.seq_all app]; [reflexivity|]. destruct (callback M req p d); auto. Qed.
Lemma seq_all_l : forall ds p l, seq_all (with_l M p l) ds = option_map (fun q => with_l M q l) (seq_all p ds).
Proof.
  induction ds as [|d r IH]; intros; cbn [RecvProofs.seq_all]; [reflexivity|].
  rewrite callback_l. destruct (callback M req p d); cbn [option_map]; auto.
Qed.

Lemma runs_seq : forall l s ds st l', Runs M l s ds st l' -> forall p, p_l p = l ->
  seq_loop p s = match seq_all (with_l M p l') ds with Some q => finish M req q st [] (fun q => ExOk M q) | None => ExError M end.
Proof.
  induction 1 as [l c ds st l' HS HN|l c ds l1 s es st l' HS HR IH]; intros p HP; cbn [RecvProofs.seq_loop]; rewrite HP, HS.
  - destruct (seq_all (with_l M p l') ds) as [q|]; [|reflexivity]. destruct st; [congruence|reflexivity..].
  - rewrite seq_all_app, !seq_all_l. destruct (seq_all p ds) as [q|] eqn:EQ; cbn [option_map]; [|reflexivity].
    cbn [finish]. rewrite IH by reflexivity.
    change (with_l M (with_l M q l1) l') with (with_l M q l'). reflexivity.
Qed.

Lemma runs_all : forall l s ds st l' (P : dat -> Prop), Runs M l s ds st l' ->
  (forall l c, Forall P (snd (fst (m_step M l c)))) -> Forall P ds.
Proof.
  induction 1 as [l c ds st l' HS HN|l c ds l1 s es st l' HS HR IH]; intros HP; pose proof (HP l c) as H; rewrite HS in H; cbn [fst snd] in H.
  - exact H.
  - apply Forall_app. auto.
Qed.

(** ** The header section *)
Lemma nobody : forall ds, body_of ds = [] -> Forall (fun d => match d with DBody x => len x <= 16777216 | _ => True end) ds.
Proof.
  induction ds as [|d r IH]; intros H; [constructor|]. cbn [body_of flat_map] in H. apply app_eq_nil in H as [H1 H2].
  constructor; [|apply IH; exact H2]. destruct d; auto. subst s. rewrite len_nil. lia.
Qed.

Lemma chunked_ok : forall h fs, HeaderMap h -> (forall n, values_of n (fields_of h) = values_of n fs) -> OnlyChunked fs ->
  transfer_encoding h = Some true /\ has_header (str "Transfer-Encoding") h = true.
Proof.
  intros h fs HM HV (tss & t & T1 & T2 & T3).
  assert (HTB : bytes_ok (str "Transfer-Encoding")) by (repeat constructor).
  pose proof (find_header_values _ _ HTB HM) as FT. rewrite HV in FT.
  pose proof (values_bytes (str "Transfer-Encoding") _ HM) as HB. rewrite HV in HB.
  unfold transfer_encoding, has_header.
  assert (HI : tss = map (items 44) (values_of (str "Transfer-Encoding") fs)).
  { clear - T1. induction T1 as [|x y ? ? H ? IH]; [reflexivity|]. cbn [map]. f_equal; [now apply items_iff|exact IH]. }
  destruct (find_header (str "Transfer-Encoding") h) as [vs|].
  - destruct FT as [FT _]. rewrite FT in *. rewrite te_tokens_items, flat_map_concat_map, <- HI, T2.
    assert (HTK : bytes_ok t).
    { assert (Ht : In t (concat tss)) by (rewrite T2; now left). rewrite HI, <- flat_map_concat_map in Ht.
      apply in_flat_map in Ht as (v & Hv & Ht). rewrite Forall_forall in HB. apply HB in Hv.
      apply items_bytes with (d := 44) in Hv. rewrite Forall_forall in Hv. auto. }
    rewrite (proj2 (chunked_lower t HTK) T3). auto.
  - rewrite FT in HI. subst tss. discriminate.
Qed.

Lemma absent : forall n h fs, bytes_ok n -> HeaderMap h -> (forall n, values_of n (fields_of h) = values_of n fs) ->
  values_of n fs = [] -> has_header n h = false.
Proof.
  intros n h fs Hn HM HV HA. pose proof (find_header_values _ _ Hn HM) as FT. rewrite HV, HA in FT. unfold has_header.
  destruct (find_header n h); [destruct FT; congruence|reflexivity].
Qed.

Variable forb : nat -> bool.
Notation run_spec := (fold_left (spec_step M req forb)).

Definition length_of (te : bool) (mt : meta) : N :=
  if req then (if (mt_length mt =? ULLONG_MAX) && negb te then 0 else mt_length mt)
  else if bodyless (mt_status mt) then 0 else mt_length mt.

Lemma head_run : Octets M -> forall head ds fs mt l te,
  Runs M (m_init M) head ds (Heads mt) l -> Reported (about_fields ds) fs -> body_of ds = [] -> HeadWithin ds fs ->
  (te = false /\ values_of (str "Transfer-Encoding") fs = [] \/
   te = true /\ OnlyChunked fs /\ values_of (str "Content-Length") fs = []) ->
  (length_of te mt = ULLONG_MAX \/ length_of te mt <= 104857600) ->
  exists p, (forall out, run_spec head (SHead M (reset M), out) = enter M req forb p out) /\
    p_l p = l /\ (req = true -> m_url (p_msg p) = urls ds /\ p_url p = urls ds) /\ (p_urln p = len (p_url p) /\ len (p_url p) <= 8192) /\
    m_meta (p_msg p) = Some mt /\
    HeaderMap (m_headers (p_msg p)) /\ (forall n, values_of n (fields_of (m_headers (p_msg p))) = values_of n fs) /\
    has_header (str "Transfer-Encoding") (m_headers (p_msg p)) = te /\
    m_body (p_msg p) = [] /\ p_length p = length_of te mt /\ p_needs_eof p = mt_needs_eof mt /\ p_chunked p = [] /\ p_body p = 0 /\
    p_token p = TNone.
Proof.
  intros HO head ds fs mt l te HR HRep HBo (W1 & W2 & W3) HTE HLen.
  assert (HBd : Forall (fun d => bytes_ok (text d)) ds) by (apply (runs_all _ _ _ _ _ _ HR); exact HO).
  assert (HFb : Forall (fun f => bytes_ok (fst f) /\ bytes_ok (snd f)) fs).
  { apply (rep_bytes _ _ HRep). unfold about_fields. apply Forall_forall. intros d Hd. apply filter_In in Hd as [Hd _].
    rewrite Forall_forall in HBd. auto. }
  destruct (hfold_rep _ _ HRep [] [] [] TNone 0 ltac:(discriminate) ltac:(rewrite len_nil; lia) W3 ltac:(lia))
    as (h' & k' & v' & t' & H1 & H2 & H3 & H4).
  assert (HM0 : HeaderMap []) by (split; constructor).
  destruct (add_all_values fs [] HFb HM0) as [HM HV].
  pose proof (runs_seq _ _ _ _ _ HR (reset M) eq_refl) as HS.
  destruct (seq_ok ds (with_l M (reset M) l) (h', k', v', t', 0 + N.of_nat (length fs)) eq_refl (fun _ => eq_refl))
    as (q & Q1 & Q2 & Q3 & Q4 & Q5 & Q6 & Q7 & Q8 & Q9 & Q10 & Q11).
  { cbn [with_l reset p_url]. rewrite len_nil. unfold size in W1. fold (len (urls ds)) in W1. lia. }
  { cbn [with_l reset p_body]. rewrite HBo, len_nil. lia. }
  { apply nobody. exact HBo. }
  { exact H1. }
  rewrite Q1 in HS. cbn [finish] in HS.
  unfold hof in Q2. injection Q2 as E1 E2 E3 E4 E5.
  cbn [settled] in H2.
  assert (HC : exists q1, commit M q = Some q1 /\ m_headers (p_msg q1) = add_all fs [] /\ p_l q1 = p_l q /\ p_url q1 = p_url q /\
    p_urln q1 = p_urln q /\ m_url (p_msg q1) = m_url (p_msg q) /\ p_chunked q1 = p_chunked q /\ p_body q1 = p_body q /\
    m_ct (p_msg q1) = m_ct (p_msg q) /\ m_body (p_msg q1) = m_body (p_msg q)).
  { unfold commit. rewrite E2, E4. destruct t'.
    - exists q. rewrite E1. auto 12.
    - congruence.
    - destruct k' as [|k0 k'].
      + exists q. rewrite E1. auto 12.
      + unfold MAX_HEADER_VALUE_LENGTH. rewrite E3. replace (8192 <? len v') with false by lia. eexists. split; [reflexivity|].
        cbn [p_msg m_headers p_l p_url p_urln m_url p_chunked p_body m_ct m_body]. rewrite E1. auto 12. }
  destruct HC as (q1 & C1 & C2 & C3 & C4 & C5 & C6 & C7 & C8 & C9 & C10).
  assert (HVf : forall n, values_of n (fields_of (add_all fs [])) = values_of n fs) by (intros n; rewrite HV; reflexivity).
  assert (HTEh : has_header (str "Transfer-Encoding") (add_all fs []) = te /\
                 te && (has_header (str "Content-Length") (add_all fs []) || negb (is_supported_transfer_encoding (add_all fs []))) = false).
  { destruct HTE as [[-> HT]|(-> & HT & HL)].
    - split; [|reflexivity]. eapply absent; eauto. repeat constructor.
    - destruct (chunked_ok _ _ HM HVf HT) as [T1 T2]. split; [exact T2|]. unfold is_supported_transfer_encoding. rewrite T1.
      rewrite (absent (str "Content-Length") _ fs); auto. repeat constructor. }
  destruct HTEh as [HT1 HT2].
  unfold on_headers_complete in HS. rewrite C1, C2, HT1, HT2 in HS. fold (length_of te mt) in HS.
  replace (negb (length_of te mt =? ULLONG_MAX) && (MAX_BODY_SIZE <? length_of te mt)) with false in HS
    by (unfold MAX_BODY_SIZE; destruct HLen as [->|HLen]; [reflexivity|symmetry; apply andb_false_iff; right; lia]).
  match type of HS with _ = ExPaused M ?p [] => exists p end.
  refine (conj _ _).
  { intros out. pose proof (seq_loop_head M req forb head (reset M) out eq_refl eq_refl) as HH. rewrite HS in HH.
    destruct HH as (used & U1 & _ & U3 & _). rewrite app_nil_r in U1. subst used. exact U3. }
  cbn [p_l p_msg m_url p_url p_urln m_meta m_headers m_body p_length p_needs_eof p_chunked p_body p_token].
  rewrite C3, C4, C5, C6, C7, C8, C10, Q3, Q7, Q8, Q11, HBo.
  refine (conj eq_refl (conj _ (conj (conj Q4 _) (conj eq_refl (conj HM (conj HVf (conj HT1 (conj eq_refl (conj eq_refl (conj eq_refl (conj eq_refl (conj eq_refl eq_refl)))))))))))).
  - intros HQ. destruct (Q5 HQ) as [A B]. rewrite A. rewrite B. split; reflexivity.
  - destruct req; [destruct (Q5 eq_refl) as [_ ->]; exact W1|]. rewrite (Q6 eq_refl). cbn [with_l reset p_url]. rewrite len_nil. lia.
Qed.

End Frame.

(** ** One message after the other *)
Section Shift.
Variable M : machine.
Variable req : bool.

Lemma enter_shift : forall forb p m out,
  enter M req forb p (m :: out) = (fst (enter M req (fun k => forb (S k)) p out), m :: snd (enter M req (fun k => forb (S k)) p out)).
Proof.
  intros forb p m out. unfold enter, deliver. cbn [length].
  destruct (negb req && forb (S (length out))); [reflexivity|].
  destruct (has_header _ _).
  - destruct (m_wake M (p_l p)) as [l st]. destruct (finish _ _ _ _ _ _); reflexivity.
  - destruct (negb req && p_needs_eof p); [reflexivity|]. destruct (p_length p =? ULLONG_MAX); [reflexivity|].
    destruct (p_length p =? 0); reflexivity.
Qed.
Lemma step_shift : forall forb st m out c,
  spec_step M req forb (st, m :: out) c =
  (fst (spec_step M req (fun k => forb (S k)) (st, out) c), m :: snd (spec_step M req (fun k => forb (S k)) (st, out) c)).
Proof.
  intros forb st m out c. destruct st as [p|p acc|p|p acc|]; cbn [spec_step]; unfold deliver.
  - destruct (seq_loop M req p [c]); try reflexivity. apply enter_shift.
  - destruct (_ =? _); reflexivity.
  - destruct (seq_loop M req p [c]); reflexivity.
  - destruct (_ <? _); reflexivity.
  - reflexivity.
Qed.
Lemma run_shift : forall s forb st m out,
  fold_left (spec_step M req forb) s (st, m :: out) =
  (fst (fold_left (spec_step M req (fun k => forb (S k))) s (st, out)), m :: snd (fold_left (spec_step M req (fun k => forb (S k))) s (st, out))).
Proof.
  induction s as [|c s IH]; intros forb st m out; cbn [fold_left]; [reflexivity|].
  rewrite step_shift. destruct (spec_step M req (fun k => forb (S k)) (st, out) c) as [st' out']. cbn [fst snd]. apply IH.
Qed.
End Shift.

(** Whatever follows [segment] on the stream and however it is read, the first message delivered is [m], and
    what follows is treated exactly as the start of a new connection. *)
Definition FirstMessage (M : machine) (req : bool) (forb : nat -> bool) (segment : list N) (m : msg) : Prop :=
  forall slices more, SmallReads slices -> SmallReads more -> concat slices = segment ++ concat more ->
  delivered M req forb slices = m :: delivered M req (fun k => forb (S k)) more /\
  alive M req forb slices = alive M req (fun k => forb (S k)) more /\
  delivered_at_close M req forb slices = m :: delivered_at_close M req (fun k => forb (S k)) more.

Lemma first_message : forall M req forb segment p, OneOctet M ->
  fold_left (spec_step M req forb) segment (start M) = deliver M p [] -> FirstMessage M req forb segment (p_msg p).
Proof.
  intros M req forb segment p HB HD slices more HS HM HC.
  pose proof (feed_spec M req forb HB slices HS) as RX. rewrite HC, fold_left_app, HD in RX.
  unfold deliver in RX. cbn [app] in RX. rewrite run_shift in RX.
  pose proof (feed_spec M req (fun k => forb (S k)) HB more HM) as RY. unfold start in RY.
  destruct (fold_left (spec_step M req (fun k => forb (S k))) (concat more) (SHead M (reset M), [])) as [st out]. cbn [fst snd] in RX.
  destruct (R_alive _ _ _ _ _ _ RX) as [-> ->]. destruct (R_alive _ _ _ _ _ _ RY) as [-> ->].
  rewrite (R_flush _ _ _ _ _ _ RX), (R_flush _ _ _ _ _ _ RY). destruct st; auto.
Qed.

(** the message says what was received *)
Definition Says (req : bool) (ds : list dat) (mt : meta) (fs : list field) (body : list N) (m : msg) : Prop :=
  (req = true -> m_url m = urls ds) /\ m_meta m = Some mt /\
  (forall n, values_of n (fields_of (m_headers m)) = values_of n fs) /\ m_body m = body.

(** A message with a declared length (or none, for a request): its body is exactly that many octets. *)
Theorem c90_length : forall M req forb head ds fs mt l body, OneOctet M -> Octets M ->
  Runs M (m_init M) head ds (Heads mt) l -> Reported (about_fields ds) fs -> body_of ds = [] -> HeadWithin ds fs ->
  values_of (str "Transfer-Encoding") fs = [] -> (req = false -> forb 0%nat = false /\ mt_needs_eof mt = false) ->
  declared req mt = size body -> size body <= 104857600 ->
  exists m, FirstMessage M req forb (head ++ body) m /\ Says req ds mt fs body m.
Proof.
  intros M req forb head ds fs mt l body HB HO HR HRep HBo HW HTE HResp HD HL.
  assert (HLen : length_of req false mt = size body).
  { rewrite <- HD. unfold length_of, declared, bodyless, ULLONG_MAX. rewrite andb_true_r. reflexivity. }
  destruct (head_run M req forb HO head ds fs mt l false HR HRep HBo HW (or_introl (conj eq_refl HTE)) ltac:(rewrite HLen; auto))
    as (p & P1 & P2 & P3 & P4 & P5 & P6 & P7 & P8 & P9 & P10 & P11 & P12 & P13 & P14).
  rewrite HLen in P10.
  assert (HF : negb req && forb 0%nat = false) by (destruct req; [reflexivity|]; apply HResp; reflexivity).
  assert (HE : negb req && p_needs_eof p = false) by (rewrite P11; destruct req; [reflexivity|]; apply HResp; reflexivity).
  set (q := if size body =? 0 then p else set_body M p body).
  assert (HQ : fold_left (spec_step M req forb) (head ++ body) (start M) = deliver M q []).
  { rewrite fold_left_app. unfold start. rewrite P1. unfold enter. cbn [length]. rewrite HF, P8, HE, P10.
    replace (size body =? ULLONG_MAX) with false by (unfold ULLONG_MAX; lia). subst q.
    destruct (size body =? 0) eqn:E0.
    - assert (body = []) as -> by (destruct body; [reflexivity|unfold size in E0; cbn [length] in E0; lia]). reflexivity.
    - rewrite body_full; [reflexivity| |].
      + intros ->. unfold size in E0. cbn in E0. lia.
      + rewrite P10. reflexivity. }
  exists (p_msg q). split; [apply first_message; assumption|].
  assert (HM : p_msg q = {| m_url := m_url (p_msg p); m_meta := m_meta (p_msg p); m_headers := m_headers (p_msg p);
                            m_ct := m_ct (p_msg p); m_body := body |}).
  { subst q. destruct (size body =? 0) eqn:E0; [|reflexivity].
    assert (body = []) as -> by (destruct body; [reflexivity|unfold size in E0; cbn [length] in E0; lia]).
    rewrite <- P9. destruct (p_msg p); reflexivity. }
  rewrite HM. unfold Says. cbn [m_url m_meta m_headers m_body].
  refine (conj _ (conj P5 (conj P7 eq_refl))). intros HQ2. apply P3. exact HQ2.
Qed.

(** A response to a request that forbids a body (HEAD) ends with its header section, whatever it declares. *)
Theorem c90_no_body : forall M forb head ds fs mt l, OneOctet M -> Octets M ->
  Runs M (m_init M) head ds (Heads mt) l -> Reported (about_fields ds) fs -> body_of ds = [] -> HeadWithin ds fs ->
  (values_of (str "Transfer-Encoding") fs = [] \/ OnlyChunked fs /\ values_of (str "Content-Length") fs = []) ->
  (declared false mt <= 104857600 \/ declared false mt = 18446744073709551615) -> forb 0%nat = true ->
  exists m, FirstMessage M false forb head m /\ Says false ds mt fs [] m.
Proof.
  intros M forb head ds fs mt l HB HO HR HRep HBo HW HTE HL HF.
  assert (HLen : forall te, length_of false te mt = declared false mt) by (intros te; reflexivity).
  assert (exists te, te = false /\ values_of (str "Transfer-Encoding") fs = [] \/
     te = true /\ OnlyChunked fs /\ values_of (str "Content-Length") fs = []) as [te Hte]
    by (destruct HTE as [H|H]; [exists false; auto|exists true; auto]).
  destruct (head_run M false forb HO head ds fs mt l te HR HRep HBo HW Hte ltac:(rewrite HLen; unfold ULLONG_MAX; tauto))
    as (p & P1 & P2 & P3 & P4 & P5 & P6 & P7 & P8 & P9 & P10 & P11 & P12 & P13 & P14).
  exists (p_msg p). split.
  - apply first_message; [exact HB|]. unfold start. rewrite P1. unfold enter. cbn [length negb andb]. rewrite HF. reflexivity.
  - refine (conj _ (conj P5 (conj P7 P9))). discriminate.
Qed.

(** A chunked message: its body is what the chunks hold, and it ends where the machine says so.  The library
    rewrites Content-Type with its first value (adding an empty one if there was none). *)
Theorem c90_chunked : forall M req forb head ds fs mt l l1 s es l2, OneOctet M -> Octets M ->
  Runs M (m_init M) head ds (Heads mt) l -> Reported (about_fields ds) fs -> body_of ds = [] -> HeadWithin ds fs ->
  OnlyChunked fs -> values_of (str "Content-Length") fs = [] -> mt_length mt = 18446744073709551615 ->
  (req = false -> forb 0%nat = false) ->
  m_wake M l = (l1, Go) -> Runs M l1 s es Done l2 -> about_fields es = [] -> urls es = [] -> size (body_of es) <= 104857600 ->
  exists m, FirstMessage M req forb (head ++ s) m /\
    (req = true -> m_url m = urls ds) /\ m_meta m = Some mt /\ m_body m = body_of es /\
    (forall n, map lower n <> map lower (str "Content-Type") -> values_of n (fields_of (m_headers m)) = values_of n fs) /\
    values_of (str "Content-Type") (fields_of (m_headers m)) = [hd [] (values_of (str "Content-Type") fs)].
Proof.
  intros M req forb head ds fs mt l l1 s es l2 HB HO HR HRep HBo HW HTE HCL HLn HF HWk HR2 HA HUr HSz.
  destruct (head_run M req forb HO head ds fs mt l true HR HRep HBo HW (or_intror (conj eq_refl (conj HTE HCL))))
    as (p & P1 & P2 & P3 & P4 & P5 & P6 & P7 & P8 & P9 & P10 & P11 & P12 & P13 & P14).
  { unfold length_of. rewrite HLn, andb_false_r. destruct req; [left; reflexivity|]. destruct (bodyless _); [right; lia|left; reflexivity]. }
  assert (HFo : negb req && forb 0%nat = false) by (destruct req; [reflexivity|]; apply HF; reflexivity).
  set (q := with_run M (with_l M p l1) Running).
  destruct (seq_ok M req es (with_l M q l2) (hof M (with_l M q l2)))
    as (r & Q1 & Q2 & Q3 & Q4 & Q5 & Q6 & Q7 & Q8 & Q9 & Q10 & Q11).
  { exact (proj1 P4). }
  { intros HQ. destruct (P3 HQ) as [A B]. cbn [q with_l with_run p_msg p_url]. now rewrite A, B. }
  { cbn [q with_l with_run p_url]. rewrite HUr, len_nil.
    destruct P4 as [_ P4]. lia. }
  { cbn [q with_l with_run p_body]. rewrite P13. exact HSz. }
  { apply (runs_all M _ _ _ _ _ (fun d => match d with DBody x => len x <= 16777216 | _ => True end) HR2). intros l0 c. pose proof (HB l0 c) as H1. revert H1.
    generalize (snd (fst (m_step M l0 c))). induction l3 as [|d t IH]; intros H1; [constructor|].
    cbn [body_of flat_map] in H1. unfold size in H1. rewrite app_length in H1. constructor.
    - destruct d; auto. unfold len. lia.
    - apply IH. unfold body_of, size. lia. }
  { rewrite HA. reflexivity. }
  pose proof (runs_seq M req _ _ _ _ _ HR2 q eq_refl) as HS. rewrite Q1 in HS. cbn [finish] in HS.
  assert (HQ : fold_left (spec_step M req forb) (head ++ s) (start M) = deliver M (on_message_complete M r) []).
  { rewrite fold_left_app. unfold start. rewrite P1. unfold enter. cbn [length]. rewrite HFo, P8, P2, HWk. cbn [finish]. fold q.
    pose proof (seq_loop_chunk M req forb s q [] eq_refl) as HK. rewrite HS in HK.
    destruct HK as (used & U1 & _ & U3). rewrite app_nil_r in U1. subst used. exact U3. }
  exists (p_msg (on_message_complete M r)). split; [apply first_message; assumption|].
  unfold hof in Q2. injection Q2 as E1 E2 E3 E4 E5. cbn [with_l with_run q p_msg] in E1.
  assert (HCB : bytes_ok (str "Content-Type")) by (repeat constructor).
  cbn [on_message_complete p_msg m_url m_meta m_headers m_body]. rewrite E1, Q7, Q9. cbn [q with_l with_run p_msg p_chunked].
  rewrite P12. refine (conj _ (conj P5 (conj eq_refl (conj _ _)))).
  - intros HQ2. destruct (Q5 HQ2) as [A B]. rewrite A, B, HUr, app_nil_r. cbn [q with_l with_run p_url]. apply P3. exact HQ2.
  - intros n Hn. rewrite set_values by auto. destruct (beq _ _) eqn:EB; [apply beq_eq in EB; congruence|]. apply P7.
  - rewrite set_values by auto. rewrite (proj2 (beq_eq _ _) eq_refl). f_equal. unfold header.
    pose proof (find_header_values _ _ HCB P6) as FC. rewrite P7 in FC.
    destruct (find_header (str "Content-Type") (m_headers (p_msg p))) as [[|v vs]|].
    + destruct FC; congruence.
    + destruct FC as [-> _]. reflexivity.
    + rewrite FC. reflexivity.
Qed.

(** A response without a length runs to the end of the connection. *)
Theorem c90_until_close : forall M forb head ds fs mt l body, OneOctet M -> Octets M ->
  Runs M (m_init M) head ds (Heads mt) l -> Reported (about_fields ds) fs -> body_of ds = [] -> HeadWithin ds fs ->
  values_of (str "Transfer-Encoding") fs = [] -> forb 0%nat = false -> mt_needs_eof mt = true ->
  (declared false mt <= 104857600 \/ declared false mt = 18446744073709551615) -> size body <= 104857600 ->
  exists m, Says false ds mt fs body m /\ forall slices, SmallReads slices -> concat slices = head ++ body ->
    delivered M false forb slices = [] /\ delivered_at_close M false forb slices = [m].
Proof.
  intros M forb head ds fs mt l body HB HO HR HRep HBo HW HTE HF HE HL HSz.
  destruct (head_run M false forb HO head ds fs mt l false HR HRep HBo HW (or_introl (conj eq_refl HTE)))
    as (p & P1 & P2 & P3 & P4 & P5 & P6 & P7 & P8 & P9 & P10 & P11 & P12 & P13 & P14).
  { change (length_of false false mt) with (declared false mt). unfold ULLONG_MAX. tauto. }
  exists (p_msg (if len body =? 0 then p else set_body M p body)). split.
  - assert (HM : p_msg (if len body =? 0 then p else set_body M p body) =
        {| m_url := m_url (p_msg p); m_meta := m_meta (p_msg p); m_headers := m_headers (p_msg p);
           m_ct := m_ct (p_msg p); m_body := body |}).
    { destruct (len body =? 0) eqn:E0; [|reflexivity].
      assert (body = []) as -> by (destruct body; [reflexivity|rewrite len_cons in E0; lia]).
      rewrite <- P9. destruct (p_msg p); reflexivity. }
    rewrite HM. refine (conj _ (conj P5 (conj P7 eq_refl))). discriminate.
  - intros slices HS HC. pose proof (feed_spec M false forb HB slices HS) as RX. rewrite HC, fold_left_app in RX.
    unfold start in RX. rewrite P1 in RX. unfold enter in RX. cbn [length negb andb] in RX. rewrite HF, P8, P11, HE in RX.
    rewrite eof_fold in RX by (rewrite len_nil; unfold MAX_BODY_SIZE; lia). cbn [app] in RX.
    replace (MAX_BODY_SIZE <? len body) with false in RX by (unfold MAX_BODY_SIZE, size in *; unfold len; lia).
    destruct (R_alive _ _ _ _ _ _ RX) as [-> _]. rewrite (R_flush _ _ _ _ _ _ RX). auto.
Qed.

(** ** Pipelining: any number of messages back to back *)
Inductive Pipeline (M : machine) (req : bool) : (nat -> bool) -> list (list N) -> list msg -> Prop :=
| pipe_nil forb : Pipeline M req forb [] []
| pipe_cons forb s ss m ms : FirstMessage M req forb s m -> Pipeline M req (fun k => forb (S k)) ss ms ->
    Pipeline M req forb (s :: ss) (m :: ms).

Lemma octetwise : forall s : list N, SmallReads (map (fun c => [c]) s) /\ concat (map (fun c => [c]) s) = s.
Proof.
  induction s as [|c s [IH1 IH2]]; cbn [map concat app]; [split; [constructor|reflexivity]|].
  split; [constructor; [unfold size; cbn [length]; lia|exact IH1]|now rewrite IH2].
Qed.

Theorem c90_pipelined : forall M req forb segments ms, OneOctet M -> Pipeline M req forb segments ms ->
  forall slices more, SmallReads slices -> SmallReads more -> concat slices = concat segments ++ concat more ->
  delivered M req forb slices = ms ++ delivered M req (fun k => forb (length ms + k)%nat) more /\
  alive M req forb slices = alive M req (fun k => forb (length ms + k)%nat) more /\
  delivered_at_close M req forb slices = ms ++ delivered_at_close M req (fun k => forb (length ms + k)%nat) more.
Proof.
  intros M req forb segments ms HB HP. induction HP as [forb|forb s ss m ms HFM HP IH]; intros slices more HS HM HC.
  - cbn [concat app length Nat.add] in *.
    exact (c87_reads_do_not_matter M req forb HB slices more HS HM HC).
  - cbn [concat] in HC. rewrite <- app_assoc in HC.
    destruct (octetwise (concat ss ++ concat more)) as [O1 O2]. rewrite <- O2 in HC.
    destruct (HFM slices _ HS O1 HC) as (F1 & F2 & F3).
    destruct (IH _ more O1 HM O2) as (I1 & I2 & I3).
    rewrite F1, F2, F3, I1, I2, I3. cbn [app length Nat.add]. auto.
Qed.

(** *** The hypotheses are met: two pipelined requests, one with a length, one chunked *)
Fixpoint run_of (M : machine) (l : mL M) (s : list N) : option (list dat * stop * mL M) :=
  match s with
  | [] => None
  | c :: r => match m_step M l c with
              | (l', ds, Go) => match run_of M l' r with Some (es, st, l2) => Some (ds ++ es, st, l2) | None => None end
              | (l', ds, st) => match r with [] => Some (ds, st, l') | _ => None end
              end
  end.
Lemma run_of_runs : forall M s l ds st l', run_of M l s = Some (ds, st, l') -> Runs M l s ds st l'.
Proof.
  induction s as [|c r IH]; intros l ds st l' H; cbn [run_of] in H; [discriminate H|].
  destruct (m_step M l c) as [[l1 d1] st1] eqn:E. destruct st1.
  - destruct (run_of M l1 r) as [[[es st2] l2]|] eqn:E2; [|discriminate H]. injection H as <- <- <-. eapply runs_more; eauto.
  - destruct r; [|discriminate H]. injection H as <- <- <-. apply runs_last; [exact E|discriminate].
  - destruct r; [|discriminate H]. injection H as <- <- <-. apply runs_last; [exact E|discriminate].
  - destruct r; [|discriminate H]. injection H as <- <- <-. apply runs_last; [exact E|discriminate].
Qed.

Definition head1 : list N := str "POST /a HTTP/1.1" ++ [13; 10] ++ str "Content-Length: 5" ++ [13; 10; 13; 10].
Definition head2 : list N := str "PUT /b HTTP/1.1" ++ [13; 10] ++ str "transfer-encoding: Chunked" ++ [13; 10] ++ str "X: y" ++ [13; 10; 13; 10].
Definition chunks2 : list N := str "3;e=v" ++ [13; 10] ++ str "abc" ++ [13; 10] ++ str "2" ++ [13; 10] ++ str "de" ++ [13; 10] ++ str "0" ++ [13; 10; 13; 10].
Definition sp (s : list N) : list (list N) := map (fun c => [c]) s.

Lemma ex_first : exists m, FirstMessage toy8 true (fun _ => false) (head1 ++ str "hello") m /\ m_body m = str "hello" /\ m_url m = str "/a".
Proof.
  destruct (run_of toy8 (m_init toy8) head1) as [[[ds st] l]|] eqn:E; [|vm_compute in E; discriminate E].
  pose proof (run_of_runs _ _ _ _ _ _ E) as HR. vm_compute in E. injection E as <- <- <-.
  edestruct (c90_length toy8 true (fun _ => false) head1 _ [(str "Content-Length", str "5")] _ _ (str "hello") toy8_one toy8_octets HR)
    as (m & H1 & H2 & H3 & H4 & H5).
  - exact (rep_field (sp (str "Content-Length")) ([] :: sp (str "5")) [] [] ltac:(discriminate) ltac:(discriminate) ltac:(discriminate) rep_none).
  - vm_compute. reflexivity.
  - split; [vm_compute; discriminate|]. split; [vm_compute; discriminate|]. repeat constructor; vm_compute; discriminate.
  - vm_compute. reflexivity.
  - discriminate.
  - vm_compute. reflexivity.
  - vm_compute. discriminate.
  - exists m. split; [exact H1|]. split; [exact H5|]. rewrite (H2 eq_refl). vm_compute. reflexivity.
Qed.
Lemma ex_second : exists m, FirstMessage toy8 true (fun _ => false) (head2 ++ chunks2) m /\ m_body m = str "abcde" /\ m_url m = str "/b".
Proof.
  destruct (run_of toy8 (m_init toy8) head2) as [[[ds st] l]|] eqn:E; [|vm_compute in E; discriminate E].
  pose proof (run_of_runs _ _ _ _ _ _ E) as HR. vm_compute in E. injection E as <- <- <-.
  match type of HR with Runs _ _ _ _ _ ?l => destruct (run_of toy8 l chunks2) as [[[es st2] l2]|] eqn:E2; [|vm_compute in E2; discriminate E2] end.
  pose proof (run_of_runs _ _ _ _ _ _ E2) as HR2. vm_compute in E2. injection E2 as <- <- <-.
  match type of HR2 with Runs _ ?l1 _ ?es _ ?l2 =>
    edestruct (c90_chunked toy8 true (fun _ => false) head2 _ [(str "transfer-encoding", str "Chunked"); (str "X", str "y")] _ _ l1 chunks2 es l2
      toy8_one toy8_octets HR) as (m & H1 & H2 & H3 & H4 & H5 & H6) end.
  - exact (rep_field (sp (str "transfer-encoding")) ([] :: sp (str "Chunked")) _ _ ltac:(discriminate) ltac:(discriminate) ltac:(discriminate)
      (rep_field (sp (str "X")) ([] :: sp (str "y")) [] [] ltac:(discriminate) ltac:(discriminate) ltac:(discriminate) rep_none)).
  - vm_compute. reflexivity.
  - split; [vm_compute; discriminate|]. split; [vm_compute; discriminate|]. repeat constructor; vm_compute; discriminate.
  - exists [[str "Chunked"]], (str "Chunked"). split; [|split; vm_compute; reflexivity].
    constructor; [apply items_iff; vm_compute; reflexivity|constructor].
  - vm_compute. reflexivity.
  - vm_compute. reflexivity.
  - discriminate.
  - reflexivity.
  - exact HR2.
  - vm_compute. reflexivity.
  - vm_compute. reflexivity.
  - vm_compute. discriminate.
  - exists m. split; [exact H1|]. split; [rewrite H4; vm_compute; reflexivity|]. rewrite (H2 eq_refl). vm_compute. reflexivity.
Qed.
Example ex_pipeline : exists m1 m2, Pipeline toy8 true (fun _ => false) [head1 ++ str "hello"; head2 ++ chunks2] [m1; m2] /\
  m_body m1 = str "hello" /\ m_body m2 = str "abcde".
Proof.
  destruct ex_first as (m1 & A & B & _), ex_second as (m2 & C & D & _). exists m1, m2.
  refine (conj _ (conj B D)). apply pipe_cons; [exact A|]. apply pipe_cons; [exact C|]. constructor.
Qed.
(** a response without a length, and one to a HEAD request *)
Definition head3 : list N := str "HTTP/1.1 200 OK" ++ [10] ++ str "X: y" ++ [10; 10].
Example ex_until_close :
  map (fun m => m_body m) (delivered_at_close toy8 false (fun _ => false) [head3; str "some"; str " text"]) = [str "some text"] /\
  delivered toy8 false (fun _ => false) [head3; str "some"; str " text"] = [] /\
  map (fun m => m_body m) (delivered toy8 false (fun _ => true) [head1; head3]) = [[]; []].
Proof. vm_compute. auto. Qed.
