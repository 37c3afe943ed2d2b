(** Properties C91-C93: attribute lists, Content-Type and the header container, coding negotiation. *)
From Verif Require Import Base UtilModel UtilSpec UtilProofs StaticModel DateModel CookieModel CookieSpec CookieProofs H2FieldSpec Http1Model Http1Spec
  Http1Proofs RecvModel RecvSpec RecvInv HdrModel HdrSpec HdrProofs.
From Coq Require Import ZifyBool ZifyN.
Local Open Scope N_scope.

(** ** C91: attribute lists *)
(** Parsing succeeds exactly on attribute lists. *)
Theorem c91_accepts : forall s, parse_header_attributes s <> None <-> exists fs, AttributeList s fs.
Proof.
  intros s. split.
  - destruct (parse_header_attributes s) as [d|] eqn:E; [|congruence]. intros _. apply parse_iff in E as (fs & F & _). eauto.
  - intros (fs & F). rewrite (proj2 (parse_iff s (stored [] fs))) by eauto. discriminate.
Qed.
(** What is found under a name is the value of the first attribute of that name (names without regard to case). *)
Theorem c91_lookup : forall s fs d k v, bytes_ok s -> bytes_ok k -> AttributeList s fs -> parse_header_attributes s = Some d ->
  (cookie_get d k = Some v <-> First fs k v).
Proof.
  intros s fs d k v Hs Hk HA HP. rewrite (proj2 (parse_iff s (stored [] fs))) in HP by eauto. injection HP as <-.
  assert (HB : Forall (fun f : field => bytes_ok (fst f) /\ bytes_ok (snd f)) fs) by (eapply attrs_bytes; [exact (proj2 HA)|exact Hs]).
  rewrite stored_get by (auto). cbn [cookie_get find option_map]. now apply first_iff.
Qed.
(** Two readings of the same text find the same values. *)
Theorem c91_unambiguous : forall s fs gs k v, bytes_ok s -> bytes_ok k -> AttributeList s fs -> AttributeList s gs -> (First fs k v <-> First gs k v).
Proof.
  intros s fs gs k v Hs Hk HF HG. assert (HP : parse_header_attributes s = Some (stored [] fs)) by (apply parse_iff; eauto).
  rewrite <- (c91_lookup s fs _ k v Hs Hk HF HP). exact (c91_lookup s gs _ k v Hs Hk HG HP).
Qed.
(** No parsed name or value carries a control character (tabs excepted, in values) or exceeds its limit. *)
Theorem c91_clean : forall s d k v, bytes_ok s -> bytes_ok k -> parse_header_attributes s = Some d -> cookie_get d k = Some v ->
  Forall (fun c => ~ Control c \/ c = 9) v /\ N.of_nat (length v) <= 8192 /\ k <> [] /\ N.of_nat (length k) <= 1024.
Proof.
  intros s d k v Hs Hk HP HG. apply parse_iff in HP as (fs & HA & ->).
  assert (HP : parse_header_attributes s = Some (stored [] fs)) by (apply parse_iff; eauto).
  apply (proj1 (c91_lookup _ _ _ _ _ Hs Hk HA HP)) in HG. destruct HG as (a & n & b & E & HS & _).
  assert (HIn : In (n, v) fs) by (rewrite E; apply in_or_app; right; now left).
  assert (HX : Forall (fun c => ~ Control c \/ c = 9) v /\ N.of_nat (length v) <= 8192 /\ n <> [] /\ N.of_nat (length n) <= 1024).
  { destruct HA as [_ HA]. clear - HA HIn. induction HA as [s fs H|s fs d t gs H Hd _ IH].
    - inversion H as [|m HN|m w u HN HT HW HQ HL|m a q t b u HN Ha Hq HQ HL]; subst; [destruct HIn|..]; destruct HIn as [HE|[]];
        injection HE as <- <-; destruct HN as (N1 & N2 & N3).
      + refine (conj (Forall_nil _) (conj _ (conj N1 N2))). vm_compute; discriminate.
      + refine (conj _ (conj HL (conj N1 N2))). destruct HT as (x & y & -> & _). rewrite !Forall_app in HW. destruct HW as (_ & HW & _).
        revert HW. apply Forall_impl. unfold Plain. tauto.
      + refine (conj _ (conj HL (conj N1 N2))). clear - HQ. induction HQ; constructor; auto.
    - apply in_app_or in HIn as [HIn|HIn]; [|auto].
      inversion H as [|m HN|m w u HN HT HW HQ HL|m a q t' b u HN Ha Hq HQ HL]; subst; [destruct HIn|..]; destruct HIn as [HE|[]];
        injection HE as <- <-; destruct HN as (N1 & N2 & N3).
      + refine (conj (Forall_nil _) (conj _ (conj N1 N2))). vm_compute; discriminate.
      + refine (conj _ (conj HL (conj N1 N2))). destruct HT as (x & y & -> & _). rewrite !Forall_app in HW. destruct HW as (_ & HW & _).
        revert HW. apply Forall_impl. unfold Plain. tauto.
      + refine (conj _ (conj HL (conj N1 N2))). clear - HQ. induction HQ; constructor; auto. }
  destruct HX as (X1 & X2 & X3 & X4). unfold SameName in HS. apply (f_equal (@length N)) in HS. rewrite !map_length in HS.
  refine (conj X1 (conj X2 (conj _ _))); [|lia]. intros ->. destruct n; [congruence|discriminate HS].
Qed.
Example ex_attributes : exists fs d, AttributeList (str "form-data; na me=a b ;X='it\'s'; x=2 ,flag") fs /\
  parse_header_attributes (str "form-data; na me=a b ;X='it\'s'; x=2 ,flag") = Some d /\
  cookie_get d (str "NAME") = Some (str "a b") /\ cookie_get d (str "x") = Some (str "it's") /\ cookie_get d (str "flag") = Some [] /\
  First fs (str "x") (str "it's").
Proof.
  destruct (parse_header_attributes (str "form-data; na me=a b ;X='it\'s'; x=2 ,flag")) as [d|] eqn:E; [|vm_compute in E; discriminate E].
  pose proof E as E2. apply parse_iff in E2 as (fs & F & _). exists fs, d. refine (conj F (conj eq_refl _)).
  pose proof (c91_lookup (str "form-data; na me=a b ;X='it\'s'; x=2 ,flag") fs d (str "x") (str "it's") ltac:(repeat constructor) ltac:(repeat constructor) F E) as HL.
  vm_compute in E. injection E as <-. refine (conj _ (conj _ (conj _ _))); try (vm_compute; reflexivity).
  apply (proj1 HL). vm_compute. reflexivity.
Qed.

(** ** C92: Content-Type and the header container *)
Lemma cut_before d s : Cut d s (before d s) (after d s).
Proof.
  unfold Cut. induction s as [|c s [I1 I2]]; cbn [before after app]; [split; [intros []|reflexivity]|].
  destruct (c =? d) eqn:E; [split; [intros []|]; assert (c = d) as -> by lia; reflexivity|].
  split; [|cbn [app]; now rewrite <- I2]. intros [H|H]; [lia|auto].
Qed.
Lemma cut_unique d s a r : Cut d s a r -> a = before d s /\ r = after d s.
Proof.
  revert s. induction a as [|c a IH]; intros s [H1 ->].
  - destruct r as [r|]; cbn [app before after]; [rewrite N.eqb_refl; auto|auto].
  - cbn [app before after]. destruct (c =? d) eqn:E; [exfalso; apply H1; left; lia|].
    destruct (IH (a ++ match r with Some x => d :: x | None => [] end)) as [E1 E2]; [split; [intros H; apply H1; now right|reflexivity]|].
    now rewrite <- E1, <- E2.
Qed.
Lemma after_bytes d s p : bytes_ok s -> after d s = Some p -> bytes_ok p.
Proof.
  unfold bytes_ok. induction 1 as [|c s Hc Hs IH]; cbn [after]; [discriminate|]. destruct (c =? d); [intros H; injection H as <-; exact Hs|exact IH].
Qed.

Lemma charset_iff params cs : (forall p, params = Some p -> bytes_ok p) ->
  (Charset params cs <->
   cs = match params with
        | None => default_charset
        | Some p => match parse_header_attributes p with
                    | None => default_charset
                    | Some attrs => match cookie_get attrs (str "charset") with Some [] | None => default_charset | Some c => c end
                    end
        end).
Proof.
  intros HB. assert (HK : bytes_ok (str "charset")) by (repeat constructor). unfold Charset, default_charset.
  destruct params as [p|].
  - specialize (HB p eq_refl). destruct (parse_header_attributes p) as [d|] eqn:EP.
    + pose proof EP as EP2. apply parse_iff in EP2 as (fs & HA & _).
      assert (HL : forall gs v, AttributeList p gs -> (cookie_get d (str "charset") = Some v <-> First gs (str "charset") v))
        by (intros gs v HG; exact (c91_lookup p gs d _ v HB HK HG EP)).
      split.
      * intros [(p' & gs & E & HG & HF & HN)|[HF ->]].
        -- injection E as <-. apply (HL gs _ HG) in HF. rewrite HF. destruct cs; [congruence|reflexivity].
        -- destruct (cookie_get d (str "charset")) as [v|] eqn:EC; [|reflexivity].
           assert (v = []) as -> by (eapply HF; [reflexivity|exact HA|now apply (HL fs _ HA)]). reflexivity.
      * destruct (cookie_get d (str "charset")) as [[|x v]|] eqn:EC; intros ->.
        -- right. split; [|reflexivity]. intros p' gs v E HG HF. injection E as <-. apply (HL gs _ HG) in HF. congruence.
        -- left. exists p, fs. refine (conj eq_refl (conj HA (conj _ _))); [now apply (HL fs _ HA)|discriminate].
        -- right. split; [|reflexivity]. intros p' gs v E HG HF. injection E as <-. apply (HL gs _ HG) in HF. congruence.
    + assert (HNo : forall gs, ~ AttributeList p gs).
      { intros gs HG. assert (parse_header_attributes p <> None) as HC by (apply c91_accepts; eauto). congruence. }
      split.
      * intros [(p' & gs & E & HG & HF & HN)|[HF ->]]; [injection E as <-; exfalso; eapply HNo; eauto|reflexivity].
      * intros ->. right. split; [|reflexivity]. intros p' gs v E HG. injection E as <-. exfalso. eapply HNo; eauto.
  - split.
    + intros [(p' & gs & E & _)|[_ ->]]; [discriminate E|reflexivity].
    + intros ->. right. split; [|reflexivity]. intros p gs v E. discriminate E.
Qed.

Theorem c92_content_type : forall s media cs, bytes_ok s -> (content_type_parse s = (media, cs) <-> ContentTypeIs s media cs).
Proof.
  intros s media cs HB.
  assert (HP : forall p, after 59 s = Some p -> bytes_ok p) by (intros p; apply after_bytes; exact HB).
  unfold content_type_parse, ContentTypeIs. split.
  - intros H. exists (before 59 s), (trim_http_whitespace (before 59 s)), (after 59 s).
    refine (conj (cut_before 59 s) (conj (trim_spec _) _)).
    destruct (trim_http_whitespace (before 59 s)) as [|x t]; injection H as <- <-; [left; auto|].
    right. refine (conj _ (conj eq_refl _)); [discriminate|]. apply charset_iff; [exact HP|reflexivity].
  - intros (a & m & params & HC & HT & H). apply cut_unique in HC as [-> ->]. apply trim_iff in HT. subst m.
    destruct H as [(-> & -> & ->)|(HN & -> & HCS)]; [reflexivity|].
    apply (proj1 (charset_iff (after 59 s) cs HP)) in HCS. rewrite HCS. destruct (trim_http_whitespace (before 59 s)); [congruence|reflexivity].
Qed.
Example ex_content_type : ContentTypeIs (str " text/html ; q=1; Charset='x y'; charset=z") (str "text/html") (str "x y") /\
  ContentTypeIs (str ";charset=a") (str "application/octet-stream") (str "utf-8").
Proof. split; (apply c92_content_type; [repeat constructor|vm_compute; reflexivity]). Qed.

(** the container under any sequence of calls *)
Definition apply_op (h : hdrs) (o : hop) : hdrs :=
  match o with
  | Add n v => add_header h n v
  | Set_ n v => set_header h n v
  | SetType v => set_content_type h v
  | Remove n => remove_header h n
  end.

Lemma values_filter n m fs : values_of n (filter (other m) fs) = if beq (map lower m) (map lower n) then [] else values_of n fs.
Proof.
  unfold values_of, other. induction fs as [|f fs IH]; cbn [filter map]; [now destruct (beq _ _)|].
  destruct (beq (map lower (fst f)) (map lower m)) eqn:E1; cbn [negb].
  - rewrite IH. destruct (beq (map lower m) (map lower n)) eqn:E2; [reflexivity|].
    destruct (beq (map lower (fst f)) (map lower n)) eqn:E3; [|reflexivity]. apply beq_eq in E1, E3.
    rewrite <- E1 in E2. rewrite <- E3 in E2. rewrite (proj2 (beq_eq _ _) eq_refl) in E2. discriminate E2.
  - cbn [filter]. destruct (beq (map lower (fst f)) (map lower n)) eqn:E3; cbn [map]; rewrite IH; [|reflexivity].
    destruct (beq (map lower m) (map lower n)) eqn:E2; [|reflexivity]. apply beq_eq in E2, E3. exfalso.
    rewrite (proj2 (beq_eq _ _)) in E1; congruence.
Qed.
Lemma remove_map n h : bytes_ok n -> HeaderMap h -> HeaderMap (filter (fun e => negb (iequals (fst e) n)) h).
Proof.
  intros Hn [H1 H2]. split.
  - apply Forall_forall. intros e He. apply filter_In in He as [He _]. rewrite Forall_forall in H1. auto.
  - clear H1. induction h as [|e h IH]; cbn [filter map]; [constructor|]. inversion H2 as [|? ? H3 H4]; subst.
    destruct (negb (iequals (fst e) n)); [|auto]. cbn [map]. constructor; [|auto]. intros HI. apply H3.
    apply in_map_iff in HI as (f & E & Hf). apply filter_In in Hf as [Hf _]. apply in_map_iff. eauto.
Qed.
Lemma remove_values n m h : bytes_ok m -> HeaderMap h ->
  values_of n (fields_of (filter (fun e => negb (iequals (fst e) m)) h)) = if beq (map lower m) (map lower n) then [] else values_of n (fields_of h).
Proof.
  intros Hm [H1 _]. induction h as [|e h IH]; cbn [filter]; [now destruct (beq _ _)|]. inversion H1 as [|? ? (Hb & _ & _) H1']; subst.
  specialize (IH H1'). rewrite fields_cons, values_app, values_entry.
  destruct (iequals (fst e) m) eqn:E; cbn [negb].
  - apply (proj1 (iequals_spec _ _ Hb Hm)) in E. rewrite IH, E. destruct (beq (map lower m) (map lower n)); reflexivity.
  - rewrite fields_cons, values_app, values_entry, IH. destruct (beq (map lower m) (map lower n)) eqn:E2; [|reflexivity].
    destruct (beq (map lower (fst e)) (map lower n)) eqn:E3; [|reflexivity]. apply beq_eq in E2, E3.
    rewrite (proj2 (iequals_spec _ _ Hb Hm)) in E; [discriminate E|]. congruence.
Qed.

Definition ct_text (fs : list field) : list N := hd default_content_type (values_of (str "Content-Type") fs).
Definition HInv (h : hdrs) (fs : list field) : Prop :=
  HeaderMap (h_map h) /\ (forall n, values_of n (fields_of (h_map h)) = values_of n fs) /\ h_ct h = content_type_parse (ct_text fs).

Lemma ct_name n : bytes_ok n -> is_content_type_header n = beq (map lower n) (map lower (str "Content-Type")).
Proof.
  intros Hn. unfold is_content_type_header. pose proof (iequals_spec n (str "Content-Type") Hn ltac:(repeat constructor)) as H.
  pose proof (beq_eq (map lower n) (map lower (str "Content-Type"))) as HB.
  destruct (iequals n (str "Content-Type")), (beq (map lower n) (map lower (str "Content-Type"))); try reflexivity.
  - symmetry. apply HB. apply H. reflexivity.
  - apply H. apply HB. reflexivity.
Qed.

Lemma apply_inv h fs o : HInv h fs -> hop_ok o -> HInv (apply_op h o) (replay1 fs o).
Proof.
  assert (HCB : bytes_ok (str "Content-Type")) by (repeat constructor).
  assert (HSet : forall h fs n v, HInv h fs -> bytes_ok n -> bytes_ok v -> HInv (set_header h n v) (filter (other n) fs ++ [(n, v)])).
  { clear. intros h fs n v (H1 & H2 & H3) Hn Hv. refine (conj _ (conj _ _)); cbn [set_header h_map h_ct].
    - apply set_map; auto.
    - intros m. rewrite set_values by auto. rewrite values_app, values_filter, values_cons, H2.
      destruct (beq (map lower n) (map lower m)); [reflexivity|now rewrite app_nil_r].
    - rewrite ct_name by exact Hn. unfold ct_text. rewrite values_app, values_filter, values_cons.
      destruct (beq (map lower n) (map lower (str "Content-Type"))); [reflexivity|]. rewrite app_nil_r. exact H3. }
  intros HI Ho. destruct o as [n v|n v|v|n]; cbn [apply_op replay1 hop_ok] in *.
  - destruct Ho as [Hn Hv]. destruct HI as (H1 & H2 & H3). refine (conj _ (conj _ _)); cbn [add_header h_map h_ct].
    + apply add_map; auto.
    + intros m. rewrite add_values by auto. rewrite values_app, H2. reflexivity.
    + rewrite ct_name by exact Hn. unfold ct_text in *. rewrite values_app, values_cons.
      destruct (beq (map lower n) (map lower (str "Content-Type"))) eqn:EB; [|rewrite app_nil_r; exact H3].
      pose proof (find_header_values n _ Hn (add_map n v _ Hn Hv H1)) as HF. rewrite add_values in HF by auto.
      rewrite values_cons, (proj2 (beq_eq _ _) eq_refl), H2 in HF.
      apply beq_eq in EB. assert (HVE : values_of n fs = values_of (str "Content-Type") fs) by (unfold values_of; now rewrite EB).
      rewrite HVE in HF. destruct (find_header n (add_value n v (h_map h))) as [vs|].
      * destruct HF as [<- _]. destruct (values_of (str "Content-Type") fs) as [|x [|y r]]; cbn [app hd] in *; [reflexivity|exact H3|exact H3].
      * destruct (values_of (str "Content-Type") fs); discriminate HF.
  - destruct Ho as [Hn Hv]. apply HSet; assumption.
  - unfold set_content_type.
    assert (HE : set_header (mkH (h_map h) (content_type_parse v)) (str "Content-Type") v = set_header h (str "Content-Type") v).
    { unfold set_header. cbn [h_map h_ct]. rewrite ct_name by exact HCB. rewrite (proj2 (beq_eq _ _) eq_refl). reflexivity. }
    rewrite HE. apply HSet; assumption.
  - destruct HI as (H1 & H2 & H3). refine (conj _ (conj _ _)); cbn [remove_header h_map h_ct].
    + apply remove_map; assumption.
    + intros m. rewrite remove_values, values_filter by auto. rewrite H2. reflexivity.
    + rewrite ct_name by exact Ho. unfold ct_text in *. rewrite values_filter.
      destruct (beq (map lower n) (map lower (str "Content-Type"))); [reflexivity|exact H3].
Qed.

(** After any calls, header(n, i) is the i-th value of that name in the list of fields the calls describe, and
    content_type() is what the first Content-Type value says (the default if there is none). *)
Theorem c92_container : forall ops, Forall hop_ok ops ->
  let h := fold_left apply_op ops hdrs_new in let fs := replay ops in
  (forall n i fallback, bytes_ok n -> header_at h n i fallback = nth i (values_of n fs) fallback) /\
  ContentTypeIs (hd (str "application/octet-stream") (values_of (str "Content-Type") fs)) (fst (h_ct h)) (snd (h_ct h)).
Proof.
  intros ops HO h fs.
  assert (HI : HInv h fs /\ Forall (fun f => bytes_ok (snd f)) fs).
  { subst h fs. unfold replay.
    assert (H0 : HInv hdrs_new [] /\ Forall (fun f : field => bytes_ok (snd f)) []).
    { split; [|constructor]. refine (conj _ (conj _ _)); [split; constructor|reflexivity|reflexivity]. }
    revert H0. generalize hdrs_new ([] : list field). induction HO as [|o ops Ho HO IH]; intros h fs [H0 HV]; cbn [fold_left]; [auto|].
    apply IH. split; [apply apply_inv; assumption|].
    assert (HFl : forall m, Forall (fun f => bytes_ok (snd f)) (filter (other m) fs)).
    { intros m. apply Forall_forall. intros f Hf. apply filter_In in Hf as [Hf _]. rewrite Forall_forall in HV. auto. }
    destruct o; cbn [replay1 hop_ok] in *; rewrite ?Forall_app; repeat split; auto; try (constructor; [cbn [snd]; tauto|constructor]). }
  destruct HI as [(H1 & H2 & H3) HV]. split.
  - intros n i fb Hn. unfold header_at. pose proof (find_header_values n _ Hn H1) as HF. rewrite H2 in HF.
    destruct (find_header n (h_map h)) as [vs|].
    + destruct HF as [<- _]. destruct (nth_error (values_of n fs) i) as [v|] eqn:E.
      * symmetry. now apply nth_error_nth.
      * symmetry. apply nth_overflow. now apply nth_error_None.
    + rewrite HF. destruct i; reflexivity.
  - rewrite H3. change (ContentTypeIs (ct_text fs) (fst (content_type_parse (ct_text fs))) (snd (content_type_parse (ct_text fs)))).
    apply c92_content_type; [|apply surjective_pairing].
    unfold ct_text. assert (HVV : Forall bytes_ok (values_of (str "Content-Type") fs)).
    { unfold values_of. apply Forall_forall. intros v Hv. apply in_map_iff in Hv as (f & <- & Hf). apply filter_In in Hf as [Hf _].
      rewrite Forall_forall in HV. auto. }
    destruct (values_of (str "Content-Type") fs); cbn [hd]; [repeat constructor|now inversion HVV].
Qed.
Example ex_container :
  let ops := [Add (str "X") (str "1"); SetType (str "text/plain"); Add (str "x") (str "2"); Add (str "content-type") (str "b/c");
              Remove (str "CONTENT-TYPE"); Add (str "Content-type") (str "a/b;charset=k")] in
  Forall hop_ok ops /\ header_at (fold_left apply_op ops hdrs_new) (str "X") 1 [] = str "2" /\
  h_ct (fold_left apply_op ops hdrs_new) = (str "a/b", str "k").
Proof. refine (conj _ (conj _ _)); [repeat constructor|vm_compute; reflexivity|vm_compute; reflexivity]. Qed.

(** ** C93: choosing a content coding *)
Lemma qvalue_iff t m : trim_http_whitespace t = t -> (parse_qvalue_milli t = Some m <-> QValue t m).
Proof.
  intros HT. unfold parse_qvalue_milli. rewrite HT. split.
  - destruct (beq t (str "1") || beq t (str "1.0") || beq t (str "1.00") || beq t (str "1.000")) eqn:E.
    + intros H. injection H as <-. rewrite !orb_true_iff in E. destruct E as [[[E|E]|E]|E]; apply beq_eq in E; subst t.
      * exact (qv_one 0 ltac:(lia)).
      * exact (qv_one 1 ltac:(lia)).
      * exact (qv_one 2 ltac:(lia)).
      * exact (qv_one 3 ltac:(lia)).
    + clear E HT. destruct t as [|x [|y [|a r]]]; [discriminate| | |].
      * destruct (N.eqb_spec x 48) as [->|Hx]; [intros H; injection H as <-; constructor|].
        intros H. exfalso. destruct x as [|p]; [discriminate H|]. repeat (destruct p as [p|p|]; try discriminate H). congruence.
      * intros H. exfalso. destruct x as [|p]; [discriminate H|]. repeat (destruct p as [p|p|]; try discriminate H).
        destruct y as [|p]; [discriminate H|]. repeat (destruct p as [p|p|]; try discriminate H).
      * destruct (N.eqb_spec x 48) as [->|Hx]; [|intros H; exfalso; destruct x as [|p]; [discriminate H|]; repeat (destruct p as [p|p|]; try discriminate H); congruence].
        destruct (N.eqb_spec y 46) as [->|Hy]; [|intros H; exfalso; destruct y as [|p]; [discriminate H|]; repeat (destruct p as [p|p|]; try discriminate H); congruence].
        cbn [qdigits]. change (0 <? 100) with true. change (100 / 10) with 10. cbn iota.
        destruct ((a <? 48) || (57 <? a)) eqn:Ea; [discriminate|]. destruct r as [|b r].
        { intros H. cbn [qdigits] in H. injection H as <-. replace a with (48 + (a - 48)) at 1 by lia. replace (0 + (a - 48) * 100) with (100 * (a - 48)) by lia.
          apply qv_1. lia. }
        cbn [qdigits]. change (0 <? 10) with true. change (10 / 10) with 1. cbn iota.
        destruct ((b <? 48) || (57 <? b)) eqn:Eb; [discriminate|]. destruct r as [|c r].
        { intros H. cbn [qdigits] in H. injection H as <-. replace a with (48 + (a - 48)) at 1 by lia. replace b with (48 + (b - 48)) at 1 by lia.
          replace (0 + (a - 48) * 100 + (b - 48) * 10) with (100 * (a - 48) + 10 * (b - 48)) by lia. apply qv_2; lia. }
        cbn [qdigits]. change (0 <? 1) with true. change (1 / 10) with 0. cbn iota.
        destruct ((c <? 48) || (57 <? c)) eqn:Ec; [discriminate|]. destruct r as [|d r].
        { intros H. cbn [qdigits] in H. injection H as <-. replace a with (48 + (a - 48)) at 1 by lia. replace b with (48 + (b - 48)) at 1 by lia.
          replace c with (48 + (c - 48)) at 1 by lia.
          replace (0 + (a - 48) * 100 + (b - 48) * 10 + (c - 48) * 1) with (100 * (a - 48) + 10 * (b - 48) + (c - 48)) by lia. apply qv_3; lia. }
        cbn [qdigits]. change (0 <? 0) with false. cbn iota. destruct ((d <? 48) || (57 <? d)); discriminate.
  - assert (HB : forall r, match r with 46 :: _ => True | [] => True | _ => False end -> beq (48 :: r) (str "1") || beq (48 :: r) (str "1.0") || beq (48 :: r) (str "1.00") || beq (48 :: r) (str "1.000") = false).
    { intros r _. rewrite !orb_false_iff. repeat split; (apply not_true_is_false; intros E; apply beq_eq in E; discriminate E). }
    intros H. inversion H as [k Hk| |a Ha|a b Ha Hb|a b c Ha Hb Hc]; subst.
    + destruct k as [|[|[|[|k]]]]; [reflexivity..|lia].
    + reflexivity.
    + rewrite (HB [46; 48 + a] I). cbn [qdigits]. change (0 <? 100) with true. replace ((48 + a <? 48) || (57 <? 48 + a)) with false by lia. f_equal. lia.
    + rewrite (HB [46; 48 + a; 48 + b] I). cbn [qdigits]. change (0 <? 100) with true. change (100 / 10) with 10. change (0 <? 10) with true.
      replace ((48 + a <? 48) || (57 <? 48 + a)) with false by lia. replace ((48 + b <? 48) || (57 <? 48 + b)) with false by lia. f_equal. lia.
    + rewrite (HB [46; 48 + a; 48 + b; 48 + c] I). cbn [qdigits]. change (0 <? 100) with true. change (100 / 10) with 10. change (0 <? 10) with true.
      change (10 / 10) with 1. change (0 <? 1) with true.
      replace ((48 + a <? 48) || (57 <? 48 + a)) with false by lia. replace ((48 + b <? 48) || (57 <? 48 + b)) with false by lia.
      replace ((48 + c <? 48) || (57 <? 48 + c)) with false by lia. f_equal. lia.
Qed.

Lemma pieces_cut d s : pieces d s = cut d s.
Proof. induction s as [|c s IH]; cbn [pieces cut]; [reflexivity|]. destruct (c =? d); now rewrite IH. Qed.
Lemma trim_idem s : trim_http_whitespace (trim_http_whitespace s) = trim_http_whitespace s.
Proof.
  symmetry. apply trim_iff. destruct (trim_spec s) as (a & b & _ & _ & _ & H1 & H2). exists [], [].
  rewrite app_nil_r. refine (conj eq_refl (conj (Forall_nil _) (conj (Forall_nil _) (conj H1 H2)))).
Qed.
Lemma trim_bytes s : bytes_ok s -> bytes_ok (trim_http_whitespace s).
Proof. destruct (trim_spec s) as (a & b & E & _). unfold bytes_ok. rewrite E at 1. rewrite !Forall_app. tauto. Qed.
Lemma before_bytes d s : bytes_ok s -> bytes_ok (before d s).
Proof. unfold bytes_ok. induction 1 as [|c s Hc Hs IH]; cbn [before]; [constructor|]. destruct (c =? d); constructor; auto. Qed.

Definition qparam (p : list N) : option (list N) :=
  let param := trim_http_whitespace p in
  match after 61 param with
  | None => None
  | Some v => if iequals (trim_http_whitespace (before 61 param)) (str "q") then Some (trim_http_whitespace v) else None
  end.
Lemma qparam_iff p t : bytes_ok p -> (QParam p t <-> qparam p = Some t).
Proof.
  intros HB. unfold QParam, qparam.
  assert (HK : bytes_ok (trim_http_whitespace (before 61 (trim_http_whitespace p)))) by auto using trim_bytes, before_bytes.
  split.
  - intros (u & k & v & HU & HC & (k' & HK' & HS) & HT). apply trim_iff in HU, HK', HT. subst u k' t.
    apply cut_unique in HC as [-> HC]. rewrite <- HC.
    rewrite (proj2 (iequals_spec _ (str "q") HK ltac:(repeat constructor)) HS). reflexivity.
  - destruct (after 61 (trim_http_whitespace p)) as [v|] eqn:EA; [|discriminate].
    destruct (iequals _ (str "q")) eqn:EI; [|discriminate]. intros H. injection H as <-.
    exists (trim_http_whitespace p), (before 61 (trim_http_whitespace p)), v.
    refine (conj (trim_spec _) (conj _ (conj _ (trim_spec _)))).
    + rewrite <- EA. apply cut_before.
    + exists (trim_http_whitespace (before 61 (trim_http_whitespace p))). split; [apply trim_spec|].
      exact (proj1 (iequals_spec _ (str "q") HK ltac:(repeat constructor)) EI).
Qed.
Lemma q_of_params_eq ps : q_of_params ps =
  match find (fun p => match qparam p with Some _ => true | None => false end) ps with
  | None => 1000
  | Some p => match qparam p with Some t => match parse_qvalue_milli t with Some q => q | None => 0 end | None => 1000 end
  end.
Proof.
  induction ps as [|p r IH]; cbn [q_of_params find]; [reflexivity|].
  destruct (qparam p) as [t|] eqn:EQ.
  - cbn iota. rewrite EQ. unfold qparam in EQ. destruct (after 61 (trim_http_whitespace p)) as [v|]; [|discriminate EQ].
    destruct (iequals _ (str "q")); [injection EQ as <-; reflexivity|discriminate EQ].
  - cbn iota. unfold qparam in EQ. destruct (after 61 (trim_http_whitespace p)) as [v|]; [|exact IH].
    destruct (iequals _ (str "q")); [discriminate EQ|exact IH].
Qed.
Lemma find_split {A} (f : A -> bool) l x : find f l = Some x -> exists a b, l = a ++ x :: b /\ f x = true /\ Forall (fun y => f y = false) a.
Proof.
  induction l as [|y l IH]; cbn [find]; [discriminate|]. destruct (f y) eqn:E.
  - intros H. injection H as <-. exists [], l. auto.
  - intros H. destruct (IH H) as (a & b & -> & H1 & H2). exists (y :: a), b. auto.
Qed.
Lemma cut_bytes d s : bytes_ok s -> Forall bytes_ok (cut d s).
Proof.
  intros H. induction s as [|c r IH]; cbn [cut]; [repeat constructor|]. inversion H; subst. destruct (c =? d); [constructor; [constructor|auto]|].
  specialize (IH ltac:(auto)). destruct (cut d r) as [|h t]; [repeat constructor; auto|]. inversion IH; subst. constructor; [constructor; auto|auto].
Qed.

Definition weight_of (params : option (list N)) : N :=
  match params with None => 1000 | Some p => q_of_params (cut 59 p) end.
Lemma weight_iff params q : (forall p, params = Some p -> bytes_ok p) -> (Weight params q <-> q = weight_of params).
Proof.
  intros HB. unfold Weight, weight_of. destruct params as [p|].
  2:{ split; [intros [(p & a & x & b & t & E & _)|[-> _]]; [discriminate E|reflexivity]|]. intros ->. right. split; [reflexivity|]. intros; discriminate. }
  specialize (HB p eq_refl). pose proof (cut_bytes 59 p HB) as HCB. destruct (cut_spec 59 p) as [HI HN].
  assert (HU : forall l, p = intercalate [59] l -> l <> [] -> Forall (fun y => ~ In 59 y) l -> l = cut 59 p)
    by (intros l -> Hne Hl; symmetry; apply cut_intercalate; assumption).
  rewrite q_of_params_eq.
  destruct (find (fun p => match qparam p with Some _ => true | None => false end) (cut 59 p)) as [x|] eqn:EF.
  - destruct (find_split _ _ _ EF) as (a & b & EC & Hx & Ha). destruct (qparam x) as [t|] eqn:Et; [|discriminate Hx].
    rewrite EC in HCB. apply Forall_app in HCB as [HA HB2]. inversion HB2 as [|? ? HX HB3]; subst.
    assert (Htt : trim_http_whitespace t = t).
    { unfold qparam in Et. destruct (after 61 _); [|discriminate]. destruct (iequals _ _); [|discriminate]. injection Et as <-. apply trim_idem. }
    assert (HQ : forall q', QValue t q' <-> parse_qvalue_milli t = Some q') by (intros; symmetry; apply qvalue_iff; exact Htt).
    split.
    + intros [(p' & a' & x' & b' & t' & E & HI' & HN' & HA' & HX' & HV)|[-> HNo]].
      * injection E as <-. apply HU in HI'; [|destruct a'; discriminate|exact HN']. rewrite EC in HI'.
        assert (a' = a /\ x' = x) as [-> ->].
        { clear - HI' HA HX Ha Hx HA' HX' Et HB3. revert a' HI' HA'. induction a as [|y a IH]; intros [|y' a'] E HA'; cbn [app] in E.
          - injection E as <- <-. auto.
          - injection E as <- _. inversion HA' as [|? ? Hy _]; subst. exfalso. apply (Hy t). apply qparam_iff; auto.
          - injection E as -> E. inversion HA as [|? ? HAy HAr]; subst. inversion Ha as [|? ? Hy0 Har]; subst.
            apply qparam_iff in HX'; [|assumption]. rewrite HX' in Hy0. discriminate Hy0.
          - injection E as -> E. inversion HA; subst. inversion Ha; subst. inversion HA'; subst. destruct (IH ltac:(auto) ltac:(auto) a' E ltac:(auto)) as [-> ->]. auto. }
        apply qparam_iff in HX'; [|assumption]. rewrite Et in HX'. injection HX' as <-.
        destruct HV as [HV|[-> HV]]; [apply HQ in HV; now rewrite HV|].
        destruct (parse_qvalue_milli t) as [q'|] eqn:EQ; [exfalso; apply (HV q'); now apply HQ|reflexivity].
      * exfalso. apply (HNo p a x b t eq_refl); [now rewrite <- EC|rewrite <- EC; exact HN|]. apply qparam_iff; assumption.
    + intros ->. left. exists p, a, x, b, t. rewrite <- EC. refine (conj eq_refl (conj (eq_sym HI) (conj HN (conj _ (conj _ _))))).
      * rewrite Forall_forall in *. intros y Hy t' HQP. specialize (Ha y Hy). specialize (HA y Hy). apply qparam_iff in HQP; [|assumption].
        rewrite HQP in Ha. discriminate Ha.
      * apply qparam_iff; assumption.
      * destruct (parse_qvalue_milli t) as [q'|] eqn:EQ; [left; now apply HQ|]. right. split; [reflexivity|].
        intros q' HV. apply HQ in HV. discriminate HV.
  - assert (HNo : forall x t, In x (cut 59 p) -> ~ QParam x t).
    { intros x t Hx HQP. pose proof (find_none _ _ EF x Hx) as HF. cbn beta in HF. rewrite Forall_forall in HCB.
      apply qparam_iff in HQP; [|auto]. rewrite HQP in HF. discriminate HF. }
    split.
    + intros [(p' & a' & x' & b' & t' & E & HI' & HN' & HA' & HX' & HV)|[-> _]]; [|reflexivity].
      injection E as <-. apply HU in HI'; [|destruct a'; discriminate|exact HN']. exfalso. apply (HNo x' t'); [|exact HX'].
      rewrite <- HI'. apply in_or_app. right. now left.
    + intros ->. right. split; [reflexivity|]. intros p' a' x' b' t' E HI' HN' HX'. injection E as <-.
      apply HU in HI'; [|destruct a'; discriminate|exact HN']. apply (HNo x' t'); [|exact HX']. rewrite <- HI'. apply in_or_app. right. now left.
Qed.

(** one element as the code reads it *)
Definition elem (t : list N) : list N * N :=
  let full := trim_http_whitespace t in
  (match after 59 full with None => full | Some _ => trim_http_whitespace (before 59 full) end, parse_accept_encoding_q full).
Lemma before_none d s : after d s = None -> before d s = s.
Proof. induction s as [|c s IH]; cbn [after before]; [reflexivity|]. destruct (c =? d); [discriminate|]. intros H. now rewrite IH. Qed.
Lemma elem_iff t n q : bytes_ok t -> (Element t n q <-> (n, q) = elem t).
Proof.
  intros HB. unfold Element, elem. set (u := trim_http_whitespace t).
  assert (HBu : bytes_ok u) by (apply trim_bytes; exact HB).
  assert (HN : match after 59 u with None => u | Some _ => trim_http_whitespace (before 59 u) end = trim_http_whitespace (before 59 u)).
  { destruct (after 59 u) eqn:E; [reflexivity|]. rewrite before_none by exact E. symmetry. apply trim_idem. }
  assert (HQ : parse_accept_encoding_q u = weight_of (after 59 u)).
  { unfold parse_accept_encoding_q, weight_of. destruct (after 59 u); [now rewrite pieces_cut|reflexivity]. }
  assert (HP : forall p, after 59 u = Some p -> bytes_ok p) by (intros p; apply after_bytes; exact HBu).
  rewrite HN, HQ. split.
  - intros (u' & a & params & HU & HC & HT & HW). apply trim_iff in HU, HT. subst u'. fold u in HC. apply cut_unique in HC as [-> ->].
    apply weight_iff in HW; [|exact HP]. now subst.
  - intros E. injection E as -> ->. exists u, (before 59 u), (after 59 u).
    refine (conj (trim_spec t) (conj (cut_before _ _) (conj (trim_spec _) _))). apply weight_iff; [exact HP|reflexivity].
Qed.

Lemma same_star a : SameName (str "*") a -> a = str "*".
Proof.
  unfold SameName. destruct a as [|y [|z a]]; cbn [map]; [discriminate| |discriminate].
  intros H. assert (E : lower 42 = lower y) by (apply (f_equal (hd 0)) in H; exact H).
  change (lower 42) with 42 in E. unfold lower in E. destruct ((65 <=? y) && (y <=? 90)) eqn:EL; [lia|]. now subst y.
Qed.
Lemma negotiate_app algos : forall ts disabled, negotiate algos disabled ts =
  match ts with
  | [] => []
  | t :: r =>
      let '(name, q) := elem t in
      if q =? 0 then negotiate algos (match name with [] => disabled | _ => if beq name (str "*") then disabled else disabled ++ [name] end) r
      else match name with
           | [] => negotiate algos disabled r
           | _ => if beq name (str "*") then
                    match find (fun a => negb (existsb (fun n => iequals n a) disabled)) algos with
                    | Some a => a | None => negotiate algos disabled r end
                  else match find (fun a => iequals a name) algos with Some a => a | None => negotiate algos disabled r end
           end
  end.
Proof. destruct ts; reflexivity. Qed.

Lemma tokens_bytes p ts s : Tokens p ts s -> bytes_ok s -> Forall bytes_ok ts.
Proof.
  unfold bytes_ok. induction 1 as [|d ts s Hd _ IH|t Hne Ht|t d ts s Hne Ht Hd _ IH]; intros HB.
  - constructor.
  - inversion HB; subst. auto.
  - constructor; [exact HB|constructor].
  - apply Forall_app in HB as [H1 H2]. inversion H2; subst. constructor; auto.
Qed.

Definition Named (a : list N) (e : list N * N) : Prop := SameName (fst e) a.
(** an element asks for coding a: by name, or by the wildcard unless an element before it excludes a *)
Definition Asks (before : list (list N * N)) (e : list N * N) (a : list N) : Prop :=
  snd e <> 0 /\ (fst e <> str "*" /\ Named a e \/ fst e = str "*" /\ ~ exists x, In x before /\ snd x = 0 /\ Named a x).

(** The coding chosen is a supported one the first element that asks for a supported one asks for; none is
    chosen when no element asks for a supported one. *)
Theorem c93_first_request : forall algos s es, bytes_ok s -> Forall (fun a => bytes_ok a /\ a <> [] /\ a <> str "*") algos -> Accepts s es ->
  let r := content_encoding algos s in
  (r <> [] /\ In r algos /\ exists pre e post, es = pre ++ e :: post /\ Asks pre e r /\
     forall p1 x p2 a, pre = p1 ++ x :: p2 -> In a algos -> ~ Asks p1 x a) \/
  (r = [] /\ forall pre x post a, es = pre ++ x :: post -> In a algos -> ~ Asks pre x a).
Proof.
  intros algos s es HB HAl (ts & HT & HE).
  assert (HTs : split_string_set s (str ",") = Some ts).
  { destruct (split_string_ok s (fun c => existsb (fun x => c =? x) [44])) as (ts' & E & T).
    change (split_string_set s (str ",")) with (split_string s (fun c => existsb (fun x => c =? x) [44])). rewrite E. f_equal.
    assert (T2 : Tokens (fun c => existsb (fun x => c =? x) [44]) ts s).
    { clear - HT. induction HT as [|d ts s Hd _ IH|t Hne Ht|t d ts s Hne Ht Hd _ IH].
      - apply tok_nil.
      - apply tok_delim; [cbn [existsb]; lia|exact IH].
      - apply tok_last; [exact Hne|]. revert Ht. apply Forall_impl. intros c H. cbn [existsb]. lia.
      - apply tok_more; [exact Hne| |cbn [existsb]; lia|exact IH]. revert Ht. apply Forall_impl. intros c H. cbn [existsb]. lia. }
    rewrite (tokens_cut 44 ts s T2). apply tokens_cut. exact T. }
  cbn zeta. unfold content_encoding. rewrite HTs.
  pose proof (tokens_bytes _ _ _ HT HB) as HBt. clear HT HTs s HB.
  (* generalise: elements already read *)
  assert (G : forall ts es done disabled, Forall bytes_ok ts -> Forall2 (fun t e => Element t (fst e) (snd e)) ts es ->
     Forall bytes_ok disabled ->
     (forall a, In a algos -> (existsb (fun n => iequals n a) disabled = true <-> exists x, In x done /\ snd x = 0 /\ Named a x)) ->
     let r := negotiate algos disabled ts in
     (r <> [] /\ In r algos /\ exists pre e post, es = pre ++ e :: post /\ Asks (done ++ pre) e r /\
        forall p1 x p2 a, pre = p1 ++ x :: p2 -> In a algos -> ~ Asks (done ++ p1) x a) \/
     (r = [] /\ forall pre x post a, es = pre ++ x :: post -> In a algos -> ~ Asks (done ++ pre) x a)).
  2:{ specialize (G ts es [] [] HBt HE ltac:(constructor)). apply G. intros a _. cbn [existsb]. split; [discriminate|]. intros (x & [] & _). }
  clear ts es HE HBt. induction ts as [|t ts IH]; intros es done disabled HBt HE HD HDis; inversion HE as [|? e ? es' He HE']; subst; cbn zeta.
  - right. split; [reflexivity|]. intros pre x post a E. destruct pre; discriminate E.
  - inversion HBt as [|? ? Hbt HBt']; subst. destruct e as [name q]. cbn [fst snd] in He. apply elem_iff in He; [|exact Hbt].
    rewrite negotiate_app. rewrite <- He. cbn zeta iota.
    assert (HBn : bytes_ok name).
    { unfold elem in He. injection He as -> _. destruct (after 59 _); auto using trim_bytes, before_bytes. }
    assert (HCont : forall disabled', Forall bytes_ok disabled' ->
       (forall a, In a algos -> (existsb (fun n => iequals n a) disabled' = true <-> exists x, In x (done ++ [(name, q)]) /\ snd x = 0 /\ Named a x)) ->
       (forall a, In a algos -> ~ Asks done (name, q) a) ->
       let r := negotiate algos disabled' ts in
       (r <> [] /\ In r algos /\ exists pre e post, (name, q) :: es' = pre ++ e :: post /\ Asks (done ++ pre) e r /\
          forall p1 x p2 a, pre = p1 ++ x :: p2 -> In a algos -> ~ Asks (done ++ p1) x a) \/
       (r = [] /\ forall pre x post a, (name, q) :: es' = pre ++ x :: post -> In a algos -> ~ Asks (done ++ pre) x a)).
    { intros disabled' HD' HDis' HNo. cbn zeta. destruct (IH es' (done ++ [(name, q)]) disabled' HBt' HE' HD' HDis') as [(R1 & R2 & pre & e & post & E1 & E2 & E3)|(R1 & R2)].
      - left. refine (conj R1 (conj R2 _)). exists ((name, q) :: pre), e, post. rewrite <- app_assoc in E2. cbn [app] in *. subst es'.
        refine (conj eq_refl (conj E2 _)). intros p1 x p2 a E Ha. destruct p1 as [|y p1]; cbn [app] in E.
        + injection E as <- _. rewrite app_nil_r. auto.
        + injection E as <- E. specialize (E3 p1 x p2 a E Ha). rewrite <- app_assoc in E3. exact E3.
      - right. refine (conj R1 _). intros pre x post a E Ha. destruct pre as [|y pre]; cbn [app] in E.
        + injection E as <- _. rewrite app_nil_r. auto.
        + injection E as <- E. specialize (R2 pre x post a E Ha). rewrite <- app_assoc in R2. exact R2. }
    rewrite Forall_forall in HAl.
    assert (HSame : forall a n, In a algos -> bytes_ok n -> (iequals n a = true <-> SameName n a)).
    { intros a n Ha Hn. destruct (HAl a Ha) as (A1 & _). apply iequals_spec; assumption. }
    assert (HKeep : (forall a, In a algos -> ~ (q = 0 /\ SameName name a)) -> forall a, In a algos ->
       (existsb (fun n => iequals n a) disabled = true <-> exists x, In x (done ++ [(name, q)]) /\ snd x = 0 /\ Named a x)).
    { intros HN a Ha. rewrite (HDis a Ha). split; intros (x & X1 & X2 & X3).
      - exists x. split; [apply in_or_app; now left|auto].
      - apply in_app_or in X1 as [X1|[<-|[]]]; [exists x; auto|]. exfalso. apply (HN a Ha). cbn [snd] in X2. auto. }
    destruct (q =? 0) eqn:Eq.
    + assert (q = 0) as -> by lia.
      assert (HNA : forall a, In a algos -> ~ Asks done (name, 0) a) by (intros a _ [H _]; apply H; reflexivity).
      destruct name as [|n0 name'] eqn:EN.
      * apply HCont; auto. apply HKeep. intros a Ha [_ HS]. unfold SameName in HS. cbn in HS. destruct a; [|discriminate HS].
        destruct (HAl [] Ha) as (_ & A2 & _). congruence.
      * rewrite <- EN in *. destruct (beq name (str "*")) eqn:EW.
        -- apply beq_eq in EW. apply HCont; auto. apply HKeep. intros a Ha [_ HS]. rewrite EW in HS. apply same_star in HS.
           destruct (HAl a Ha) as (_ & _ & A3). contradiction.
        -- apply HCont; [apply Forall_app; split; [exact HD|constructor; [exact HBn|constructor]]| |exact HNA].
           intros a Ha. rewrite existsb_app, orb_true_iff, (HDis a Ha). cbn [existsb]. rewrite orb_false_r, (HSame a name Ha HBn). split.
           ++ intros [(x & X1 & X2 & X3)|HS]; [exists x; split; [apply in_or_app; now left|auto]|].
              exists (name, 0). split; [apply in_or_app; right; now left|]. split; [reflexivity|exact HS].
           ++ intros (x & X1 & X2 & X3). apply in_app_or in X1 as [X1|[<-|[]]]; [left; eauto|right; exact X3].
    + assert (Hq : q <> 0) by lia. destruct name as [|n0 name'] eqn:EN.
      * apply HCont; auto.
        -- apply HKeep. intros a Ha [H _]. contradiction.
        -- intros a Ha [_ [[_ HS]|[HS _]]]; [|discriminate HS]. unfold Named, SameName in HS. cbn in HS. destruct a; [|discriminate HS].
           destruct (HAl [] Ha) as (_ & A2 & _). congruence.
      * rewrite <- EN in *. clear n0 name' EN. destruct (beq name (str "*")) eqn:EW.
        -- apply beq_eq in EW. destruct (find _ algos) as [a|] eqn:EF.
           ++ apply find_some in EF as [Ha Hn]. destruct (HAl a Ha) as (A1 & A2 & A3). left. refine (conj A2 (conj Ha _)).
              exists [], (name, q), es'. refine (conj eq_refl (conj _ _)); [|intros p1 x p2 b E; destruct p1; discriminate E].
              rewrite app_nil_r. split; [exact Hq|]. right. split; [exact EW|]. intros HX. apply (HDis a Ha) in HX. rewrite HX in Hn. discriminate Hn.
           ++ apply HCont; auto.
              ** apply HKeep. intros a Ha [H _]. contradiction.
              ** intros a Ha [_ [[HS _]|[_ HS]]]; [cbn [fst] in HS; contradiction|]. apply HS. apply (HDis a Ha).
                 pose proof (find_none _ _ EF a Ha) as HF. cbn beta in HF. now apply negb_false_iff in HF.
        -- assert (HNS : name <> str "*") by (intros ->; rewrite (proj2 (beq_eq _ _) eq_refl) in EW; discriminate EW).
           destruct (find _ algos) as [a|] eqn:EF.
           ++ apply find_some in EF as [Ha Hn]. destruct (HAl a Ha) as (A1 & A2 & A3). left. refine (conj A2 (conj Ha _)).
              exists [], (name, q), es'. refine (conj eq_refl (conj _ _)); [|intros p1 x p2 b E; destruct p1; discriminate E].
              rewrite app_nil_r. split; [exact Hq|]. left. split; [exact HNS|]. unfold Named, SameName. cbn [fst]. symmetry.
              apply (proj1 (iequals_spec _ _ A1 HBn)). exact Hn.
           ++ apply HCont; auto.
              ** apply HKeep. intros a Ha [H _]. contradiction.
              ** intros a Ha [_ [[_ HS]|[HS _]]]; [|contradiction]. destruct (HAl a Ha) as (A1 & _).
                 pose proof (find_none _ _ EF a Ha) as HF. cbn beta in HF. unfold Named, SameName in HS. cbn [fst] in HS. symmetry in HS.
                 apply (proj2 (iequals_spec _ _ A1 HBn)) in HS. congruence.
Qed.

Lemma algos_ok : Forall (fun a => bytes_ok a /\ a <> [] /\ a <> str "*") [str "gzip"; str "deflate"].
Proof. repeat constructor; try (vm_compute; reflexivity); vm_compute; discriminate. Qed.
(** The hypotheses are met. *)
Example ex_accepts : Accepts (str "gzip;q=0, *") [(str "gzip", 0); (str "*", 1000)].
Proof.
  exists [str "gzip;q=0"; str " *"]. split.
  - apply tok_more with (t := str "gzip;q=0") (d := 44) (s := str " *"); [vm_compute; discriminate| |reflexivity|].
    + repeat constructor.
    + apply tok_last; [vm_compute; discriminate|repeat constructor].
  - repeat constructor; cbn [fst snd]; apply elem_iff; try reflexivity; repeat constructor.
Qed.
Example ex_encoding : content_encoding [str "gzip"; str "deflate"] (str "gzip;q=0, *") = str "deflate" /\
  content_encoding [str "gzip"; str "deflate"] (str "br, identity") = [].
Proof. split; vm_compute; reflexivity. Qed.

(** Two wished-for properties that fail.  A coding the peer excludes is never chosen: *)
Definition NeverExcluded := forall algos s es a, Accepts s es -> content_encoding algos s = a -> a <> [] ->
  ~ exists x, In x es /\ snd x = 0 /\ Named a x.
Theorem c93_excluded_refuted : ~ NeverExcluded.
Proof.
  intros H. apply (H [str "gzip"; str "deflate"] (str "*, gzip;q=0") [(str "*", 1000); (str "gzip", 0)] (str "gzip")).
  - exists [str "*"; str " gzip;q=0"]. split.
    + apply tok_more with (t := str "*") (d := 44) (s := str " gzip;q=0"); [vm_compute; discriminate|repeat constructor|reflexivity|].
      apply tok_last; [vm_compute; discriminate|repeat constructor].
    + repeat constructor; cbn [fst snd]; apply elem_iff; try reflexivity; repeat constructor.
  - vm_compute; reflexivity.
  - vm_compute; discriminate.
  - exists (str "gzip", 0). split; [right; now left|split; reflexivity].
Qed.
(** and the coding chosen is one the peer weights highest among the supported ones it names: *)
Definition Preferred := forall algos s es a, Accepts s es -> content_encoding algos s = a -> a <> [] ->
  forall x y b, In x es -> Named a x -> In y es -> In b algos -> Named b y -> snd y <= snd x.
Theorem c93_preference_refuted : ~ Preferred.
Proof.
  intros H. assert (C : 1000 <= 100); [|vm_compute in C; apply C; reflexivity].
  apply (H [str "gzip"; str "deflate"] (str "deflate;q=0.1, gzip") [(str "deflate", 100); (str "gzip", 1000)] (str "deflate")) with
    (x := (str "deflate", 100)) (y := (str "gzip", 1000)) (b := str "gzip").
  - exists [str "deflate;q=0.1"; str " gzip"]. split.
    + apply tok_more with (t := str "deflate;q=0.1") (d := 44) (s := str " gzip"); [vm_compute; discriminate|repeat constructor|reflexivity|].
      apply tok_last; [vm_compute; discriminate|repeat constructor].
    + repeat constructor; cbn [fst snd]; apply elem_iff; try reflexivity; repeat constructor.
  - vm_compute; reflexivity.
  - vm_compute; discriminate.
  - now left.
  - reflexivity.
  - right; now left.
  - now left.
  - reflexivity.
Qed.
Print Assumptions c93_first_request.
Print Assumptions c93_excluded_refuted.
Print Assumptions c93_preference_refuted.
Print Assumptions c91_accepts.
Print Assumptions c91_lookup.
Print Assumptions c91_unambiguous.
Print Assumptions c91_clean.
Print Assumptions c92_content_type.
Print Assumptions c92_container.
