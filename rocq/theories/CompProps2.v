(** Properties C120-C123: the body loops, the response hook and the request side. *)
From Verif Require Import Base UtilModel UtilSpec UtilProofs StaticModel Http1Model Http1Spec Http1Proofs RecvModel RecvInv WsSession HdrModel HdrSpec HdrProofs HdrProps HeaderOps CorsSpec CompModel CompSpec CompProps.
From Coq Require Import ZifyBool ZifyN.
Local Open Scope N_scope.

Lemma len_app a b : len (a ++ b) = len a + len b.
Proof. unfold len. rewrite app_length. lia. Qed.

(** ** C120 *)
Lemma compress_loop_spec P full : Compressor (p_call P) full -> forall fuel st n input out buffer total,
  total = out ++ full st input -> len out = buffer -> (input = [] -> n + 32 <= buffer) ->
  match compress_loop fuel P st n input out buffer with
  | Returned out' _ => exists rest, total = out' ++ rest /\ (rest = [] \/ n + 32 <= len out')
  | Threw b _ => b = true
  | Spinning => N.of_nat fuel + len out <= len total
  end.
Proof.
  intros HC. induction fuel as [|f IH]; intros st n input out buffer total Ht Ho Hi.
  - destruct input as [|c input]; cbn [compress_loop]; [exists (full st []); split; [exact Ht|right; rewrite Ho; auto]|]. rewrite Ht, len_app. lia.
  - destruct input as [|c input]; cbn [compress_loop]; [exists (full st []); split; [exact Ht|right; rewrite Ho; auto]|].
    destruct (p_call P st (c :: input) (buffer + (n + 32) - len out)) as [[[[st' o] used] done]|] eqn:E; [|reflexivity].
    destruct (HC _ _ _ _ _ _ _ E) as (H1 & H2 & H3 & H4 & H5). destruct done.
    + exists []. split; [|now left]. rewrite Ht, H3, !app_nil_r. reflexivity.
    + specialize (H5 eq_refl). specialize (IH st' n (skipn (N.to_nat used) (c :: input)) (out ++ o) (buffer + (n + 32)) total).
      assert (HL : len (out ++ o) = buffer + (n + 32)) by (rewrite len_app; unfold len in *; lia).
      specialize (IH ltac:(rewrite Ht, H3, app_assoc; reflexivity) HL ltac:(intros; lia)).
      destruct (compress_loop f P st' n _ (out ++ o) (buffer + (n + 32))) as [o' b|b bb|]; [exact IH|exact IH|]. rewrite HL in IH. lia.
Qed.

Definition codes (make : list N -> option provider) := Codes p_state p_init p_call make.
Definition decodes (make : list N -> option provider) := Decodes p_state p_init p_call make.

Lemma name_words d x : x <> [] -> Forall (fun c => ~ In c d) x -> words d x = [x].
Proof.
  intros Hne HF. pose proof (words_tokens d x) as HT. refine (Tokens_det _ _ x HT [x] _). apply tok_last; [exact Hne|].
  eapply Forall_impl; [|exact HF]. intros c Hc. cbv beta. destruct (existsb (fun y => c =? y) d) eqn:E; [|reflexivity]. exfalso. apply existsb_exists in E as (y & Hy & Ey). apply N.eqb_eq in Ey. subst y. contradiction.
Qed.
Lemma name_compressor make x : Name x ->
  get_compressor_from_header make x = if nothing x then NoneNeeded else match make x with Some P => Made P | None => Refused end.
Proof.
  intros (Hne & _ & HF). unfold get_compressor_from_header. rewrite (name_words _ _ Hne HF). cbn [first_compressor existsb forallb]. rewrite orb_false_r, andb_true_r.
  destruct (nothing x) eqn:EN; [destruct (iequals x (str "identity")); reflexivity|]. destruct (make x); [reflexivity|]. unfold nothing in EN. apply orb_false_iff in EN as [_ ->]. reflexivity.
Qed.

Lemma nothing_same x : bytes_ok x -> nothing x = true -> Same x (str "chunked") \/ Same x (str "identity").
Proof. intros Hx EN. unfold nothing in EN. apply orb_true_iff in EN. destruct EN as [EN|EN]; [left|right]; apply same_iff in EN; try exact EN; try apply str_ok; exact Hx. Qed.

(** One body: what is written is the beginning of the compressed form, and all of it unless it is at least 32 octets longer than the body. *)
Theorem c120_compress : forall make coded x body fuel, codes make coded -> Name x -> N.of_nat (length (coded x body)) < N.of_nat fuel ->
  match compress fuel make x body with
  | Returned out _ => out = body /\ (body = [] \/ Same x (str "chunked") \/ Same x (str "identity")) \/
                      exists rest, coded x body = out ++ rest /\ (rest = [] \/ N.of_nat (length body) + 32 <= N.of_nat (length out))
  | Threw runtime _ => runtime = true
  | Spinning => False
  end.
Proof.
  intros make coded x body fuel HC HN HF. unfold compress. destruct body as [|c body]; [left; auto|]. assert (Hx : x <> []) by apply HN. destruct x as [|y x]; [congruence|].
  rewrite (name_compressor _ _ HN). destruct (nothing (y :: x)) eqn:EN; [left; split; [reflexivity|right; apply nothing_same; [apply HN|exact EN]]|].
  destruct (make (y :: x)) as [P|] eqn:EM; [|reflexivity]. destruct (HC _ _ EM) as (full & HP & HB).
  pose proof (compress_loop_spec P full HP fuel (p_init P) (len (c :: body)) (c :: body) [] 0 (coded (y :: x) (c :: body))) as H.
  specialize (H ltac:(now rewrite <- HB) eq_refl ltac:(discriminate)).
  destruct (compress_loop fuel P (p_init P) (len (c :: body)) (c :: body) [] 0) as [out b|b bb|]; [right; exact H|exact H|]. unfold len in H. cbn [length] in H. lia.
Qed.
(** A compressor that does not throw. *)
Lemma compress_loop_ends P : (forall st input room, p_call P st input room <> None) -> forall fuel st n input out buffer b bb,
  compress_loop fuel P st n input out buffer <> Threw b bb.
Proof.
  intros HT. induction fuel as [|f IH]; intros st n input out buffer b bb; destruct input as [|c input]; cbn [compress_loop]; try discriminate.
  destruct (p_call P st (c :: input) (buffer + (n + 32) - len out)) as [[[[st' o] used] done]|] eqn:E; [|now apply HT in E]. destruct done; [discriminate|apply IH].
Qed.

(** The response hook. *)
Definition Unlabelled (h : hdrs) : Prop := sent "Content-Encoding" (h_map h) = [].
(** The responses as they were and as they are sent. *)
Definition Encoded (enc coded : list N) (r r' : response) : Prop :=
  r_body r' = coded /\ sent "Content-Encoding" (h_map (r_headers r')) = [enc] /\
  sent "Vary" (h_map (r_headers r')) = sent "Vary" (h_map (r_headers r)) ++ [str "Accept-Encoding"] /\
  (exists ds, sent "Content-Length" (h_map (r_headers r')) = [ds] /\ Decimal ds (N.of_nat (length coded))) /\
  (forall n, bytes_ok n -> Forall (fun k => ~ Same n (str k)) ["Content-Encoding"; "Vary"; "Content-Length"]%string ->
     values_of n (fields_of (h_map (r_headers r'))) = values_of n (fields_of (h_map (r_headers r)))).
Definition Restored (r r' : response) : Prop :=
  r_body r' = r_body r /\ sent "Content-Length" (h_map (r_headers r')) = [] /\
  (forall n, bytes_ok n -> ~ Same n (str "Content-Length") -> values_of n (fields_of (h_map (r_headers r'))) = values_of n (fields_of (h_map (r_headers r)))).

Lemma has_none n h : bytes_ok n -> HeaderMap h -> (has_header n h = false <-> values_of n (fields_of h) = []).
Proof.
  intros Hn HM. pose proof (find_header_values n h Hn HM) as H. unfold has_header. destruct (find_header n h) as [vs|]; [|tauto]. destruct H as [-> H]. split; [discriminate|congruence].
Qed.

Lemma named_other n k : ~ Same n k -> named n k = false.
Proof. intros H. unfold named. destruct (beq (map lower k) (map lower n)) eqn:E; [|reflexivity]. apply beq_eq in E. exfalso. apply H. unfold Same. now symmetry. Qed.

Lemma encoded_sets r enc coded : HeaderMap (h_map (r_headers r)) -> bytes_ok enc ->
  Encoded enc coded r (mkR (r_status r) (set_header (add_header (set_header (r_headers r) (str "Content-Encoding") enc) (str "Vary") (str "Accept-Encoding"))
    (str "Content-Length") (to_string (Z.of_N (len coded)))) coded).
Proof.
  intros HM He. unfold Encoded. cbn [r_headers r_body].
  change (h_map (set_header (add_header (set_header (r_headers r) (str "Content-Encoding") enc) (str "Vary") (str "Accept-Encoding"))
    (str "Content-Length") (to_string (Z.of_N (len coded))))) with (hops [OSet (str "Content-Encoding") enc; OAdd (str "Vary") (str "Accept-Encoding"); OSet (str "Content-Length") (to_string (Z.of_N (len coded)))] (h_map (r_headers r))).
  assert (HO : Forall hop_ok [OSet (str "Content-Encoding") enc; OAdd (str "Vary") (str "Accept-Encoding"); OSet (str "Content-Length") (to_string (Z.of_N (len coded)))]).
  { repeat constructor; cbn [hop_ok]; try split; try apply str_ok; try exact He; apply to_string_bytes. }
  unfold sent. rewrite !(hops_values _ _ _ (str_ok _) HO HM). split; [reflexivity|]. split; [reflexivity|]. split; [reflexivity|]. split.
  - exists (to_string (Z.of_N (len coded))). split; [reflexivity|]. apply dec_spec.
  - intros n Hn HF. inversion HF as [|? ? H1 HF1]; subst. inversion HF1 as [|? ? H2 HF2]; subst. inversion HF2 as [|? ? H3 _]; subst.
    rewrite (hops_values _ _ _ Hn HO HM). unfold eff. cbn [fold_left eff1]. now rewrite !named_other by assumption.
Qed.
Lemma restored_removes r : HeaderMap (h_map (r_headers r)) -> Unlabelled (r_headers r) ->
  Restored r (mkR (r_status r) (remove_header (remove_header (r_headers r) (str "Content-Encoding")) (str "Content-Length")) (r_body r)).
Proof.
  intros HM HU. unfold Restored. cbn [r_headers r_body].
  change (h_map (remove_header (remove_header (r_headers r) (str "Content-Encoding")) (str "Content-Length"))) with (hops [ODel (str "Content-Encoding"); ODel (str "Content-Length")] (h_map (r_headers r))).
  assert (HO : Forall hop_ok [ODel (str "Content-Encoding"); ODel (str "Content-Length")]) by (repeat constructor; cbn [hop_ok]; apply str_ok).
  unfold sent. rewrite (hops_values _ _ _ (str_ok _) HO HM). split; [reflexivity|]. split; [reflexivity|]. intros n Hn H1. rewrite (hops_values _ _ _ Hn HO HM).
  unfold eff. cbn [fold_left eff1]. rewrite (named_other _ _ H1). destruct (named n (str "Content-Encoding")) eqn:E; [|reflexivity].
  unfold named in E. apply beq_eq in E. unfold Unlabelled, sent in HU. rewrite <- HU. unfold values_of. now rewrite E.
Qed.

Theorem c120_hook : forall make coded o accept es r fuel, codes make coded -> Forall Name (o_preferred o) -> HeaderMap (h_map (r_headers r)) -> bytes_ok accept -> Accepts accept es ->
  (forall x, In x (o_preferred o) -> N.of_nat (length (coded x (r_body r))) < N.of_nat fuel /\ (r_body r <> [] -> coded x (r_body r) <> [])) ->
  let r' := compress_response_body fuel make o accept r in
  r_status r' = r_status r /\
  (r' = r \/
   exists enc, o_min o <= N.of_nat (length (r_body r)) /\ Unlabelled (r_headers r) /\ accept <> [] /\ Choice es (o_preferred o) enc /\ enc <> [] /\
     (Encoded enc (coded enc (r_body r)) r r' /\ N.of_nat (length (coded enc (r_body r))) < N.of_nat (length (r_body r)) \/
      Restored r r')).
Proof.
  intros make coded o accept es r fuel HC HP HM HA HE HF. unfold compress_response_body. destruct (r_body r) as [|c body] eqn:EB; [auto|]. set (B := c :: body) in *.
  destruct ((len B <? o_min o) || has_header (str "Content-Encoding") (h_map (r_headers r)) || is_precompressed_content_type (fst (h_ct (r_headers r)))) eqn:E1; [auto|].
  apply orb_false_iff in E1 as [E1 _]. apply orb_false_iff in E1 as [E1 E2]. apply (has_none _ _ (str_ok _) HM) in E2.
  destruct (select_best_encoding accept o) as [|e0 e1] eqn:ES; [auto|]. set (enc := e0 :: e1) in *. rewrite E1.
  assert (HA0 : accept <> []) by (intros ->; cbn in ES; discriminate ES).
  assert (HPb : Forall (fun x => bytes_ok x /\ x <> []) (o_preferred o)) by (eapply Forall_impl; [|exact HP]; intros x (H1 & H2 & _); auto).
  pose proof (c119_choice o accept es HA HPb HA0 HE) as HCh. rewrite ES in HCh.
  assert (HI : In enc (o_preferred o)) by (rewrite <- ES; apply (c119_never_excluded o accept es HA HPb HE); rewrite ES; discriminate).
  rewrite Forall_forall in HP. pose proof (HP _ HI) as HN. destruct (HF _ HI) as [HF1 HF2].
  pose proof (c120_compress make coded enc B fuel HC HN HF1) as HK. destruct (compress fuel make enc B) as [out b|b bb|]; [|auto|contradiction].
  assert (HR : Restored r (mkR (r_status r) (remove_header (remove_header (r_headers r) (str "Content-Encoding")) (str "Content-Length")) B)) by (rewrite <- EB; now apply restored_removes).
  assert (HX : o_min o <= N.of_nat (length B) /\ Unlabelled (r_headers r) /\ accept <> [] /\ Choice es (o_preferred o) enc /\ enc <> []).
  { split; [unfold len in E1; lia|]. split; [exact E2|]. split; [exact HA0|]. split; [exact HCh|discriminate]. }
  destruct HX as (X1 & X2 & X3 & X4 & X5).
  destruct HK as [[-> _]|(rest & HE1 & HE2)].
  - replace (len B <? len B) with false by lia. rewrite andb_false_r. replace (0 <? len B) with true by (unfold len, B; cbn [length]; lia). split; [reflexivity|]. right. exists enc. auto 10.
  - destruct (0 <? len out) eqn:E0.
    + cbn [andb]. destruct (len out <? len B) eqn:EL; [|split; [reflexivity|]; right; exists enc; auto 10]. split; [reflexivity|]. right. exists enc. do 5 (split; [assumption|]). left.
      destruct HE2 as [-> |HE2]; [|unfold len in *; lia]. rewrite app_nil_r in HE1. rewrite HE1. split; [apply encoded_sets; [exact HM|apply HN]|unfold len in *; lia].
    + exfalso. assert (out = []) by (destruct out; [reflexivity|unfold len in E0; cbn [length] in E0; lia]). subst out. destruct HE2 as [-> |HE2]; [|cbn [length] in HE2; lia]. apply HF2; [discriminate|exact HE1].
Qed.
(** When it does compress: a body that is long enough, not labelled, not of an already compressed type, a coding the client accepts
    and the library has, and a compressed form that is shorter. *)
Theorem c120_applied : forall make coded o accept es enc P r fuel, codes make coded -> Forall Name (o_preferred o) -> HeaderMap (h_map (r_headers r)) -> bytes_ok accept -> accept <> [] -> Accepts accept es ->
  o_min o <= N.of_nat (length (r_body r)) -> Unlabelled (r_headers r) -> is_precompressed_content_type (fst (h_ct (r_headers r))) = false ->
  Choice es (o_preferred o) enc -> enc <> [] -> ~ Same enc (str "chunked") -> ~ Same enc (str "identity") -> make enc = Some P -> (forall st input room, p_call P st input room <> None) ->
  0 < N.of_nat (length (coded enc (r_body r))) < N.of_nat (length (r_body r)) -> N.of_nat (length (r_body r)) < N.of_nat fuel ->
  Encoded enc (coded enc (r_body r)) r (compress_response_body fuel make o accept r).
Proof.
  intros make coded o accept es enc P r fuel HC HP HM HA HA0 HE Hmin HU Hpre HCh Hne Hn1 Hn2 HMk HT Hlen HF.
  assert (HPb : Forall (fun x => bytes_ok x /\ x <> []) (o_preferred o)) by (eapply Forall_impl; [|exact HP]; intros x (H1 & H2 & _); auto).
  pose proof (c119_choice o accept es HA HPb HA0 HE) as HCh'. assert (EQ : select_best_encoding accept o = enc) by (eapply choice_det; eassumption).
  assert (HI : In enc (o_preferred o)) by (rewrite <- EQ; apply (c119_never_excluded o accept es HA HPb HE); rewrite EQ; exact Hne).
  rewrite Forall_forall in HP. pose proof (HP _ HI) as HN.
  unfold compress_response_body. destruct (r_body r) as [|c body] eqn:EB; [cbn [length] in Hlen; lia|]. set (B := c :: body) in *.
  assert (EM : (len B <? o_min o) = false) by (unfold len; lia). rewrite Hpre. rewrite (proj2 (has_none _ _ (str_ok _) HM) HU), EM. cbn [orb]. rewrite EQ.
  pose proof (c120_compress make coded enc B fuel HC HN ltac:(lia)) as HK. destruct enc as [|e0 e1]; [congruence|]. set (enc := e0 :: e1) in *.
  destruct (compress fuel make enc B) as [out b|b bb|] eqn:EK; [|exfalso|contradiction].
  - destruct HK as [[-> HK]|(rest & HE1 & HE2)]; [destruct HK as [HK|[HK|HK]]; [discriminate HK|contradiction|contradiction]|].
    assert (rest = []).
    { destruct HE2 as [HE2|HE2]; [exact HE2|]. rewrite HE1 in Hlen. rewrite app_length in Hlen. lia. }
    subst rest. rewrite app_nil_r in HE1. rewrite <- HE1 in *. replace ((0 <? len (coded enc B)) && (len (coded enc B) <? len B)) with true by (unfold len; lia).
    apply encoded_sets; [exact HM|apply HN].
  - unfold compress, enc in EK. unfold B in EK. fold B enc in EK. rewrite (name_compressor _ _ HN) in EK. destruct (nothing enc) eqn:EN; [destruct (nothing_same _ (proj1 (proj2 HN)) EN); contradiction|].
    rewrite HMk in EK. exact (compress_loop_ends P HT _ _ _ _ _ _ _ _ EK).
Qed.
(** When it does not: the body is too short, already labelled, of a type that is compressed by nature, or no coding is acceptable. *)
Theorem c120_skipped : forall make o accept r fuel, HeaderMap (h_map (r_headers r)) -> bytes_ok (fst (h_ct (r_headers r))) ->
  N.of_nat (length (r_body r)) < o_min o \/ sent "Content-Encoding" (h_map (r_headers r)) <> [] \/
  (exists t, In t compressed_mime_types /\ Same (trim_http_whitespace (before 59 (fst (h_ct (r_headers r))))) t) \/
  (bytes_ok accept /\ Forall Name (o_preferred o) /\ exists es, Accepts accept es /\ Forall (fun x => Quality es x 0) (o_preferred o)) ->
  compress_response_body fuel make o accept r = r.
Proof.
  intros make o accept r fuel HM HB H. unfold compress_response_body. destruct (r_body r) as [|c body] eqn:EB; [reflexivity|].
  destruct H as [H|[H|[(t & Ht & HS)|(HA & HP & es & HE & HQ)]]].
  - replace (len (c :: body) <? o_min o) with true by (unfold len; lia). reflexivity.
  - assert (E : has_header (str "Content-Encoding") (h_map (r_headers r)) = true) by (destruct (has_header (str "Content-Encoding") (h_map (r_headers r))) eqn:E; [reflexivity|]; apply (has_none _ _ (str_ok _) HM) in E; contradiction).
    rewrite E, orb_true_r. reflexivity.
  - assert (E : is_precompressed_content_type (fst (h_ct (r_headers r))) = true).
    { unfold is_precompressed_content_type. set (w := trim_http_whitespace (before 59 (fst (h_ct (r_headers r))))) in *.
      assert (HW : bytes_ok w) by (apply trim_bytes; now apply before_bytes). assert (HTB : bytes_ok t).
      { unfold compressed_mime_types in Ht. apply in_map_iff in Ht as (s & <- & _). apply str_ok. }
      assert (HEx : existsb (fun c => iequals w c) compressed_mime_types = true) by (apply existsb_exists; exists t; split; [exact Ht|now apply same_iff]).
      destruct w as [|w0 w1]; [|exact HEx]. exfalso. unfold Same in HS. cbn [map] in HS. destruct t; [|discriminate HS]. vm_compute in Ht. repeat (destruct Ht as [Ht|Ht]; [discriminate Ht|]). exact Ht. }
    rewrite E, !orb_true_r. reflexivity.
  - destruct ((len (c :: body) <? o_min o) || has_header (str "Content-Encoding") (h_map (r_headers r)) || is_precompressed_content_type (fst (h_ct (r_headers r)))); [reflexivity|].
    assert (HPb : Forall (fun x => bytes_ok x /\ x <> []) (o_preferred o)) by (eapply Forall_impl; [|exact HP]; intros x (H1 & H2 & _); auto).
    destruct accept as [|a0 a1]; [reflexivity|]. assert (EQ : select_best_encoding (a0 :: a1) o = []) by (eapply choice_det; [apply c119_choice; [exact HA|exact HPb|discriminate|exact HE]|now apply choice_none]).
    now rewrite EQ.
Qed.

(** ** C121: no body grows beyond the limit, whatever the input *)
Lemma uncompress_loop_bound P : forall fuel st n input out buffer, input <> [] ->
  match uncompress_loop fuel P st n input out buffer with Returned out' _ => len out' <= MAX_BODY_SIZE | _ => True end.
Proof.
  assert (HG : forall fuel st n input out buffer, len out <= MAX_BODY_SIZE -> match uncompress_loop fuel P st n input out buffer with Returned out' _ => len out' <= MAX_BODY_SIZE | _ => True end).
  { induction fuel as [|f IH]; intros st n input out buffer Ho; destruct input as [|c input]; cbn [uncompress_loop]; auto.
    destruct (p_call P st (c :: input) (buffer + n * 2 - len out)) as [[[[st' o] used] done]|]; [|exact I]. destruct (MAX_BODY_SIZE <? len (out ++ o)) eqn:E; [exact I|].
    assert (HL : len (out ++ o) <= MAX_BODY_SIZE) by lia. destruct done; [exact HL|]. now apply IH. }
  intros fuel st n input out buffer Hi. destruct fuel as [|f]; destruct input as [|c input]; try congruence; cbn [uncompress_loop]; [exact I|].
  destruct (p_call P st (c :: input) (buffer + n * 2 - len out)) as [[[[st' o] used] done]|]; [|exact I]. destruct (MAX_BODY_SIZE <? len (out ++ o)) eqn:E; [exact I|].
  assert (HL : len (out ++ o) <= MAX_BODY_SIZE) by lia. destruct done; [exact HL|]. now apply HG.
Qed.
Theorem c121_limit : forall fuel make encoding body out b, uncompress fuel make encoding body = Returned out b ->
  out = body /\ (body = [] \/ encoding = []) \/ N.of_nat (length out) <= MAX_BODY_SIZE.
Proof.
  intros fuel make encoding body out b H. unfold uncompress in H. destruct body as [|c body]; [injection H as <- _; auto|]. destruct encoding as [|e0 e1]; [injection H as <- _; auto|].
  destruct (get_decompressor_from_header make (e0 :: e1)) as [P|]; [|discriminate H]. right.
  pose proof (uncompress_loop_bound P fuel (p_init P) (len (c :: body)) (c :: body) [] 0 ltac:(discriminate)) as HL. now rewrite H in HL.
Qed.
Lemma uncompress_loop_spec P full : Decompressor (p_call P) full -> forall fuel st n input out buffer total, 0 < n ->
  total = out ++ full st input -> len out <= MAX_BODY_SIZE -> len out <= buffer -> buffer <= MAX_BODY_SIZE + n * 2 -> (input <> [] -> len out = buffer) -> (input = [] -> Prompt (p_call P) full -> full st [] = []) ->
  match uncompress_loop fuel P st n input out buffer with
  | Returned out' b => b <= MAX_BODY_SIZE + n * 2 /\ (exists rest, total = out' ++ rest) /\ (Prompt (p_call P) full -> total = out')
  | Threw _ b => b <= MAX_BODY_SIZE + n * 2
  | Spinning => N.of_nat fuel + len out <= MAX_BODY_SIZE
  end.
Proof.
  intros HC. induction fuel as [|f IH]; intros st n input out buffer total Hn Ht Hm Hob Hb Hi Hp.
  - destruct input as [|c input]; cbn [uncompress_loop]; [|lia]. split; [exact Hb|]. split; [eauto|]. intros HP. rewrite Ht, (Hp eq_refl HP), app_nil_r. reflexivity.
  - destruct input as [|c input]; cbn [uncompress_loop]; [split; [exact Hb|]; split; [eauto|]; intros HP; rewrite Ht, (Hp eq_refl HP), app_nil_r; reflexivity|].
    specialize (Hi ltac:(discriminate)). assert (HB : buffer + n * 2 <= MAX_BODY_SIZE + n * 2) by lia.
    destruct (p_call P st (c :: input) (buffer + n * 2 - len out)) as [[[[st' o] used] done]|] eqn:E; [|exact HB].
    destruct (HC _ _ _ _ _ _ _ E) as (H1 & H2 & H3 & H4). destruct (MAX_BODY_SIZE <? len (out ++ o)) eqn:EL; [exact HB|]. destruct done.
    + split; [exact HB|]. rewrite app_nil_r in H3. rewrite Ht, H3. split; [exists []; now rewrite app_nil_r|reflexivity].
    + assert (HL : len (out ++ o) = len out + len o) by apply len_app. specialize (H4 eq_refl).
      assert (HD : skipn (N.to_nat used) (c :: input) <> [] -> len (out ++ o) = buffer + n * 2).
      { intros Hs. destruct H4 as [H4|H4]; [unfold len in *; lia|]. exfalso. apply Hs. apply skipn_all2. lia. }
      specialize (IH st' n (skipn (N.to_nat used) (c :: input)) (out ++ o) (buffer + n * 2) total Hn ltac:(rewrite Ht, H3, app_assoc; reflexivity) ltac:(lia) ltac:(unfold len in *; lia) HB HD).
      assert (HQ : skipn (N.to_nat used) (c :: input) = [] -> Prompt (p_call P) full -> full st' [] = []).
      { intros Hs HP. apply (HP _ _ _ _ _ _ E). apply (f_equal (@length N)) in Hs. rewrite skipn_length in Hs. cbn [length] in *. lia. }
      specialize (IH HQ). destruct (skipn (N.to_nat used) (c :: input)) as [|d rest] eqn:ES.
      * destruct f; cbn [uncompress_loop] in IH |- *; exact IH.
      * specialize (HD ltac:(discriminate)). destruct (uncompress_loop f P st' n (d :: rest) (out ++ o) (buffer + n * 2)) as [o' b|b bb|]; [exact IH|exact IH|]. lia.
Qed.
Lemma name_decompressor make x : Name x -> get_decompressor_from_header make x = match make x with Some P => Some P | None => None end.
Proof.
  intros (Hne & _ & HF). unfold get_decompressor_from_header. rewrite (name_words (str ", " ++ [9]) x Hne).
  2:{ eapply Forall_impl; [|exact HF]. intros c Hc HI. apply Hc. cbn in HI |- *. tauto. }
  cbn [length decompressor_loop Nat.eqb negb]. destruct (make x); [reflexivity|]. rewrite andb_false_r. reflexivity.
Qed.
(** The memory taken is bounded, the loop ends, and what comes out is the decompressed form. *)
Theorem c121_memory : forall make plain x body fuel, decodes make plain -> Name x -> body <> [] -> MAX_BODY_SIZE < N.of_nat fuel ->
  match uncompress fuel make x body with
  | Returned out b => b <= MAX_BODY_SIZE + 2 * N.of_nat (length body) /\ out = plain x body
  | Threw _ b => b <= MAX_BODY_SIZE + 2 * N.of_nat (length body)
  | Spinning => False
  end.
Proof.
  intros make plain x body fuel HC HN Hb HF. unfold uncompress. destruct body as [|c body]; [congruence|]. assert (Hx : x <> []) by apply HN. destruct x as [|y x]; [congruence|].
  rewrite (name_decompressor _ _ HN). destruct (make (y :: x)) as [P|] eqn:EM; [|lia]. destruct (HC _ _ EM) as (full & HD & HP & HB).
  pose proof (uncompress_loop_spec P full HD fuel (p_init P) (len (c :: body)) (c :: body) [] 0 (plain (y :: x) (c :: body))) as H.
  specialize (H ltac:(unfold len; cbn [length]; lia) ltac:(now rewrite <- HB) ltac:(unfold len; cbn [length]; lia) ltac:(unfold len; cbn [length]; lia) ltac:(lia) ltac:(reflexivity) ltac:(discriminate)).
  destruct (uncompress_loop fuel P (p_init P) (len (c :: body)) (c :: body) [] 0) as [out b|b bb|]; unfold len in H.
  - destruct H as (H1 & _ & H2). split; [lia|]. symmetry. now apply H2.
  - lia.
  - cbn [length] in H. lia.
Qed.

(** ** C122: the request side *)
Definition Decoded (body : list N) (q q' : request) : Prop :=
  q_body q' = body /\ sent "Content-Encoding" (h_map (q_headers q')) = [] /\
  (sent "Content-Length" (h_map (q_headers q)) = [] -> sent "Content-Length" (h_map (q_headers q')) = []) /\
  (sent "Content-Length" (h_map (q_headers q)) <> [] -> exists ds, sent "Content-Length" (h_map (q_headers q')) = [ds] /\ Decimal ds (N.of_nat (length body))) /\
  (forall n, bytes_ok n -> Forall (fun k => ~ Same n (str k)) ["Content-Encoding"; "Content-Length"]%string ->
     values_of n (fields_of (h_map (q_headers q'))) = values_of n (fields_of (h_map (q_headers q)))).
Lemma decoded_sets q out : HeaderMap (h_map (q_headers q)) ->
  Decoded out q (mkQ (let h := remove_header (q_headers q) (str "Content-Encoding") in
     if has_header (str "Content-Length") (h_map h) then set_header h (str "Content-Length") (to_string (Z.of_N (len out))) else h) out).
Proof.
  intros HM. cbv zeta. set (h := remove_header (q_headers q) (str "Content-Encoding")).
  assert (HO1 : Forall hop_ok [ODel (str "Content-Encoding")]) by (repeat constructor; cbn [hop_ok]; apply str_ok).
  assert (HO2 : Forall hop_ok [ODel (str "Content-Encoding"); OSet (str "Content-Length") (to_string (Z.of_N (len out)))]) by (repeat constructor; cbn [hop_ok]; try apply str_ok; apply to_string_bytes).
  assert (HM2 : HeaderMap (h_map h)) by (apply (hops_map [ODel (str "Content-Encoding")] (h_map (q_headers q)) HO1 HM)).
  assert (HV : values_of (str "Content-Length") (fields_of (h_map h)) = sent "Content-Length" (h_map (q_headers q))) by (exact (hops_values _ _ _ (str_ok _) HO1 HM)).
  destruct (has_header (str "Content-Length") (h_map h)) eqn:E; unfold Decoded; cbn [q_body q_headers].
  - change (h_map (set_header h (str "Content-Length") (to_string (Z.of_N (len out))))) with (hops [ODel (str "Content-Encoding"); OSet (str "Content-Length") (to_string (Z.of_N (len out)))] (h_map (q_headers q))).
    split; [reflexivity|]. split; [exact (hops_values _ _ _ (str_ok _) HO2 HM)|]. split; [|split].
    + intros H0. rewrite <- HV in H0. apply (has_none _ _ (str_ok _) HM2) in H0. congruence.
    + intros _. exists (to_string (Z.of_N (len out))). split; [exact (hops_values _ _ _ (str_ok _) HO2 HM)|apply dec_spec].
    + intros n Hn HF. inversion HF as [|? ? H1 HF1]; subst. inversion HF1 as [|? ? H2 HF2]; subst. rewrite (hops_values _ _ _ Hn HO2 HM). unfold eff. cbn [fold_left eff1]. now rewrite !named_other by assumption.
  - apply (has_none _ _ (str_ok _) HM2) in E. rewrite HV in E. change (h_map h) with (hops [ODel (str "Content-Encoding")] (h_map (q_headers q))).
    split; [reflexivity|]. split; [exact (hops_values _ _ _ (str_ok _) HO1 HM)|]. split; [|split].
    + intros _. rewrite <- E at 1. exact (hops_values _ _ _ (str_ok _) HO1 HM).
    + contradiction.
    + intros n Hn HF. inversion HF as [|? ? H1 HF1]; subst. rewrite (hops_values _ _ _ Hn HO1 HM). unfold eff. cbn [fold_left eff1]. now rewrite !named_other by assumption.
Qed.
Lemma header_at_first h n : bytes_ok n -> HeaderMap (h_map h) -> header_at h n 0 [] = hd [] (values_of n (fields_of (h_map h))).
Proof.
  intros Hn HM. rewrite <- first_values by assumption. unfold header_at, header. destruct (find_header n (h_map h)) as [[|v vs]|]; reflexivity.
Qed.
(** A request labelled with one coding: the handlers get the decompressed body without the label, or the client gets an error;
    requests that are not labelled, have no body, or come to a middleware that does not decompress are left alone. *)
Theorem c122_request : forall make plain o q r fuel, decodes make plain -> HeaderMap (h_map (q_headers q)) -> MAX_BODY_SIZE < N.of_nat fuel ->
  let enc := first "Content-Encoding" (h_map (q_headers q)) in
  (enc = [] \/ q_body q = [] \/ o_decompress o = false -> process fuel make o q r = Some (q, r, o_compress o, Continue)) /\
  (o_decompress o = true -> Name enc -> q_body q <> [] ->
     (exists q', process fuel make o q r = Some (q', r, o_compress o, Continue) /\ Decoded (plain enc (q_body q)) q q' /\ N.of_nat (length (q_body q')) <= MAX_BODY_SIZE) \/
     (exists r', process fuel make o q r = Some (q, r', false, Complete) /\ (r_status r' = 400 \/ r_status r' = 500))).
Proof.
  intros make plain o q r fuel HD HM HF enc. pose proof (header_at_first _ _ (str_ok "Content-Encoding") HM) as HE. fold (first "Content-Encoding" (h_map (q_headers q))) in HE.
  change (hd [] (values_of (str "Content-Encoding") (fields_of (h_map (q_headers q))))) with enc in HE. unfold process. rewrite HE. split.
  - intros [H|[H|H]].
    + rewrite H, !andb_false_r. reflexivity.
    + rewrite H. destruct (o_decompress o && _); reflexivity.
    + rewrite H. reflexivity.
  - intros Hd HN Hb. assert (Hh : has_header (str "Content-Encoding") (h_map (q_headers q)) = true).
    { destruct (has_header (str "Content-Encoding") (h_map (q_headers q))) eqn:E; [reflexivity|]. apply (has_none _ _ (str_ok _) HM) in E. exfalso. apply (proj1 HN). unfold enc, first, sent. now rewrite E. }
    pose proof (c121_memory make plain enc (q_body q) fuel HD HN Hb HF) as HU. rewrite Hd, Hh. cbn [andb]. destruct enc as [|e0 e1] eqn:EE; [exfalso; now apply (proj1 HN)|]. destruct (q_body q) as [|c body] eqn:EB; [congruence|].
    destruct (uncompress fuel make (e0 :: e1) (c :: body)) as [out b|b bb|] eqn:EU; [|right; eexists; split; [reflexivity|]; destruct b; [left|right]; reflexivity|contradiction].
    left. destruct HU as [_ ->]. eexists. split; [reflexivity|]. split; [now apply decoded_sets|]. cbn [q_body]. destruct (c121_limit _ _ _ _ _ _ EU) as [[_ [H|H]]|H]; [discriminate H|discriminate H|exact H].
Qed.
(** What is answered when the body cannot be decompressed. *)
Theorem c122_errors : forall make o q r fuel runtime b, HeaderMap (h_map (q_headers q)) -> o_decompress o = true -> first "Content-Encoding" (h_map (q_headers q)) <> [] -> q_body q <> [] ->
  uncompress fuel make (first "Content-Encoding" (h_map (q_headers q))) (q_body q) = Threw runtime b ->
  exists r', process fuel make o q r = Some (q, r', false, Complete) /\ r_status r' = (if runtime then 400 else 500).
Proof.
  intros make o q r fuel runtime b HM Hd He Hb HU. pose proof (header_at_first _ _ (str_ok "Content-Encoding") HM) as HE.
  change (hd [] (values_of (str "Content-Encoding") (fields_of (h_map (q_headers q))))) with (first "Content-Encoding" (h_map (q_headers q))) in HE. unfold process. rewrite HE, Hd.
  assert (Hh : has_header (str "Content-Encoding") (h_map (q_headers q)) = true).
  { destruct (has_header (str "Content-Encoding") (h_map (q_headers q))) eqn:E; [reflexivity|]. apply (has_none _ _ (str_ok _) HM) in E. exfalso. apply He. unfold first, sent. now rewrite E. }
  rewrite Hh. cbn [andb]. rewrite HU. destruct (first "Content-Encoding" (h_map (q_headers q))); [congruence|]. destruct (q_body q); [congruence|]. eexists. split; reflexivity.
Qed.

(** ** C123: what the middleware compresses, the other end decompresses *)
Theorem c123_round_trip : forall make1 make2 coded plain o accept es r fuel1 fuel2 o2 q resp, codes make1 coded -> decodes make2 plain ->
  (forall x b, In x (o_preferred o) -> plain x (coded x b) = b) -> Forall Name (o_preferred o) -> HeaderMap (h_map (r_headers r)) -> bytes_ok accept -> Accepts accept es ->
  (forall x, In x (o_preferred o) -> N.of_nat (length (coded x (r_body r))) < N.of_nat fuel1 /\ (r_body r <> [] -> coded x (r_body r) <> [])) -> MAX_BODY_SIZE < N.of_nat fuel2 -> o_decompress o2 = true ->
  (* the other end reads the headers and the body that were sent *)
  let r' := compress_response_body fuel1 make1 o accept r in
  HeaderMap (h_map (q_headers q)) -> (forall n, values_of n (fields_of (h_map (q_headers q))) = values_of n (fields_of (h_map (r_headers r')))) -> q_body q = r_body r' ->
  sent "Content-Encoding" (h_map (r_headers r)) = [] ->
  forall q' x y v, process fuel2 make2 o2 q resp = Some (q', x, y, v) -> v = Continue -> q_body q' = r_body r.
Proof.
  intros make1 make2 coded plain o accept es r fuel1 fuel2 o2 q resp HC HD HI HP HM HA HE HF HF2 Ho r' HQ HV HB HU q' x y v HPr Hv.
  destruct (c120_hook make1 coded o accept es r fuel1 HC HP HM HA HE HF) as [_ HR]. fold r' in HR.
  destruct (c122_request make2 plain o2 q resp fuel2 HD HQ HF2) as [H1 H2]. set (enc := first "Content-Encoding" (h_map (q_headers q))) in *.
  assert (EN : enc = hd [] (sent "Content-Encoding" (h_map (r_headers r')))) by (unfold enc, first, sent; now rewrite HV).
  destruct HR as [ER|(e & Hmin & _ & Ha & Hch & Hne & HR)].
  - rewrite ER, HU in EN. rewrite (H1 (or_introl EN)) in HPr. injection HPr as <- _ _ _. rewrite HB, ER. reflexivity.
  - assert (HIn : In e (o_preferred o)) by (inversion Hch; [congruence|apply in_or_app; right; now left]). assert (HN : Name e) by (rewrite Forall_forall in HP; auto).
    destruct HR as [[(R1 & R2 & _) Rl]|(R1 & R2 & R3)].
    + rewrite R2 in EN. cbn [hd] in EN. rewrite EN in H2. assert (Hb : q_body q <> []).
      { rewrite HB, R1. apply (proj2 (HF _ HIn)). intros E0. rewrite E0 in Rl. cbn [length] in Rl. lia. }
      destruct (H2 Ho HN Hb) as [(q2 & E2 & (D1 & _) & _)|(r2 & E2 & _)]; rewrite E2 in HPr; injection HPr as <- _ _ Ev; [|congruence].
      rewrite D1, HB, R1. now apply HI.
    + assert (E0 : sent "Content-Encoding" (h_map (r_headers r')) = []) by (unfold sent; rewrite R3; [exact HU|apply str_ok|intros H; vm_compute in H; discriminate H]).
      rewrite E0 in EN. rewrite (H1 (or_introl EN)) in HPr. injection HPr as <- _ _ _. rewrite HB, R1. reflexivity.
Qed.
