(** Invariants of the HTTP/1.1 parser. *)
From Verif Require Import Base UtilModel UtilSpec UtilProofs StaticModel DateModel CookieSpec H2FieldSpec Http1Model Http1Spec Http1Proofs
  RecvModel RecvSpec RecvProofs.
From Coq Require Import ZifyBool ZifyN.
Local Open Scope N_scope.

(** ** Header maps *)
Definition okf (f : field) : Prop := size (fst f) <= 1024 /\ size (snd f) <= 8192.

Lemma iequals_len : forall a b, bytes_ok a -> bytes_ok b -> iequals a b = true -> length a = length b.
Proof.
  intros a b Ha Hb H. apply (proj1 (iequals_spec _ _ Ha Hb)) in H. apply (f_equal (@length N)) in H. now rewrite !map_length in H.
Qed.

Lemma add_keys : forall k v h, map (fun e => map lower (fst e)) (add_value k v h) =
  map (fun e : list N * list (list N) => map lower (fst e)) h \/
  map (fun e => map lower (fst e)) (add_value k v h) = map (fun e : list N * list (list N) => map lower (fst e)) h ++ [map lower k].
Proof.
  induction h as [|[k' vs] r IH]; cbn [add_value]; [right; reflexivity|].
  destruct (iequals k' k); cbn [map fst app]; [left; reflexivity|].
  destruct IH as [-> | ->]; [left|right]; reflexivity.
Qed.

Lemma add_map : forall k v h, bytes_ok k -> bytes_ok v -> HeaderMap h -> HeaderMap (add_value k v h).
Proof.
  intros k v h Hk Hv [H1 H2]. induction h as [|[k' vs] r IH]; cbn [add_value].
  - split; [repeat constructor; auto; discriminate|]. cbn [map]. repeat constructor. intros [].
  - inversion H1 as [|? ? (Hb & Hne & Hvs) H1']; subst. cbn [fst snd map] in *. inversion H2 as [|? ? Hni H2']; subst.
    destruct (iequals k' k) eqn:E.
    + split.
      * constructor; [|exact H1']. cbn [fst snd]. refine (conj Hb (conj _ _)); [destruct vs; discriminate|].
        apply Forall_app. auto.
      * cbn [map fst]. constructor; assumption.
    + destruct (IH H1' H2') as [I1 I2]. split; [constructor; auto|]. cbn [map fst]. constructor; [|exact I2].
      destruct (add_keys k v r) as [-> | ->]; [exact Hni|].
      intros Hi. apply in_app_or in Hi. destruct Hi as [Hi|[Hi|[]]]; [auto|].
      symmetry in Hi. apply (proj2 (iequals_spec _ _ Hb Hk)) in Hi. congruence.
Qed.

Lemma values_cons : forall n k v, values_of n [(k, v)] = if beq (map lower k) (map lower n) then [v] else [].
Proof. intros. unfold values_of. cbn [filter fst]. destruct (beq _ _); reflexivity. Qed.

Lemma add_values : forall n k v h, bytes_ok k -> HeaderMap h ->
  values_of n (fields_of (add_value k v h)) = values_of n (fields_of h) ++ values_of n [(k, v)].
Proof.
  intros n k v h Hk [H1 H2]. rewrite values_cons. induction h as [|[k' vs] r IH]; cbn [add_value].
  - rewrite fields_cons. cbn [fst snd map fields_of flat_map app]. rewrite values_cons. reflexivity.
  - inversion H1 as [|? ? (Hb & Hne & Hvs) H1']; subst. cbn [fst snd map] in *. inversion H2 as [|? ? Hni H2']; subst.
    destruct (iequals k' k) eqn:E.
    + apply (proj1 (iequals_spec _ _ Hb Hk)) in E.
      rewrite !fields_cons, !values_app. cbn [fst snd]. rewrite !values_entry, <- E.
      destruct (beq (map lower k') (map lower n)) eqn:EB; [|now rewrite app_nil_r].
      apply beq_eq in EB. rewrite values_absent by (rewrite <- EB; exact Hni). now rewrite !app_nil_r.
    + rewrite !fields_cons, !values_app, (IH H1' H2'), app_assoc. reflexivity.
Qed.

Lemma add_okf : forall k v h, bytes_ok k -> HeaderMap h -> okf (k, v) ->
  Forall okf (fields_of h) -> Forall okf (fields_of (add_value k v h)).
Proof.
  intros k v h Hk [H1 H2] Hf HF. induction h as [|[k' vs] r IH]; cbn [add_value].
  - cbn. auto.
  - inversion H1 as [|? ? (Hb & Hne & Hvs) H1']; subst. cbn [fst snd map] in *. inversion H2; subst.
    rewrite fields_cons in HF. apply Forall_app in HF as [HF1 HF2]. cbn [fst snd] in *.
    destruct (iequals k' k) eqn:E.
    + rewrite fields_cons. cbn [fst snd]. rewrite map_app. rewrite !Forall_app. refine (conj (conj HF1 _) HF2).
      cbn [map]. constructor; [|constructor]. destruct Hf as [F1 F2]. split; [|exact F2]. cbn [fst] in *.
      unfold size in *. rewrite (iequals_len _ _ Hb Hk E). exact F1.
    + rewrite fields_cons, Forall_app. cbn [fst snd]. split; [exact HF1|]. apply IH; assumption.
Qed.

Lemma add_count : forall k v h, length (fields_of (add_value k v h)) = S (length (fields_of h)).
Proof.
  induction h as [|[k' vs] r IH]; cbn [add_value]; [reflexivity|].
  destruct (iequals k' k); rewrite !fields_cons, !app_length; cbn [fst snd]; rewrite !map_length, ?app_length; cbn [length]; lia.
Qed.

(** set_header *)
Lemma set_keys : forall k v h, map (fun e => map lower (fst e)) (set_value k v h) =
  map (fun e : list N * list (list N) => map lower (fst e)) h \/
  map (fun e => map lower (fst e)) (set_value k v h) = map (fun e : list N * list (list N) => map lower (fst e)) h ++ [map lower k].
Proof.
  induction h as [|[k' vs] r IH]; cbn [set_value]; [right; reflexivity|].
  destruct (iequals k' k); cbn [map fst app]; [left; reflexivity|].
  destruct IH as [-> | ->]; [left|right]; reflexivity.
Qed.
Lemma set_map : forall k v h, bytes_ok k -> bytes_ok v -> HeaderMap h -> HeaderMap (set_value k v h).
Proof.
  intros k v h Hk Hv [H1 H2]. induction h as [|[k' vs] r IH]; cbn [set_value].
  - split; [repeat constructor; auto; discriminate|]. cbn [map]. repeat constructor. intros [].
  - inversion H1 as [|? ? (Hb & Hne & Hvs) H1']; subst. cbn [fst snd map] in *. inversion H2 as [|? ? Hni H2']; subst.
    destruct (iequals k' k) eqn:E.
    + split.
      * constructor; [|exact H1']. cbn [fst snd]. refine (conj Hb (conj _ _)); [discriminate|]. auto.
      * cbn [map fst]. constructor; assumption.
    + destruct (IH H1' H2') as [I1 I2]. split; [constructor; auto|]. cbn [map fst]. constructor; [|exact I2].
      destruct (set_keys k v r) as [-> | ->]; [exact Hni|].
      intros Hi. apply in_app_or in Hi. destruct Hi as [Hi|[Hi|[]]]; [auto|].
      symmetry in Hi. apply (proj2 (iequals_spec _ _ Hb Hk)) in Hi. congruence.
Qed.
Lemma set_values : forall n k v h, bytes_ok k -> HeaderMap h ->
  values_of n (fields_of (set_value k v h)) = if beq (map lower k) (map lower n) then [v] else values_of n (fields_of h).
Proof.
  intros n k v h Hk [H1 H2]. induction h as [|[k' vs] r IH]; cbn [set_value].
  - rewrite fields_cons. cbn [fst snd map fields_of flat_map app]. apply values_cons.
  - inversion H1 as [|? ? (Hb & Hne & Hvs) H1']; subst. cbn [fst snd map] in *. inversion H2 as [|? ? Hni H2']; subst.
    destruct (iequals k' k) eqn:E.
    + apply (proj1 (iequals_spec _ _ Hb Hk)) in E.
      rewrite !fields_cons, !values_app. cbn [fst snd]. rewrite !values_entry, <- E.
      destruct (beq (map lower k') (map lower n)) eqn:EB; [|reflexivity].
      apply beq_eq in EB. rewrite values_absent by (rewrite <- EB; exact Hni). reflexivity.
    + rewrite !fields_cons, !values_app, (IH H1' H2'). cbn [fst snd]. rewrite values_entry.
      destruct (beq (map lower k) (map lower n)) eqn:EB; [|reflexivity].
      destruct (beq (map lower k') (map lower n)) eqn:EC; [|reflexivity].
      apply beq_eq in EB, EC. rewrite <- EB in EC. apply (proj2 (iequals_spec _ _ Hb Hk)) in EC. congruence.
Qed.
Lemma set_okf : forall k v h, bytes_ok k -> HeaderMap h -> okf (k, v) ->
  Forall okf (fields_of h) -> Forall okf (fields_of (set_value k v h)).
Proof.
  intros k v h Hk [H1 H2] Hf HF. induction h as [|[k' vs] r IH]; cbn [set_value].
  - cbn. auto.
  - inversion H1 as [|? ? (Hb & Hne & Hvs) H1']; subst. cbn [fst snd map] in *. inversion H2; subst.
    rewrite fields_cons in HF. apply Forall_app in HF as [HF1 HF2]. cbn [fst snd] in *.
    destruct (iequals k' k) eqn:E.
    + rewrite fields_cons. cbn [fst snd map]. rewrite Forall_app. refine (conj _ HF2).
      constructor; [|constructor]. destruct Hf as [F1 F2]. split; [|exact F2]. cbn [fst] in *.
      unfold size in *. rewrite (iequals_len _ _ Hb Hk E). exact F1.
    + rewrite fields_cons, Forall_app. cbn [fst snd]. split; [exact HF1|]. apply IH; assumption.
Qed.
(** either the name was there, or one field is added *)
Lemma set_count : forall k v h, HeaderMap h ->
  (length (fields_of (set_value k v h)) <= length (fields_of h) /\ find_header k h <> None)%nat \/
  (length (fields_of (set_value k v h)) = S (length (fields_of h)) /\ find_header k h = None).
Proof.
  intros k v h [H1 _]. unfold find_header. induction h as [|[k' vs] r IH]; cbn [set_value find fst].
  - right. split; reflexivity.
  - inversion H1 as [|? ? (Hb & Hne & Hvs) H1']; subst. cbn [fst snd] in *.
    destruct (iequals k' k) eqn:E.
    + left. rewrite !fields_cons, !app_length. cbn [fst snd map length]. rewrite map_length.
      split; [|discriminate]. destruct vs; [congruence|]. cbn [length]. lia.
    + rewrite !fields_cons, !app_length. destruct (IH H1') as [[I1 I2]|[I1 I2]]; [left|right]; (split; [lia|exact I2]).
Qed.

(** ** The parser invariant *)
Section Inv.
Variable M : machine.
Variable is_request : bool.

Definition pending (p : parser M) : nat :=
  match p_key p, p_token p with _ :: _, _ => 1 | [], TField => 1 | _, _ => 0 end.

Record Inv (p : parser M) : Prop := {
  i_url : len (p_url p) <= p_urln p; i_urln : p_urln p <= 8192; i_murl : len (m_url (p_msg p)) <= 8192;
  i_map : HeaderMap (m_headers (p_msg p)); i_okf : Forall okf (fields_of (m_headers (p_msg p)));
  i_cnt : N.of_nat (length (fields_of (m_headers (p_msg p))) + pending p) <= p_pairs p; i_pairs : p_pairs p <= 100;
  i_key : len (p_key p) <= 1024; i_keyb : bytes_ok (p_key p); i_val : len (p_val p) <= 8192; i_valb : bytes_ok (p_val p);
  i_body : len (p_chunked p) <= p_body p; i_total : p_body p <= 104857600; i_mbody : m_body (p_msg p) = [] }.

Lemma inv_reset : Inv (reset M).
Proof.
  constructor; cbn [reset p_url p_urln p_msg msg0 m_url m_headers m_body p_key p_val p_chunked p_body p_pairs fields_of flat_map];
    rewrite ?len_nil; try lia; try constructor; try constructor. reflexivity.
Qed.

Lemma size_len : forall s, size s = len s. Proof. reflexivity. Qed.

Lemma commit_inv : forall p q, Inv p -> commit M p = Some q ->
  Inv q /\ (p_token p <> TField -> N.of_nat (length (fields_of (m_headers (p_msg q)))) <= p_pairs q) /\
  p_token q = p_token p.
Proof.
  intros p q I H. unfold commit in H.
  destruct (p_token p) eqn:ET; [| |destruct (p_key p) as [|k0 ks] eqn:EK].
  1-3: injection H as <-; refine (conj I (conj _ ET)); intros HT; destruct I; try congruence; lia.
  destruct (MAX_HEADER_VALUE_LENGTH <? len (p_val p)) eqn:EV; [discriminate|]. injection H as <-.
  destruct I. rewrite EK in *.
  assert (HC : N.of_nat (length (fields_of (add_value (k0 :: ks) (p_val p) (m_headers (p_msg p))))) <= p_pairs p).
  { rewrite add_count. unfold pending in i_cnt0. rewrite EK in i_cnt0. lia. }
  refine (conj _ (conj _ eq_refl)).
  - constructor; cbn [p_url p_urln p_msg m_url m_headers m_body p_key p_val p_chunked p_body p_pairs p_token]; auto.
    + apply add_map; auto.
    + apply add_okf; auto. split; assumption.
    + unfold pending. cbn [p_key p_token]. rewrite Nat.add_0_r. exact HC.
    + rewrite len_nil. lia.
    + constructor.
    + rewrite len_nil. lia.
    + constructor.
  - intros _. exact HC.
Qed.

Lemma callback_inv : forall p d q, Inv p -> bytes_ok (text d) -> callback M is_request p d = Some q -> Inv q.
Proof.
  intros p d q I HB H. destruct d as [s|s|s|s|]; cbn [callback text] in *.
  - unfold on_url in H. destruct is_request; [|now injection H as <-].
    destruct (MAX_URL_LENGTH <? p_urln p + len s) eqn:E; [discriminate|]. injection H as <-.
    assert (HL : len ((if p_urln p =? 0 then [] else p_url p) ++ s) <= p_urln p + len s).
    { rewrite len_app. destruct I. destruct (p_urln p =? 0); [rewrite len_nil|]; lia. }
    unfold MAX_URL_LENGTH in E.
    destruct I. constructor; cbn [p_url p_urln p_msg m_url m_headers m_body p_key p_val p_chunked p_body p_pairs p_token]; auto; lia.
  - unfold on_header_field in H. destruct (commit M p) as [p1|] eqn:EC; [|discriminate].
    destruct (commit_inv _ _ I EC) as (I1 & HC & HTk).
    destruct (p_token p1) eqn:ET.
    + destruct (MAX_HEADERS_COUNT <? p_pairs p1 + 1) eqn:E1; [discriminate|].
      destruct (MAX_HEADER_NAME_LENGTH <? len ([] ++ s)) eqn:E2; [discriminate|]. injection H as <-.
      unfold MAX_HEADERS_COUNT, MAX_HEADER_NAME_LENGTH in *. cbn [app] in *.
      assert (HC' := HC ltac:(congruence)).
      destruct I1. constructor; cbn [p_url p_urln p_msg m_url m_headers m_body p_key p_val p_chunked p_body p_pairs p_token]; auto; try lia.
      unfold pending. cbn [p_key p_token]. destruct s; lia.
    + destruct (MAX_HEADER_NAME_LENGTH <? len (p_key p1 ++ s)) eqn:E2; [discriminate|]. injection H as <-.
      unfold MAX_HEADERS_COUNT, MAX_HEADER_NAME_LENGTH in *.
      destruct I1. constructor; cbn [p_url p_urln p_msg m_url m_headers m_body p_key p_val p_chunked p_body p_pairs p_token]; auto; try lia.
      * unfold pending in *. cbn [p_key p_token]. rewrite ET in i_cnt0. destruct (p_key p1), s; cbn [app] in *; lia.
      * apply Forall_app. auto.
    + destruct (MAX_HEADERS_COUNT <? p_pairs p1 + 1) eqn:E1; [discriminate|].
      destruct (MAX_HEADER_NAME_LENGTH <? len ([] ++ s)) eqn:E2; [discriminate|]. injection H as <-.
      unfold MAX_HEADERS_COUNT, MAX_HEADER_NAME_LENGTH in *. cbn [app] in *.
      assert (HC' := HC ltac:(congruence)).
      destruct I1. constructor; cbn [p_url p_urln p_msg m_url m_headers m_body p_key p_val p_chunked p_body p_pairs p_token]; auto; try lia.
      unfold pending. cbn [p_key p_token]. destruct s; lia.
  - unfold on_header_value in H. unfold MAX_HEADER_VALUE_LENGTH in H.
    match type of H with (if _ <? len ?v then _ else _) = _ => set (vv := v) in *; destruct (8192 <? len vv) eqn:E end; [discriminate|].
    injection H as <-.
    assert (HV : bytes_ok vv).
    { unfold vv. apply Forall_app. split; [|exact HB]. destruct (p_token p); try constructor. apply i_valb. exact I. }
    destruct I. constructor; cbn [p_url p_urln p_msg m_url m_headers m_body p_key p_val p_chunked p_body p_pairs p_token]; auto; try lia.
    unfold pending in *. cbn [p_key p_token]. destruct (p_key p), (p_token p); lia.
  - unfold on_body, MAX_CHUNK_SIZE, MAX_BODY_SIZE in H.
    destruct (16777216 <? len s); [discriminate|]. destruct (104857600 <? p_body p + len s) eqn:E; [discriminate|]. injection H as <-.
    destruct I. constructor; cbn [p_url p_urln p_msg m_url m_headers m_body p_key p_val p_chunked p_body p_pairs p_token]; auto; try lia.
    rewrite len_app. lia.
  - now injection H as <-.
Qed.

Lemma seq_all_inv : forall ds p q, Inv p -> Forall (fun d => bytes_ok (text d)) ds ->
  seq_all M is_request p ds = Some q -> Inv q.
Proof.
  induction ds as [|d r IH]; cbn [seq_all]; intros p q I HB H; [now injection H as <-|].
  inversion HB; subst. destruct (callback M is_request p d) as [p1|] eqn:E; [|discriminate].
  apply (IH p1); auto. eapply callback_inv; eauto.
Qed.

Lemma with_l_inv : forall p l, Inv p -> Inv (with_l M p l).
Proof. intros p l []. constructor; auto. Qed.
Lemma with_run_inv : forall p l, Inv p -> Inv (with_run M p l).
Proof. intros p l []. constructor; auto. Qed.

Lemma heads_inv : forall p mt q, Inv p -> on_headers_complete M is_request p mt = Some q ->
  Inv q /\ (p_length q = ULLONG_MAX \/ p_length q <= 104857600).
Proof.
  intros p mt q I H. unfold on_headers_complete in H. destruct (commit M p) as [p1|] eqn:EC; [|discriminate].
  destruct (commit_inv _ _ I EC) as (I1 & _ & _).
  match type of H with (if ?b then _ else _) = _ => destruct b; [discriminate|] end.
  match type of H with context [negb (?x =? ULLONG_MAX)] => set (n := x) in *; destruct (negb (n =? ULLONG_MAX) && (MAX_BODY_SIZE <? n)) eqn:E end; [discriminate|].
  injection H as <-. split.
  - destruct I1. constructor; cbn [p_url p_urln p_msg m_url m_headers m_body p_key p_val p_chunked p_body p_pairs p_token]; auto.
    unfold pending in *. cbn [p_key p_token]. destruct (p_key p1), (p_token p1); lia.
  - cbn [p_length]. unfold MAX_BODY_SIZE in E. lia.
Qed.

(** what is delivered *)
Lemma within_plain : forall p b, Inv p -> size b <= 104857600 -> WithinLimits (p_msg (set_body M p b)).
Proof.
  intros p b [] HB. unfold set_body, with_msg. cbn [p_msg]. unfold WithinLimits. cbn [m_url m_headers m_body].
  refine (conj i_murl0 (conj i_okf0 (conj _ HB))). left. lia.
Qed.
Lemma within_empty : forall p, Inv p -> WithinLimits (p_msg p).
Proof.
  intros p []. unfold WithinLimits. refine (conj i_murl0 (conj i_okf0 (conj _ _))); [left; lia|].
  rewrite i_mbody0. unfold size. cbn [length]. lia.
Qed.

Lemma header_ok : forall n h, bytes_ok n -> HeaderMap h -> Forall okf (fields_of h) ->
  size (header n h) <= 8192 /\ bytes_ok (header n h) /\ (find_header n h = None -> header n h = []).
Proof.
  intros n h Hn Hh Ho. unfold header. pose proof (find_header_values n h Hn Hh) as HV.
  destruct (find_header n h) as [[|v vs]|]; [destruct HV; congruence| |refine (conj _ (conj _ _)); [unfold size; cbn [length]; lia|constructor|auto]].
  destruct HV as [HV _]. pose proof (values_bytes n h Hh) as HB. rewrite HV in HB. inversion HB; subst.
  refine (conj _ (conj _ _)); [|assumption|discriminate].
  assert (HI : In v (values_of n (fields_of h))) by (rewrite HV; now left).
  unfold values_of in HI. apply in_map_iff in HI as (f & <- & HI). apply filter_In in HI as [HI _].
  rewrite Forall_forall in Ho. apply Ho in HI. apply HI.
Qed.

Lemma within_chunked : forall p, Inv p -> WithinLimits (p_msg (on_message_complete M p)).
Proof.
  intros p []. unfold on_message_complete. cbn [p_msg]. unfold WithinLimits. cbn [m_url m_headers m_body].
  assert (HCB : bytes_ok (str "Content-Type")) by (repeat constructor).
  destruct (header_ok (str "Content-Type") (m_headers (p_msg p)) HCB i_map0 i_okf0) as (S1 & S2 & S3).
  refine (conj i_murl0 (conj _ (conj _ _))).
  - apply set_okf; auto. split; [vm_compute; discriminate|exact S1].
  - destruct (set_count (str "Content-Type") (header (str "Content-Type") (m_headers (p_msg p))) (m_headers (p_msg p)) i_map0) as [[C1 C2]|[C1 C2]].
    + left. lia.
    + right. split; [lia|]. rewrite set_values by auto. rewrite beq_refl, (S3 C2). reflexivity.
  - rewrite size_len. lia.
Qed.

(** ** Invariant of the octet machine *)
Variable forbidden : nat -> bool.

Definition SInv (s : sst M * list msg) : Prop :=
  Forall WithinLimits (snd s) /\
  match fst s with
  | SHead _ p => Inv p
  | SBody _ p acc => Inv p /\ p_length p <= 104857600
  | SChunk _ p => Inv p
  | SEof _ p acc => Inv p /\ size acc <= 104857600
  | SDead _ => True
  end.

Hypothesis HB : Octets M.

Lemma deliver_inv : forall p out, WithinLimits (p_msg p) -> Forall WithinLimits out -> SInv (deliver M p out).
Proof.
  intros p out H HO. split; cbn [deliver fst snd]; [apply Forall_app; auto|apply inv_reset].
Qed.

Lemma enter_inv : forall p out, Inv p -> (p_length p = ULLONG_MAX \/ p_length p <= 104857600) -> Forall WithinLimits out ->
  SInv (enter M is_request forbidden p out).
Proof.
  intros p out I HL HO. unfold enter.
  destruct (negb is_request && forbidden (length out)); [apply deliver_inv; auto using within_empty|].
  destruct (has_header _ _).
  - destruct (m_wake M (p_l p)) as [l st]. destruct st; cbn [finish].
    + split; cbn [fst snd]; auto using with_l_inv, with_run_inv.
    + destruct (on_headers_complete _ _ _ _); split; cbn [fst snd]; auto.
    + apply deliver_inv; auto. apply within_chunked; auto using with_l_inv, with_run_inv.
    + split; cbn [fst snd]; auto.
  - destruct (negb is_request && p_needs_eof p).
    + split; cbn [fst snd]; auto. split; auto. unfold size. cbn [length]. lia.
    + destruct (p_length p =? ULLONG_MAX) eqn:E; [split; cbn [fst snd]; auto|].
      destruct (p_length p =? 0); [apply deliver_inv; auto using within_empty|].
      split; cbn [fst snd]; auto. split; auto. destruct HL; [lia|auto].
Qed.

Lemma step_inv : forall s c, SInv s -> SInv (spec_step M is_request forbidden s c).
Proof.
  intros [st out] c [HO HI]. cbn [fst snd] in *. unfold spec_step.
  destruct st as [p|p acc|p|p acc|].
  - cbn [seq_loop]. pose proof (HB (p_l p) c) as HBD. destruct (m_step M (p_l p) c) as [[l ds] st] eqn:ES. cbn [fst snd] in HBD.
    destruct (seq_all M is_request (with_l M p l) ds) as [q|] eqn:EA; [|split; cbn [fst snd]; auto].
    assert (HQ : Inv q) by (apply (seq_all_inv ds (with_l M p l) q); [apply with_l_inv; exact HI|exact HBD|exact EA]).
    destruct st; cbn [finish]; [split; cbn [fst snd]; auto| |split; cbn [fst snd]; auto|split; cbn [fst snd]; auto].
    destruct (on_headers_complete M is_request q m) as [q'|] eqn:EH; [|split; cbn [fst snd]; auto].
    destruct (heads_inv _ _ _ HQ EH). apply enter_inv; auto.
  - destruct (len (acc ++ [c]) =? p_length p) eqn:E.
    + apply deliver_inv; auto. apply within_plain; [tauto|]. rewrite size_len. destruct HI. lia.
    + split; cbn [fst snd]; auto.
  - cbn [seq_loop]. pose proof (HB (p_l p) c) as HBD. destruct (m_step M (p_l p) c) as [[l ds] st] eqn:ES. cbn [fst snd] in HBD.
    destruct (seq_all M is_request (with_l M p l) ds) as [q|] eqn:EA; [|split; cbn [fst snd]; auto].
    assert (HQ : Inv q) by (apply (seq_all_inv ds (with_l M p l) q); [apply with_l_inv; exact HI|exact HBD|exact EA]).
    destruct st; cbn [finish]; [split; cbn [fst snd]; auto| | |split; cbn [fst snd]; auto].
    + destruct (on_headers_complete M is_request q m); split; cbn [fst snd]; auto.
    + apply deliver_inv; auto. apply within_chunked. exact HQ.
  - unfold MAX_BODY_SIZE. destruct (104857600 <? len (acc ++ [c])) eqn:E; split; cbn [fst snd]; auto.
    split; [tauto|]. rewrite size_len. lia.
  - split; cbn [fst snd]; auto.
Qed.

Lemma run_inv : forall s x, SInv x -> SInv (fold_left (spec_step M is_request forbidden) s x).
Proof. induction s; intros x H; cbn [fold_left]; auto using step_inv. Qed.
Lemma start_inv : SInv (start M).
Proof. split; cbn; [constructor|apply inv_reset]. Qed.

End Inv.
