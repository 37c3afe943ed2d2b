(** HTTP/2 header field checks, stream states, window arithmetic: C25-C29. *)
From Verif Require Import Base UtilModel UtilSpec UtilProofs H2FieldModel H2FieldSpec.
From Coq Require Import Permutation.
Local Open Scope N_scope.

(** ** C25 *)
Lemma pcl_loop_spec s : forall acc n, acc < 2 ^ 64 ->
  pcl_loop acc s = Some n <-> Forall Digit s /\ n = acc * 10 ^ N.of_nat (length s) + dec_val s /\ n < 2 ^ 64.
Proof.
  change (2 ^ 64) with 18446744073709551616.
  induction s as [|c s IH]; intros acc n Ha; cbn [pcl_loop dec_val length].
  - change (10 ^ N.of_nat 0) with 1. split; [intros E; injection E as <-; split; [constructor|lia]|]. intros (_ & -> & _). f_equal. lia.
  - destruct ((c <? 48) || (57 <? c)) eqn:Ec.
    + apply orb_true_iff in Ec. rewrite !N.ltb_lt in Ec. split; [discriminate|]. intros (H & _). inversion H; subst. unfold Digit in *. lia.
    + apply orb_false_iff in Ec as [E1 E2]. apply N.ltb_ge in E1, E2.
      assert (Hp : 10 ^ N.of_nat (S (length s)) = 10 * 10 ^ N.of_nat (length s)) by (rewrite Nat2N.inj_succ; apply N.pow_succ_r').
      assert (Hpos : 1 <= 10 ^ N.of_nat (length s)) by (assert (10 ^ N.of_nat (length s) <> 0) by (apply N.pow_nonzero; discriminate); lia).
      rewrite Hp. destruct (_ <? acc) eqn:Eo.
      * apply N.ltb_lt in Eo. split; [discriminate|]. intros (_ & -> & Hb). exfalso.
        pose proof (N.div_mod (18446744073709551615 - (c - 48)) 10). pose proof (N.mod_lt (18446744073709551615 - (c - 48)) 10).
        assert (18446744073709551616 <= acc * 10 + (c - 48)) by lia. nia.
      * apply N.ltb_ge in Eo. assert (Hb : acc * 10 + (c - 48) < 18446744073709551616).
        { pose proof (N.div_mod (18446744073709551615 - (c - 48)) 10). lia. }
        change (2 ^ 64) with 18446744073709551616. rewrite (N.mod_small _ 18446744073709551616) by auto. rewrite IH by auto.
        replace (acc * (10 * 10 ^ N.of_nat (length s)) + ((c - 48) * 10 ^ N.of_nat (length s) + dec_val s))
          with ((acc * 10 + (c - 48)) * 10 ^ N.of_nat (length s) + dec_val s) by lia.
        split; intros (H1 & H2); (split; [|exact H2]); [constructor; [unfold Digit; lia|auto]|now inversion H1].
Qed.

Theorem content_length_exact v n :
  parse_content_length v = Some n <-> exists t, Trimmed v t /\ t <> [] /\ Forall Digit t /\ dec_val t = n /\ n < 2 ^ 64.
Proof.
  unfold parse_content_length. pose proof (trim_spec v) as HT. destruct (trim_http_whitespace v) as [|c r] eqn:E.
  - split; [discriminate|]. intros (t & Ht & Hne & _). exfalso. apply Hne. eapply Trimmed_det; eauto.
  - rewrite pcl_loop_spec by reflexivity. split.
    + intros (H1 & H2 & H3). exists (c :: r). split; [auto|]. split; [discriminate|]. split; [auto|]. split; [lia|auto].
    + intros (t & Ht & Hne & Hd & Hv & Hb). rewrite (Trimmed_det _ _ _ HT Ht). split; [auto|]. split; [lia|auto].
Qed.

(** Signs, embedded blanks and overflow are rejected. *)
Example content_length_cases :
  parse_content_length (str " 18446744073709551615 ") = Some 18446744073709551615 /\ parse_content_length (str "18446744073709551616") = None /\
  parse_content_length (str "+5") = None /\ parse_content_length (str "1 2") = None /\ parse_content_length (str "0x10") = None /\ parse_content_length [] = None.
Proof. repeat split. Qed.

(** ** C26 *)
Lemma existsb_In c l : existsb (N.eqb c) l = true <-> In c l.
Proof. rewrite existsb_exists. split; [intros (x & H & E); apply N.eqb_eq in E; now subst|]. intros H. exists c. split; [auto|apply N.eqb_refl]. Qed.

Lemma name_byte_spec c : name_byte_ok c = true <-> LowerTchar c.
Proof.
  unfold name_byte_ok, LowerTchar. change (str "!#$%&'*+-.^_`|~") with [33; 35; 36; 37; 38; 39; 42; 43; 45; 46; 94; 95; 96; 124; 126].
  destruct ((c =? 0) || (c =? 13) || (c =? 10) || ((65 <=? c) && (c <=? 90))) eqn:E.
  - split; [discriminate|]. intros H. exfalso. rewrite !orb_true_iff, andb_true_iff, !N.eqb_eq, !N.leb_le in E.
    destruct H as [H|[H|H]]; [lia|lia|]. cbn [In] in H. lia.
  - rewrite !orb_true_iff, !andb_true_iff, !N.leb_le, existsb_In. tauto.
Qed.

Lemma value_byte_spec c : value_byte_ok c = true <-> FieldVchar c.
Proof.
  unfold value_byte_ok, FieldVchar. destruct ((c =? 0) || (c =? 13) || (c =? 10)) eqn:E.
  - rewrite !orb_true_iff, !N.eqb_eq in E. split; [discriminate|lia].
  - rewrite negb_true_iff, orb_false_iff, andb_false_iff, negb_false_iff, N.eqb_eq, N.ltb_ge, N.eqb_neq.
    rewrite !orb_false_iff, !N.eqb_neq in E. lia.
Qed.

Lemma forallb_Forall {A} (p : A -> bool) (P : A -> Prop) l : (forall x, p x = true <-> P x) -> (forallb p l = true <-> Forall P l).
Proof. intros H. rewrite forallb_forall, Forall_forall. split; intros X x Hx; apply H, X, Hx. Qed.

Theorem header_field_valid_exact name value :
  is_valid_header_field name value = true <-> name <> [] /\ Forall LowerTchar name /\ Forall FieldVchar value.
Proof.
  unfold is_valid_header_field, is_valid_header_value. destruct name as [|c r]; [split; [discriminate|intros [H _]; congruence]|].
  rewrite andb_true_iff, (forallb_Forall _ LowerTchar), (forallb_Forall _ FieldVchar) by (apply name_byte_spec || apply value_byte_spec).
  split; [intros [H1 H2]; split; [discriminate|auto]|tauto].
Qed.

Theorem header_field_no_injection name value : is_valid_header_field name value = true ->
  forall c, In c (name ++ value) -> c <> 13 /\ c <> 10 /\ c <> 0.
Proof.
  intros H c Hc. apply header_field_valid_exact in H as (_ & Hn & Hv). rewrite Forall_forall in Hn, Hv.
  apply in_app_or in Hc as [Hc|Hc]; [apply Hn in Hc|apply Hv in Hc]; unfold LowerTchar, FieldVchar in *.
  - change (str "!#$%&'*+-.^_`|~") with [33; 35; 36; 37; 38; 39; 42; 43; 45; 46; 94; 95; 96; 124; 126] in Hc. cbn [In] in Hc. lia.
  - lia.
Qed.

Theorem connection_headers_forbidden name : is_forbidden_header name = true <->
  In name [str "connection"; str "upgrade"; str "http2-settings"; str "transfer-encoding"; str "proxy-connection"; str "keep-alive"; str "host"].
Proof.
  unfold is_forbidden_header. destruct (beq name (str "te")) eqn:E.
  - apply beq_eq in E. subst. split; [discriminate|]. intros H. cbn [In] in H. repeat destruct H as [H|H]; try discriminate H; try contradiction.
  - rewrite existsb_exists. split.
    + intros (x & Hx & Ex). apply beq_eq in Ex. subst x. cbn [In forbidden_names] in *. repeat destruct Hx as [Hx|Hx]; auto 10; try contradiction.
      subst. discriminate.
    + intros H. exists name. split; [|apply beq_refl]. cbn [In forbidden_names] in *. tauto.
Qed.

(** TE: the loop computes on the same items as the list splitter. *)
Definition te_items (items : list (list N)) : bool := forallb (fun t => iequals t (str "trailers")) items.
Lemma split_loop_any fuel : forall s a t, split_and_trim_loop fuel 44 s a = Some t -> forall b, exists t', split_and_trim_loop fuel 44 s b = Some t'.
Proof.
  induction fuel as [|k IH]; intros s a t H b; [discriminate|]. cbn [split_and_trim_loop] in *. cbv zeta in *.
  destruct (find_char 44 s); [|eauto]. destruct (trim_http_whitespace _); eapply IH; eauto.
Qed.
Lemma split_loop_shift fuel : forall s a t, split_and_trim_loop fuel 44 s [] = Some t -> split_and_trim_loop fuel 44 s a = Some (a ++ t).
Proof.
  induction fuel as [|k IH]; intros s a t H; [discriminate|]. cbn [split_and_trim_loop] in *. cbv zeta in *.
  destruct (find_char 44 s) as [pos|].
  - destruct (trim_http_whitespace (firstn pos s)) as [|c r]; [now apply IH|].
    destruct (split_loop_any _ _ _ _ H []) as [t' Ht']. rewrite (IH _ _ _ Ht') in H. injection H as <-.
    rewrite (IH _ (a ++ [c :: r]) _ Ht'). rewrite <- app_assoc. reflexivity.
  - destruct (trim_http_whitespace s); injection H as <-; [now rewrite app_nil_r|reflexivity].
Qed.
Lemma split_loop_acc fuel s acc items : split_and_trim_loop fuel 44 s acc = Some items ->
  exists tail, items = acc ++ tail /\ split_and_trim_loop fuel 44 s [] = Some tail.
Proof.
  intros H. destruct (split_loop_any _ _ _ _ H []) as [t Ht]. exists t. split; [|auto]. rewrite (split_loop_shift _ _ acc _ Ht) in H. congruence.
Qed.

Lemma te_loop_spec fuel : forall s saw items, split_and_trim_loop fuel 44 s [] = Some items ->
  te_loop fuel s saw = te_items items && (saw || negb (match items with [] => true | _ => false end)).
Proof.
  induction fuel as [|k IH]; intros s saw items H; [discriminate|]. cbn [split_and_trim_loop te_loop] in *. cbv zeta in *.
  destruct s as [|c0 s0].
  { cbn in H. injection H as <-. cbn. now rewrite orb_false_r. }
  set (s := c0 :: s0) in *. clearbody s. destruct (find_char 44 s) as [pos|].
  - destruct (trim_http_whitespace (firstn pos s)) as [|c r] eqn:Et.
    + now apply IH.
    + apply split_loop_acc in H as (tail & -> & E). rewrite (IH _ true _ E). cbn [app te_items forallb].
      destruct (iequals (c :: r) (str "trailers")); cbn [andb orb negb]; [|reflexivity]. rewrite orb_true_r. reflexivity.
  - destruct (trim_http_whitespace s) as [|c r]; injection H as <-; cbn [app te_items forallb andb negb]; [now rewrite orb_false_r|].
    destruct (iequals (c :: r) (str "trailers")); cbn; [now rewrite orb_true_r|reflexivity].
Qed.

(** TE is accepted exactly when its comma separated items are one or more trailers, in any case. *)
Theorem te_only_trailers value : bytes_ok value -> exists items, HeaderItems 44 value items /\
  (is_valid_request_te_value value = true <-> items <> [] /\ Forall (fun t => map lower t = str "trailers") items).
Proof.
  intros Hb. destruct (split_and_trim_items value 44) as (items & Es & Hi). exists items. split; [auto|].
  unfold is_valid_request_te_value. unfold split_and_trim_header_list in Es. rewrite (te_loop_spec _ _ _ _ Es). cbn [orb].
  rewrite andb_true_iff. unfold te_items.
  assert (HB : Forall bytes_ok items).
  { destruct Hi as (ps & ts & Ev & _ & _ & HT & ->). apply Forall_forall. intros t Ht. apply filter_In in Ht as [Ht _].
    assert (Hp : Forall bytes_ok ps).
    { clear - Hb Ev. subst value. induction ps as [|p ps IH]; [constructor|]. destruct ps as [|q ps]; [constructor; auto|].
      change (intercalate [44] (p :: q :: ps)) with (p ++ [44] ++ intercalate [44] (q :: ps)) in Hb.
      unfold bytes_ok in Hb. rewrite !Forall_app in Hb. destruct Hb as (H1 & _ & H2). constructor; auto. }
    clear - HT Ht Hp. revert Hp Ht. induction HT as [|p q ps ts Hpq _ IH]; intros Hp Ht; [contradiction|]. inversion Hp; subst.
    destruct Ht as [->|Ht]; [|auto]. destruct Hpq as (a & b & -> & _). unfold bytes_ok in *. rewrite !Forall_app in *. tauto. }
  rewrite forallb_forall, Forall_forall. assert (Htr : bytes_ok (str "trailers")) by (repeat constructor).
  assert (HQ : (forall x, In x items -> iequals x (str "trailers") = true) <-> (forall x, In x items -> map lower x = str "trailers")).
  { rewrite Forall_forall in HB. split; intros H x Hx; specialize (H x Hx); [apply iequals_spec in H; auto|apply iequals_spec; auto]. }
  rewrite HQ. destruct items; cbn [negb]; split; intros [A B]; split; auto; try discriminate; try congruence.
Qed.

(** Pseudo-header fields come first. *)
Lemma is_pseudo_spec f : is_pseudo (fst f) = true <-> Pseudo f.
Proof.
  unfold Pseudo. destruct (fst f) as [|c r]; cbn [is_pseudo]; [split; [discriminate|intros [? ?]; discriminate]|].
  split; [|intros [? E]; injection E as -> _; reflexivity].
  destruct (N.eq_dec c 58) as [->|Hne]; [eauto|]. intros H. exfalso. apply Hne.
  destruct c as [|p]; [discriminate|]. repeat (destruct p as [p|p|]; try discriminate H). reflexivity.
Qed.
Lemma is_pseudo_false f : is_pseudo (fst f) = false <-> ~ Pseudo f.
Proof. rewrite <- is_pseudo_spec. destruct (is_pseudo (fst f)); split; congruence. Qed.

Lemma pseudo_order_seen hs : pseudo_order_loop true hs = true <-> Forall (fun f => ~ Pseudo f) hs.
Proof.
  induction hs as [|h hs IH]; cbn [pseudo_order_loop]; [split; auto|]. destruct (is_pseudo (fst h)) eqn:E.
  - apply is_pseudo_spec in E. split; [discriminate|]. intros H. inversion H; contradiction.
  - apply is_pseudo_false in E. rewrite IH. split; [constructor; auto|]. intros H; now inversion H.
Qed.

Theorem pseudo_order_exact hs : validate_pseudo_header_order hs = true <->
  exists ps rs, hs = ps ++ rs /\ Forall Pseudo ps /\ Forall (fun f => ~ Pseudo f) rs.
Proof.
  unfold validate_pseudo_header_order. induction hs as [|h hs IH]; cbn [pseudo_order_loop].
  - split; [exists [], []; auto|reflexivity].
  - destruct (is_pseudo (fst h)) eqn:E.
    + apply is_pseudo_spec in E. rewrite IH. split.
      * intros (ps & rs & -> & Hp & Hr). exists (h :: ps), rs. auto.
      * intros ([|p ps] & rs & Eq & Hp & Hr).
        { cbn in Eq. subst rs. inversion Hr; contradiction. }
        injection Eq as <- ->. inversion Hp; subst. eauto.
    + apply is_pseudo_false in E. rewrite pseudo_order_seen. split.
      * intros H. exists [], (h :: hs). auto.
      * intros ([|p ps] & rs & Eq & Hp & Hr); [cbn in Eq; subst; now inversion Hr|]. injection Eq as <- ->. inversion Hp; contradiction.
Qed.

(** Request pseudo-header fields. *)
Definition request_names : list (list N) := [str ":method"; str ":path"; str ":scheme"; str ":authority"].

Lemma PseudoOf_exists hs : exists ps, PseudoOf hs ps.
Proof.
  induction hs as [|h hs [ps IH]]; [exists []; constructor|]. destruct (is_pseudo (fst h)) eqn:E.
  - apply is_pseudo_spec in E. exists (h :: ps). now constructor.
  - apply is_pseudo_false in E. exists ps. now constructor.
Qed.

Definition missing (f : seen4) : list (list N) :=
  (if s_method f then [] else [str ":method"]) ++ (if s_path f then [] else [str ":path"]) ++
  (if s_scheme f then [] else [str ":scheme"]) ++ (if s_authority f then [] else [str ":authority"]).

Lemma is_nil_spec v : is_nil v = true <-> v = [].
Proof. destruct v; cbn; split; congruence. Qed.

Lemma req_loop_ok hs ps : PseudoOf hs ps -> forall f,
  (exists g, req_pseudo_loop f hs = Some g /\ s_method g && s_path g && s_scheme g && s_authority g = true) <->
  Permutation (map fst ps) (missing f) /\ Forall (fun p => snd p <> []) ps.
Proof.
  induction 1 as [|[n v] fs ps HP H IH|[n v] fs ps HP H IH]; intros f.
  - cbn [req_pseudo_loop map]. split.
    + intros (g & E & Hg). injection E as <-. destruct f as [[] [] [] []]; try discriminate. split; [constructor|constructor].
    + intros [Hp _]. apply Permutation_nil in Hp. exists f. split; [reflexivity|]. destruct f as [[] [] [] []]; discriminate || reflexivity.
  - assert (Ep : is_pseudo n = true) by (apply (is_pseudo_spec (n, v)); auto).
    cbn [req_pseudo_loop map fst]. rewrite Ep. cbn [negb].
    assert (Step : forall (f' : seen4), Permutation (n :: missing f') (missing f) ->
      ((exists g, (if is_nil v then None else req_pseudo_loop f' fs) = Some g /\ s_method g && s_path g && s_scheme g && s_authority g = true) <->
       Permutation (n :: map fst ps) (missing f) /\ Forall (fun p : field => snd p <> []) ((n, v) :: ps))).
    { intros f' Hf'. destruct (is_nil v) eqn:Ev.
      - apply is_nil_spec in Ev. split; [intros (g & E & _); discriminate|]. intros [_ X]. inversion X; subst. cbn in *. congruence.
      - assert (v <> []) by (intros X; apply is_nil_spec in X; congruence). rewrite (IH f'). split.
        + intros [A B]. split; [|constructor; auto]. rewrite A. exact Hf'.
        + intros [A B]. inversion B; subst. split; [|auto]. rewrite <- Hf' in A. now apply Permutation_cons_inv in A. }
    assert (No : ~ In n (missing f) -> ((exists g, None = Some g /\ s_method g && s_path g && s_scheme g && s_authority g = true) <->
       Permutation (n :: map fst ps) (missing f) /\ Forall (fun p : field => snd p <> []) ((n, v) :: ps))).
    { intros Hn. split; [intros (g & E & _); discriminate|]. intros [A _]. exfalso. apply Hn. eapply Permutation_in; [exact A|]. now left. }
    destruct (beq n (str ":method")) eqn:E1.
    { apply beq_eq in E1. subst n. destruct f as [[] p s a]; cbn [s_method s_path s_scheme s_authority].
      - apply No. destruct p, s, a; cbn [missing app In s_method s_path s_scheme s_authority]; intuition discriminate.
      - apply Step. reflexivity. }
    destruct (beq n (str ":path")) eqn:E2.
    { apply beq_eq in E2. subst n. destruct f as [m [] s a]; cbn [s_method s_path s_scheme s_authority].
      - apply No. destruct m, s, a; cbn [missing app In s_method s_path s_scheme s_authority]; intuition discriminate.
      - apply Step. unfold missing. cbn [s_method s_path s_scheme s_authority app]. apply (Permutation_middle (if m then [] else [str ":method"]) (_ ++ _) (str ":path")). }
    destruct (beq n (str ":scheme")) eqn:E3.
    { apply beq_eq in E3. subst n. destruct f as [m p [] a]; cbn [s_method s_path s_scheme s_authority].
      - apply No. destruct m, p, a; cbn [missing app In s_method s_path s_scheme s_authority]; intuition discriminate.
      - apply Step. unfold missing. cbn [s_method s_path s_scheme s_authority app]. rewrite !app_assoc.
        apply (Permutation_middle ((if m then [] else [str ":method"]) ++ (if p then [] else [str ":path"])) (if a then [] else [str ":authority"]) (str ":scheme")). }
    destruct (beq n (str ":authority")) eqn:E4.
    { apply beq_eq in E4. subst n. destruct f as [m p s []]; cbn [s_method s_path s_scheme s_authority].
      - apply No. destruct m, p, s; cbn [missing app In s_method s_path s_scheme s_authority]; intuition discriminate.
      - apply Step. unfold missing. cbn [s_method s_path s_scheme s_authority app]. rewrite !app_nil_r. rewrite !app_assoc. apply Permutation_cons_append. }
    apply No. apply beq_neq in E1, E2, E3, E4. unfold missing. rewrite !in_app_iff.
    destruct f as [[] [] [] []]; cbn [s_method s_path s_scheme s_authority In]; intuition congruence.
  - assert (Ep : is_pseudo n = false) by (apply (is_pseudo_false (n, v)); auto).
    cbn [req_pseudo_loop]. rewrite Ep. cbn [negb]. apply IH.
Qed.

(** Accepted exactly when :method, :path, :scheme and :authority occur once each, non-empty, and no other
    pseudo-header field occurs. *)
Theorem request_pseudo_exact hs : exists ps, PseudoOf hs ps /\
  (validate_request_pseudo_headers hs = true <-> Permutation (map fst ps) request_names /\ Forall (fun p => snd p <> []) ps).
Proof.
  destruct (PseudoOf_exists hs) as [ps Hps]. exists ps. split; [auto|].
  rewrite <- (req_loop_ok hs ps Hps (mk_seen4 false false false false)). unfold validate_request_pseudo_headers.
  destruct (req_pseudo_loop _ hs) as [g|]; split; eauto; [intros (g' & E & H); now injection E as <-|discriminate|intros (g' & E & _); discriminate].
Qed.

Lemma resp_loop_ok hs ps : PseudoOf hs ps -> Forall (fun f => bytes_ok (snd f)) hs -> forall has,
  resp_pseudo_loop has hs = Some true <->
  (if has then ps = [] else exists a b c, ps = [(str ":status", [a; b; c])] /\ Digit a /\ Digit b /\ Digit c).
Proof.
  assert (HD : forall c, c < 256 -> negb ((schar c <? 48) || (57 <? schar c))%Z = true <-> Digit c).
  { intros c Hc. rewrite negb_true_iff, orb_false_iff, !Z.ltb_ge. unfold schar, Digit. destruct (c <? 128) eqn:E; lia. }
  induction 1 as [|[n v] fs ps HP H IH|[n v] fs ps HP H IH]; intros HB has.
  - cbn [resp_pseudo_loop]. destruct has; split; try reflexivity; try discriminate. intros (a & b & c & E & _). discriminate.
  - assert (Ep : is_pseudo n = true) by (apply (is_pseudo_spec (n, v)); auto).
    inversion HB as [|? ? Hb HB']; subst. cbn [snd] in Hb.
    cbn [resp_pseudo_loop]. rewrite Ep. cbn [negb]. destruct (beq n (str ":status")) eqn:E.
    + apply beq_eq in E. subst n. destruct has; [split; discriminate|].
      destruct (is_nil v || negb (length v =? 3)%nat) eqn:El.
      * split; [discriminate|]. intros (a & b & c & Eq & _). injection Eq as -> _. discriminate.
      * apply orb_false_iff in El as [_ El]. apply negb_false_iff, Nat.eqb_eq in El.
        destruct v as [|a [|b [|c [|d v]]]]; try discriminate El. unfold bytes_ok in Hb. inversion Hb as [|? ? Ha Hb1]; subst.
        inversion Hb1 as [|? ? Hb' Hb2]; subst. inversion Hb2 as [|? ? Hc _]; subst.
        destruct (forallb _ [a; b; c]) eqn:Ef.
        -- cbn [forallb] in Ef. rewrite !andb_true_iff in Ef. destruct Ef as (F1 & F2 & F3 & _). apply HD in F1, F2, F3; auto.
           rewrite (IH HB' true). split; [intros ->; now exists a, b, c|]. intros (a' & b' & c' & Eq & _). now injection Eq as _ _ _ ->.
        -- split; [discriminate|]. intros (a' & b' & c' & Eq & D1 & D2 & D3). injection Eq as <- <- <- _. exfalso.
           cbn [forallb] in Ef. apply HD in D1, D2, D3; auto. rewrite D1, D2, D3 in Ef. discriminate.
    + apply beq_neq in E. split; [discriminate|]. destruct has; [discriminate|]. intros (a & b & c & Eq & _). injection Eq as Eq _ _. contradiction.
  - assert (Ep : is_pseudo n = false) by (apply (is_pseudo_false (n, v)); auto).
    inversion HB; subst. cbn [resp_pseudo_loop]. rewrite Ep. cbn [negb]. apply IH; auto.
Qed.

(** A response is accepted exactly when its only pseudo-header field is one three-digit :status. *)
Theorem response_pseudo_exact hs : Forall (fun f => bytes_ok (snd f)) hs -> exists ps, PseudoOf hs ps /\
  (validate_response_pseudo_headers hs = true <-> exists a b c, ps = [(str ":status", [a; b; c])] /\ Digit a /\ Digit b /\ Digit c).
Proof.
  intros HB. destruct (PseudoOf_exists hs) as [ps Hps]. exists ps. split; [auto|].
  rewrite <- (resp_loop_ok hs ps Hps HB false). unfold validate_response_pseudo_headers.
  destruct (resp_pseudo_loop false hs) as [[]|]; split; congruence.
Qed.

Example field_checks_nontrivial :
  validate_request_pseudo_headers [(str ":scheme", str "https"); (str ":method", str "GET"); (str ":path", str "/"); (str ":authority", str "a"); (str "x", [])] = true /\
  validate_request_pseudo_headers [(str ":method", str "GET"); (str ":path", str "/"); (str ":scheme", str "https"); (str ":path", str "/b"); (str ":authority", str "a")] = false /\
  validate_response_pseudo_headers [(str ":status", str "204"); (str "a", str "b")] = true /\
  is_valid_request_te_value (str " Trailers ,") = true /\ is_valid_request_te_value (str "gzip, trailers") = false /\
  is_valid_header_field (str "content-type") (str "a	b") = true /\ is_valid_header_field (str "Content-Type") (str "a") = false.
Proof. repeat split. Qed.

(** ** C27 *)
Definition step (s : sbase) (e : sevent) : sbase :=
  match e with
  | SendEnd => transition_state s true true
  | RecvEnd => transition_state s true false
  | SendNoEnd => transition_state s false true
  | RecvNoEnd => transition_state s false false
  | SendRst => mark_reset s true
  | RecvRst => mark_reset s false
  end.
Definition run (s : sbase) (evs : list sevent) : sbase := fold_left step evs s.
Definition opened : sbase := mk_sbase OPEN false false false false.

Definition happened (p : sevent -> bool) (evs : list sevent) : bool := existsb p evs.
Definition was_reset := happened (fun e => match e with SendRst | RecvRst => true | _ => false end).
Definition sent_end := happened (fun e => match e with SendEnd => true | _ => false end).
Definition recv_end := happened (fun e => match e with RecvEnd => true | _ => false end).

Lemma run_state evs :
  sb_state (run opened evs) =
    (if was_reset evs then CLOSED else if sent_end evs then if recv_end evs then CLOSED else HALF_CLOSED_LOCAL
     else if recv_end evs then HALF_CLOSED_REMOTE else OPEN) /\
  sb_rst_recv (run opened evs) || sb_rst_sent (run opened evs) = was_reset evs.
Proof.
  induction evs as [|e evs [IH IR]] using rev_ind; [split; reflexivity|].
  unfold run. rewrite fold_left_app. cbn [fold_left]. fold (run opened evs).
  unfold was_reset, sent_end, recv_end, happened in *. rewrite !existsb_app. cbn [existsb].
  destruct (run opened evs) as [st es er rs rr]. cbn [sb_state sb_rst_recv sb_rst_sent] in *. subst st.
  destruct e; cbn [step transition_state mark_reset negb sb_state sb_rst_recv sb_rst_sent];
  rewrite ?orb_false_r, ?orb_true_r; (split; [|auto]); try reflexivity;
  repeat match goal with |- context [existsb ?f evs] => destruct (existsb f evs) end; reflexivity.
Qed.

(** What a stream allows is determined by its history: a reset or END_STREAM in both directions closes it,
    data can be sent until the local END_STREAM and received until the remote one. *)
Theorem stream_state_exact evs :
  (is_closed (run opened evs) = true <-> was_reset evs = true \/ sent_end evs = true /\ recv_end evs = true) /\
  (can_send_data (run opened evs) = true <-> was_reset evs = false /\ sent_end evs = false) /\
  (can_receive_data (run opened evs) = true <-> was_reset evs = false /\ recv_end evs = false).
Proof.
  destruct (run_state evs) as [E R]. unfold is_closed, can_send_data, can_receive_data. rewrite <- orb_assoc, R, E.
  destruct (was_reset evs), (sent_end evs), (recv_end evs); cbn; intuition congruence.
Qed.

Lemma was_reset_app a b : was_reset (a ++ b) = was_reset a || was_reset b. Proof. apply existsb_app. Qed.
Lemma sent_end_app a b : sent_end (a ++ b) = sent_end a || sent_end b. Proof. apply existsb_app. Qed.
Lemma recv_end_app a b : recv_end (a ++ b) = recv_end a || recv_end b. Proof. apply existsb_app. Qed.

Theorem closed_stream_never_reopens evs more : is_closed (run opened evs) = true ->
  is_closed (run opened (evs ++ more)) = true /\ can_send_data (run opened (evs ++ more)) = false /\ can_receive_data (run opened (evs ++ more)) = false.
Proof.
  intros H. apply stream_state_exact in H. pose proof (stream_state_exact (evs ++ more)) as (A & B & C).
  rewrite was_reset_app, sent_end_app, recv_end_app in *.
  split; [apply A|split; apply not_true_iff_false; rewrite ?B, ?C]; destruct (was_reset evs), (sent_end evs), (recv_end evs); cbn in *; intuition congruence.
Qed.

Example stream_state_nontrivial : can_send_data (run opened [RecvNoEnd; RecvEnd; SendNoEnd]) = true /\ is_closed (run opened [RecvEnd; SendNoEnd; SendEnd]) = true.
Proof. split; reflexivity. Qed.

(** ** C28: SETTINGS_INITIAL_WINDOW_SIZE on one stream (Http2StreamBase::update_peer_window_size) *)
(** The full claim is false: shrinking the initial window is reported as an overflow although the window
    only gets smaller, ... *)
Theorem shrinking_window_rejected_refuted : exists w new old : Z, (0 <= new /\ new < old /\ old <= 65535 /\ w + (new - old) <= 2147483647 /\
  update_peer_window_size w new old = (false, w) /\ w <> w + (new - old))%Z.
Proof. exists 2147483000%Z, 1000%Z, 65535%Z. repeat split; try lia. Qed.

(** ... a window that becomes negative is reported as an error, ... *)
Theorem negative_window_rejected_refuted : exists w new old : Z, (0 <= w /\ 0 <= new <= 2147483647 /\ 0 <= old <= 2147483647 /\
  update_peer_window_size w new old = (false, w + (new - old)))%Z.
Proof. exists 0%Z, 16384%Z, 65535%Z. repeat split; try lia. Qed.

(** ... and the exact window -1 is taken for an overflow. *)
Theorem minus_one_window_rejected_refuted : exists w new old : Z, (update_peer_window_size w new old = (false, w) /\ old < new /\ w + (new - old) <= 0)%Z.
Proof. exists (-11)%Z, 110%Z, 100%Z. repeat split; lia. Qed.

(** What holds: when the window plus |new - old| stays within 2^31-1 and is not -1, the window moves by
    exactly new - old, and success means it is not negative. *)
Theorem window_change_exact_partial (w new old : Z) : (w + Z.abs (new - old) <= 2147483647 -> w + Z.abs (new - old) <> -1 ->
  update_peer_window_size w new old = (0 <=? w + (new - old), w + (new - old)))%Z.
Proof.
  intros H1 H2. unfold update_peer_window_size, update_window_safe.
  assert (2147483647 <? w + Z.abs (new - old) = false)%Z as -> by lia.
  assert (w + Z.abs (new - old) =? -1 = false)%Z as -> by lia.
  destruct (0 <=? new - old)%Z eqn:E; f_equal; try (f_equal); lia.
Qed.

(** A growth past 2^31-1 is always refused and leaves the window alone. *)
Theorem window_growth_overflow_refused (w new old : Z) : (old <= new -> 2147483647 < w + (new - old) ->
  update_peer_window_size w new old = (false, w))%Z.
Proof.
  intros H1 H2. unfold update_peer_window_size, update_window_safe.
  assert (2147483647 <? w + Z.abs (new - old) = true)%Z as -> by lia. reflexivity.
Qed.

(** ** C29: WINDOW_UPDATE arithmetic *)
(** For a window that is not negative the result -1 means overflow and nothing else, and any other result is
    the exact sum, at most the maximum. *)
Theorem window_update_exact (w inc max : Z) : (0 <= w -> 0 <= inc ->
  (update_window_safe w inc max = -1 <-> max < w + inc) /\
  (w + inc <= max -> update_window_safe w inc max = w + inc))%Z.
Proof. intros. unfold update_window_safe. destruct (max <? w + inc)%Z eqn:E; split; intros; try split; intros; lia. Qed.

(** For a negative window the -1 sentinel is ambiguous. *)
Theorem window_update_sentinel_refuted : exists w inc max : Z, (w + inc <= max /\ 0 < inc /\ update_window_safe w inc max = -1 /\ w + inc = -1)%Z.
Proof. exists (-6)%Z, 5%Z, 2147483647%Z. repeat split; lia. Qed.

(** Never above the maximum, whatever the window. *)
Theorem window_update_bounded (w inc max : Z) : (-1 <= max -> update_window_safe w inc max <= max)%Z.
Proof. unfold update_window_safe. destruct (max <? w + inc)%Z eqn:E; lia. Qed.
