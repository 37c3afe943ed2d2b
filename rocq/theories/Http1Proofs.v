From Verif Require Import Base UtilModel UtilSpec UtilProofs CookieSpec H2FieldSpec StaticModel DateModel CookieProps
  Http1Model Http1Spec.
Local Open Scope N_scope.

(** ** Characters *)
Lemma name_char_iff c : is_header_name_char c = true <-> TokenChar c.
Proof.
  unfold is_header_name_char, TokenChar. set (l := str "!#$%&'*+-.^_`|~"). vm_compute in l. subst l. cbn [In]. split; intros H.
  - repeat (apply orb_true_iff in H as [H|H]); lia.
  - repeat (destruct H as [H|H]); try subst c; try reflexivity; try lia.
Qed.
Lemma token_range c : TokenChar c -> 33 <= c < 127 /\ c <> 58.
Proof.
  unfold TokenChar. set (l := str "!#$%&'*+-.^_`|~"). vm_compute in l. subst l. cbn [In]. intros H.
  repeat (destruct H as [H|H]); try subst c; lia.
Qed.
Lemma name_valid_iff n : header_name_is_valid n = true <-> Token n /\ len n <= 1024.
Proof.
  unfold header_name_is_valid, Token, MAX_HEADER_NAME_LENGTH. destruct ((len n =? 0) || (1024 <? len n)) eqn:E.
  - split; [discriminate|]. intros [[H1 _] H2]. destruct n; [congruence|]. unfold len in *. cbn [length] in *. lia.
  - rewrite forallb_forall. split.
    + intros H. split; [split|]; [intros ->; discriminate| |lia]. apply Forall_forall. intros c Hc. apply name_char_iff. auto.
    + intros [[_ H] _] c Hc. apply name_char_iff. rewrite Forall_forall in H. auto.
Qed.
Lemma value_valid_iff v : header_value_is_valid v = true <-> Forall FieldVchar v /\ len v <= 8192.
Proof.
  unfold header_value_is_valid, MAX_HEADER_VALUE_LENGTH. destruct (8192 <? len v) eqn:E.
  - split; [discriminate|]. lia.
  - rewrite forallb_forall, Forall_forall. unfold FieldVchar. split.
    + intros H. split; [|lia]. intros c Hc. apply H in Hc. lia.
    + intros [H _] c Hc. apply H in Hc. lia.
Qed.
Lemma vchar_noeol v : Forall FieldVchar v -> NoEol v.
Proof. apply Forall_impl. unfold FieldVchar. lia. Qed.
Lemma token_noeol v : Token v -> NoEol v.
Proof. intros [_ H]. revert H. apply Forall_impl. intros c H. apply token_range in H. lia. Qed.

(** ** Numbers *)
Lemma fold_dec s : forall a, Forall Digit s -> fold_left (fun a c => 10 * a + (c - 48)) s a = a * 10 ^ N.of_nat (length s) + dec_val s.
Proof.
  induction s as [|c s IH]; intros a H; cbn [fold_left length dec_val].
  - change (10 ^ N.of_nat 0) with 1. lia.
  - inversion H; subst. rewrite IH by auto. rewrite Nat2N.inj_succ, N.pow_succ_r'. lia.
Qed.
Lemma from_chars_iff w n : from_chars_u64 w = Some n <-> Decimal w n /\ n < 2 ^ 64.
Proof.
  unfold from_chars_u64, Decimal. destruct w as [|c r]; [split; [discriminate|]; intros [[H _] _]; congruence|].
  set (w := c :: r). destruct (forallb _ w) eqn:E.
  - assert (F : Forall Digit w).
    { apply Forall_forall. intros x Hx. rewrite forallb_forall in E. apply E in Hx. unfold Digit. lia. }
    rewrite fold_dec by auto. rewrite N.mul_0_l, N.add_0_l.
    destruct (dec_val w <? 2 ^ 64) eqn:E2.
    + apply N.ltb_lt in E2. split.
      * intros H. apply some_inj in H. subst n. split; [|auto]. split; [discriminate|auto].
      * intros [(_ & _ & ->) _]. reflexivity.
    + apply N.ltb_ge in E2. split; [discriminate|]. intros [(_ & _ & H) H2]. lia.
  - split; [discriminate|]. intros [(_ & F & _) _]. exfalso.
    assert (forallb (fun c => (48 <=? c) && (c <=? 57)) w = true); [|congruence].
    apply forallb_forall. intros x Hx. rewrite Forall_forall in F. apply F in Hx. unfold Digit in Hx. lia.
Qed.
Lemma pcl_iff v n : parse_content_length v = Some n <-> exists t, Trimmed v t /\ Decimal t n /\ n < 2 ^ 64.
Proof.
  unfold parse_content_length. pose proof (trim_spec v) as T. destruct (trim_http_whitespace v) as [|c r] eqn:E.
  - split; [discriminate|]. intros (t & Ht & D & _). rewrite (Trimmed_det _ _ _ Ht T) in D. destruct D as [D _]. congruence.
  - rewrite from_chars_iff. split.
    + intros [H1 H2]. now exists (c :: r).
    + intros (t & Ht & D & H). rewrite (Trimmed_det _ _ _ T Ht). auto.
Qed.

Lemma digits_dec l : Forall Digit l -> digits_value l = Z.of_N (dec_val l).
Proof.
  intros H. assert (G : digits_value l = Z.of_N (fold_left (fun a c => 10 * a + (c - 48)) l 0)).
  { unfold digits_value. change 0%Z with (Z.of_N 0). generalize 0. induction l as [|c l IH]; intros a; [reflexivity|].
    inversion H; subst. cbn [fold_left]. replace (10 * Z.of_N a + (Z.of_N c - 48))%Z with (Z.of_N (10 * a + (c - 48))) by (unfold Digit in *; lia).
    now apply IH. }
  rewrite G, fold_dec by auto. f_equal.
Qed.
Lemma dec_spec n : Decimal (dec n) n.
Proof.
  unfold dec, to_string. replace (Z.of_N n <? 0)%Z with false by lia. rewrite N2Z.id.
  destruct (digits_spec (S (N.size_nat n)) n [] (size_bound n) ltac:(lia)) as (ds & E & Nn & F & V).
  rewrite E, app_nil_r. split; [auto|]. split; [exact F|]. rewrite digits_dec in V by exact F. lia.
Qed.

Lemma hex_val_app a b : hex_val (a ++ b) = hex_val a * 16 ^ N.of_nat (length b) + hex_val b.
Proof.
  induction a as [|x a IH]; cbn [hex_val app]; [lia|]. rewrite IH, app_length, Nat2N.inj_add, N.pow_add_r. lia.
Qed.
Lemma hex_loop_spec : forall f n acc, n < 16 ^ N.of_nat f -> f <> 0%nat ->
  exists ds vs, hex_loop f n acc = ds ++ acc /\ ds <> [] /\ Forall2 HexVal ds vs /\ hex_val vs = n.
Proof.
  induction f as [|f IH]; intros n acc Hn Hf; [congruence|]. cbn [hex_loop].
  set (d := n mod 16). assert (Hd : d < 16) by (apply N.mod_lt; lia).
  set (c := if d <? 10 then 48 + d else 87 + d).
  assert (HC : HexVal c d).
  { unfold c. destruct (N.ltb_spec d 10); [now constructor|]. replace (87 + d) with (97 + (d - 10)) by lia.
    replace d with (10 + (d - 10)) at 2 by lia. constructor. lia. }
  destruct (N.ltb_spec n 16) as [L|L].
  - exists [c], [d]. refine (conj eq_refl (conj _ (conj _ _))); [discriminate|auto|].
    cbn [hex_val length]. change (16 ^ N.of_nat 0) with 1. unfold d. rewrite N.mod_small by lia. lia.
  - assert (f <> 0%nat) by (intros ->; change (16 ^ N.of_nat 1) with 16 in Hn; lia).
    assert (Hq : n / 16 < 16 ^ N.of_nat f).
    { apply N.div_lt_upper_bound; [lia|]. rewrite Nat2N.inj_succ, N.pow_succ_r' in Hn. lia. }
    destruct (IH (n / 16) (c :: acc) Hq ltac:(auto)) as (ds & vs & E & Nn & F & V).
    exists (ds ++ [c]), (vs ++ [d]). refine (conj _ (conj _ (conj _ _))).
    + rewrite E, <- app_assoc. reflexivity.
    + now destruct ds.
    + apply Forall2_app; auto.
    + rewrite hex_val_app, V. cbn [hex_val length]. change (16 ^ N.of_nat 1) with 16. change (16 ^ N.of_nat 0) with 1.
      unfold d. pose proof (N.div_mod n 16 ltac:(lia)). lia.
Qed.
Lemma to_hex_spec n : Hexadecimal (to_hex n) n.
Proof.
  assert (B : n < 16 ^ N.of_nat (S (N.size_nat n))).
  { eapply N.lt_le_trans; [apply size_bound|]. apply N.pow_le_mono_l. lia. }
  destruct (hex_loop_spec _ n [] B ltac:(lia)) as (ds & vs & E & Nn & F & V).
  unfold to_hex. rewrite E, app_nil_r. split; [auto|]. now exists vs.
Qed.

(** ** Comma-separated lists *)
Fixpoint cut (d : N) (s : list N) : list (list N) :=
  match s with
  | [] => [[]]
  | c :: r => if c =? d then [] :: cut d r
              else match cut d r with h :: t => (c :: h) :: t | [] => [[c]] end
  end.
Definition ne (t : list N) : bool := match t with [] => false | _ => true end.
Definition items (d : N) (s : list N) : list (list N) := filter ne (map trim_http_whitespace (cut d s)).

Lemma cut_nonempty d s : cut d s <> [].
Proof. destruct s as [|c r]; cbn [cut]; [discriminate|]. destruct (c =? d); [discriminate|]. now destruct (cut d r). Qed.
Lemma cut_one d t : ~ In d t -> cut d t = [t].
Proof.
  induction t as [|c t IH]; intros H; [reflexivity|]. cbn [cut]. destruct (N.eqb_spec c d) as [->|E]; [exfalso; apply H; now left|].
  rewrite IH; [reflexivity|]. intros H1. apply H. now right.
Qed.
Lemma cut_more d t s : ~ In d t -> cut d (t ++ d :: s) = t :: cut d s.
Proof.
  induction t as [|c t IH]; intros H; cbn [app cut]; [now rewrite N.eqb_refl|].
  destruct (N.eqb_spec c d) as [->|E]; [exfalso; apply H; now left|].
  rewrite IH; [reflexivity|]. intros H1. apply H. now right.
Qed.
Lemma cut_intercalate d ps : ps <> [] -> Forall (fun p => ~ In d p) ps -> cut d (intercalate [d] ps) = ps.
Proof.
  induction ps as [|p ps IH]; intros Hn H; [congruence|]. inversion H; subst. destruct ps as [|q ps].
  - now apply cut_one.
  - rewrite intercalate_cons by discriminate. cbn [app]. rewrite cut_more by auto. f_equal. apply IH; [discriminate|auto].
Qed.
Lemma cut_spec d s : intercalate [d] (cut d s) = s /\ Forall (fun p => ~ In d p) (cut d s).
Proof.
  induction s as [|c r [IH1 IH2]]; cbn [cut]; [split; [reflexivity|repeat constructor; auto]|].
  destruct (N.eqb_spec c d) as [->|E].
  - split; [|constructor; auto]. rewrite intercalate_cons by apply cut_nonempty. cbn [app]. now rewrite IH1.
  - destruct (cut d r) as [|h t] eqn:Ec; [exfalso; eapply cut_nonempty; eauto|]. split.
    + destruct t as [|x t]; [cbn in *; now rewrite IH1|]. rewrite intercalate_cons in * by discriminate. cbn [app]. now rewrite <- IH1.
    + inversion IH2; subst. constructor; [|auto]. intros [H|H]; auto.
Qed.
Lemma trimmed_map l l' : Forall2 Trimmed l l' -> l' = map trim_http_whitespace l.
Proof. induction 1; cbn [map]; [reflexivity|]. f_equal; [|auto]. eapply Trimmed_det; [eassumption|apply trim_spec]. Qed.
Lemma items_iff d s l : HeaderItems d s l <-> l = items d s.
Proof.
  unfold HeaderItems, items. split.
  - intros (ps & tr & -> & H1 & H2 & H3 & ->). rewrite cut_intercalate by auto. now rewrite (trimmed_map _ _ H3).
  - intros ->. exists (cut d s), (map trim_http_whitespace (cut d s)). destruct (cut_spec d s) as [H1 H2].
    refine (conj _ (conj _ (conj _ (conj _ _)))); auto using cut_nonempty.
    clear. induction (cut d s); cbn [map]; constructor; auto using trim_spec.
Qed.

Lemma tokens_cut d ts s : Tokens (fun c => existsb (fun x => c =? x) [d]) ts s -> ts = filter ne (cut d s).
Proof.
  induction 1 as [|x ts s Hd H IH|t Hn Hf|t x ts s Hn Hf Hd H IH].
  - reflexivity.
  - cbn [existsb] in Hd. cbn [cut]. replace (x =? d) with true by lia. cbn [filter ne]. exact IH.
  - rewrite cut_one. { destruct t; [congruence|]. reflexivity. }
    rewrite Forall_forall in Hf. intros Hi. apply Hf in Hi. cbn [existsb] in Hi. rewrite N.eqb_refl in Hi. discriminate.
  - cbn [existsb] in Hd. assert (x = d) by lia. subst x. rewrite cut_more.
    { destruct t; [congruence|]. cbn [filter ne]. now f_equal. }
    rewrite Forall_forall in Hf. intros Hi. apply Hf in Hi. cbn [existsb] in Hi. rewrite N.eqb_refl in Hi. discriminate.
Qed.
Lemma filter_trim l : filter ne (map trim_http_whitespace (filter ne l)) = filter ne (map trim_http_whitespace l).
Proof. induction l as [|x l IH]; [reflexivity|]. destruct x; cbn [filter ne map]; [exact IH|]. rewrite IH. reflexivity. Qed.
Lemma filter_ne l : filter (fun t => negb (len t =? 0)) l = filter ne l.
Proof.
  induction l as [|x l IH]; [reflexivity|]. cbn [filter]. rewrite IH. destruct x as [|c x]; [reflexivity|].
  unfold len, ne. cbn [length]. now replace (N.of_nat (S (length x)) =? 0) with false by lia.
Qed.
Lemma te_tokens_items vs : te_tokens vs = flat_map (items 44) vs.
Proof.
  unfold te_tokens. apply flat_map_ext. intros v.
  destruct (split_string_ok v (fun c => existsb (fun x => c =? x) [44])) as (ts & E & T).
  change (split_string_set v (str ",")) with (split_string v (fun c => existsb (fun x => c =? x) [44])). rewrite E.
  rewrite filter_ne, (tokens_cut 44 ts v T), filter_trim. reflexivity.
Qed.

(** trimming a value does not change its items *)
Lemma trim_ows a s : Forall Ows a -> trim_http_whitespace (a ++ s) = trim_http_whitespace s.
Proof.
  induction 1 as [|c a Hc Ha IH]; [reflexivity|]. rewrite <- IH. unfold trim_http_whitespace. cbn [app drop_ws].
  apply is_ws_spec in Hc. now rewrite Hc.
Qed.
Lemma trimmed_ext s a b : Forall Ows a -> Forall Ows b -> trim_http_whitespace (a ++ s ++ b) = trim_http_whitespace s.
Proof.
  intros Ha Hb. rewrite trim_ows by auto. clear a Ha.
  destruct (trim_spec s) as (x & y & E & H1 & H2 & H3 & H4). eapply Trimmed_det; [apply trim_spec|].
  exists x, (y ++ b). rewrite E at 1. rewrite <- !app_assoc. split; [reflexivity|]. repeat split; auto. apply Forall_app; auto.
Qed.
Lemma ows_no44 a : Forall Ows a -> ~ In 44 a.
Proof. intros H Hi. rewrite Forall_forall in H. apply H in Hi. unfold Ows in Hi. lia. Qed.
Definition padded (x y : list N) : Prop := exists o, Forall Ows o /\ y = x ++ o.
Lemma cut_suffix b v : Forall Ows b -> Forall2 padded (cut 44 v) (cut 44 (v ++ b)).
Proof.
  intros Hb. induction v as [|c v IH]; cbn [app cut].
  - rewrite cut_one by now apply ows_no44. constructor; [|constructor]. now exists b.
  - destruct (c =? 44); [constructor; [exists []; split; [constructor|reflexivity]|auto]|].
    destruct (cut 44 v) as [|h t]; inversion IH as [|? h' ? t' Hh Ht]; subst.
    + constructor; [|constructor]. exists []. split; [constructor|reflexivity].
    + constructor; [|auto]. destruct Hh as (o & Ho & ->). exists o. split; auto.
Qed.
Lemma items_suffix b v : Forall Ows b -> items 44 (v ++ b) = items 44 v.
Proof.
  intros Hb. unfold items. f_equal. pose proof (cut_suffix b v Hb) as H. induction H as [|x y l l' Hx H IH]; [reflexivity|].
  cbn [map]. rewrite IH. f_equal. destruct Hx as (o & Ho & ->). apply (trimmed_ext x [] o); auto.
Qed.
Lemma items_prefix a v : Forall Ows a -> items 44 (a ++ v) = items 44 v.
Proof.
  intros Ha. unfold items. induction Ha as [|c a Hc Ha IH]; [reflexivity|]. rewrite <- IH. cbn [app cut].
  assert (c <> 44) by (unfold Ows in Hc; lia). destruct (N.eqb_spec c 44); [congruence|].
  destruct (cut 44 (a ++ v)) as [|h t] eqn:E; [exfalso; eapply cut_nonempty; eauto|]. cbn [map].
  replace (trim_http_whitespace (c :: h)) with (trim_http_whitespace h); [reflexivity|].
  symmetry. apply (trim_ows [c] h). constructor; [exact Hc|constructor].
Qed.
Lemma items_trimmed s t : Trimmed s t -> items 44 s = items 44 t.
Proof. intros (a & b & -> & Ha & Hb & _). now rewrite items_prefix, items_suffix. Qed.

(** ** Header maps *)
Lemma values_app n a b : values_of n (a ++ b) = values_of n a ++ values_of n b.
Proof. unfold values_of. now rewrite filter_app, map_app. Qed.
Lemma values_entry n name vs :
  values_of n (map (fun v => (name, v)) vs) = if beq (map lower name) (map lower n) then vs else [].
Proof.
  unfold values_of. induction vs as [|v vs IH]; cbn [map filter fst]; [now destruct (beq _ _)|].
  destruct (beq (map lower name) (map lower n)); cbn [map snd]; [now rewrite IH|exact IH].
Qed.
Lemma fields_cons e h : fields_of (e :: h) = map (fun v => (fst e, v)) (snd e) ++ fields_of h.
Proof. reflexivity. Qed.
Lemma values_absent n h : ~ In (map lower n) (map (fun e => map lower (fst e)) h) -> values_of n (fields_of h) = [].
Proof.
  induction h as [|e h IH]; intros H; [reflexivity|]. rewrite fields_cons, values_app, values_entry.
  destruct (beq _ _) eqn:E; [apply beq_eq in E; exfalso; apply H; cbn [map]; now left|].
  apply IH. intros Hi. apply H. now right.
Qed.
Lemma find_header_values n h : bytes_ok n -> HeaderMap h ->
  match find_header n h with
  | Some vs => values_of n (fields_of h) = vs /\ vs <> []
  | None => values_of n (fields_of h) = []
  end.
Proof.
  intros Hn [H1 H2]. unfold find_header. induction h as [|e h IH]; [reflexivity|].
  inversion H1 as [|? ? (Hb & Hne & Hv) H1']; subst. cbn [map] in H2. inversion H2 as [|? ? Hni H2']; subst.
  cbn [find]. rewrite fields_cons, values_app, values_entry. destruct (iequals (fst e) n) eqn:E.
  - apply iequals_spec in E; auto. rewrite E, beq_refl. split; [|auto]. rewrite values_absent, app_nil_r; [reflexivity|].
    now rewrite <- E.
  - destruct (beq _ _) eqn:E2.
    + apply beq_eq in E2. apply (proj2 (iequals_spec _ _ Hb Hn)) in E2. congruence.
    + cbn [app]. apply IH; auto.
Qed.

Lemma values_sent n g r : SentAs g r -> Forall2 Trimmed (values_of n g) (values_of n r).
Proof.
  unfold values_of. induction 1 as [|x y g r [Hn Hv] H IH]; cbn [filter map]; [constructor|].
  rewrite <- Hn. destruct (beq _ _); cbn [map]; [constructor; auto|auto].
Qed.
Lemma items_bytes d s : bytes_ok s -> Forall bytes_ok (items d s).
Proof.
  intros H. assert (Hc : Forall bytes_ok (cut d s)).
  { induction s as [|c r IH]; cbn [cut]; [repeat constructor|]. inversion H; subst. destruct (c =? d); [constructor; [constructor|auto]|].
    specialize (IH ltac:(auto)). destruct (cut d r) as [|h t]; [repeat constructor; auto|]. inversion IH; subst. constructor; [constructor; auto|auto]. }
  unfold items. apply Forall_forall. intros t Ht. apply filter_In in Ht as [Ht _]. apply in_map_iff in Ht as (p & <- & Hp).
  rewrite Forall_forall in Hc. apply Hc in Hp. destruct (trim_spec p) as (a & b & E & _). rewrite E in Hp.
  apply bytes_ok_app in Hp as [_ Hp]. now apply bytes_ok_app in Hp.
Qed.

Lemma chunked_lower t : bytes_ok t -> (iequals t (str "chunked") = true <-> map lower t = str "chunked").
Proof. intros H. rewrite iequals_spec by (auto; repeat constructor). reflexivity. Qed.

Lemma values_bytes n h : HeaderMap h -> Forall bytes_ok (values_of n (fields_of h)).
Proof.
  intros [H _]. induction h as [|e h IH]; [constructor|]. inversion H as [|? ? (_ & _ & Hv) H']; subst.
  rewrite fields_cons, values_app, values_entry. apply Forall_app. split; [destruct (beq _ _); [auto|constructor]|auto].
Qed.

(** what transfer_encoding finds, in terms of the fields a reader sees *)
Lemma te_absent h r : HeaderMap h -> SentAs (fields_of h) r ->
  (transfer_encoding h = Some false <-> values_of (str "Transfer-Encoding") r = []).
Proof.
  intros Hm Hs. pose proof (values_sent (str "Transfer-Encoding") _ _ Hs) as V.
  pose proof (find_header_values (str "Transfer-Encoding") h ltac:(repeat constructor) Hm) as F.
  unfold transfer_encoding. destruct (find_header _ h) as [vs|].
  - destruct F as [E Hne]. rewrite E in V. split; intros H.
    + exfalso. destruct (te_tokens vs) as [|t [|u l]]; [discriminate| |discriminate].
      destruct (iequals t (str "chunked")); discriminate.
    + exfalso. rewrite H in V. inversion V. congruence.
  - rewrite F in V. inversion V. split; auto.
Qed.
Lemma te_chunked h r : HeaderMap h -> SentAs (fields_of h) r ->
  (transfer_encoding h = Some true <-> values_of (str "Transfer-Encoding") r <> [] /\
     exists tss t, Forall2 (HeaderItems 44) (values_of (str "Transfer-Encoding") r) tss /\ concat tss = [t] /\ map lower t = str "chunked").
Proof.
  intros Hm Hs. pose proof (values_sent (str "Transfer-Encoding") _ _ Hs) as V.
  pose proof (find_header_values (str "Transfer-Encoding") h ltac:(repeat constructor) Hm) as F.
  pose proof (values_bytes (str "Transfer-Encoding") h Hm) as B.
  unfold transfer_encoding. destruct (find_header _ h) as [vs|].
  - destruct F as [E Hne]. rewrite E in V, B.
    set (rv := values_of (str "Transfer-Encoding") r) in *. clearbody rv.
    assert (T : te_tokens vs = flat_map (items 44) rv).
    { rewrite te_tokens_items. clear -V. induction V as [|x y l l' Hx H IH]; [reflexivity|]. cbn [flat_map]. rewrite IH. f_equal.
      now apply items_trimmed. }
    assert (TB : Forall bytes_ok (te_tokens vs)).
    { rewrite te_tokens_items. clear -B. induction B; cbn [flat_map]; [constructor|]. apply Forall_app. auto using items_bytes. }
    assert (U : forall tss, Forall2 (HeaderItems 44) rv tss -> concat tss = te_tokens vs).
    { intros tss H. rewrite T. clear -H. induction H as [|x y l l' Hx H IH]; [reflexivity|]. cbn [concat flat_map].
      apply items_iff in Hx. now rewrite Hx, IH. }
    assert (X : Forall2 (HeaderItems 44) rv (map (items 44) rv)).
    { clear. induction rv; cbn [map]; constructor; auto. now apply items_iff. }
    split.
    + intros H. split; [intros ->; inversion V; congruence|]. exists (map (items 44) rv).
      destruct (te_tokens vs) as [|t [|u l]] eqn:Et; [discriminate| |discriminate]. exists t.
      destruct (iequals t (str "chunked")) eqn:Ei; [|discriminate]. apply chunked_lower in Ei; [|now inversion TB].
      refine (conj X (conj _ Ei)). now apply U.
    + intros (_ & tss & t & H1 & H2 & H3). rewrite <- (U tss H1), H2.
      rewrite (proj2 (chunked_lower t ltac:(rewrite <- (U tss H1), H2 in TB; now inversion TB)) H3). reflexivity.
  - rewrite F in V. inversion V. split; [discriminate|]. intros [HH _]. congruence.
Qed.

Lemma cl_loop vs : forall p q, content_length_loop p vs = Some q <->
  (vs = [] /\ q = p) \/ (vs <> [] /\ exists n, q = Some n /\ (forall m, p = Some m -> m = n) /\
                         Forall (fun v => parse_content_length v = Some n) vs).
Proof.
  induction vs as [|v vs IH]; intros p q; cbn [content_length_loop].
  - split; [intros H; apply some_inj in H; left; auto|]. intros [[_ ->]|[H _]]; congruence.
  - destruct (parse_content_length v) as [k|] eqn:E.
    + assert (G : content_length_loop (Some k) vs = Some q /\ (forall m, p = Some m -> m = k) <->
                  (v :: vs = [] /\ q = p) \/ (v :: vs <> [] /\ exists n, q = Some n /\ (forall m, p = Some m -> m = n) /\
                         Forall (fun v => parse_content_length v = Some n) (v :: vs))).
      { rewrite IH. split.
        - intros [[(-> & ->)|(Hn & n & -> & H1 & H2)] H3]; right; (split; [discriminate|]).
          + exists k. refine (conj eq_refl (conj H3 _)). constructor; auto.
          + specialize (H1 k eq_refl). subst k. exists n. refine (conj eq_refl (conj H3 _)). constructor; auto.
        - intros [[H _]|(_ & n & -> & H1 & H2)]; [discriminate|]. inversion H2 as [|? ? H3 H4]; subst.
          assert (k = n) by congruence. subst k. split; [|auto]. destruct vs; [left; auto|right]. split; [discriminate|].
          exists n. refine (conj eq_refl (conj _ H4)). intros m Hm. now apply some_inj in Hm. }
      rewrite <- G. destruct p as [m|].
      * destruct (N.eqb_spec m k) as [->|Hk].
        -- split; [intros H; split; [auto|]; intros m Hm; now apply some_inj in Hm|]. now intros [H _].
        -- split; [discriminate|]. intros [_ H]. exfalso. apply Hk. now apply H.
      * split; [intros H; split; [auto|discriminate]|]. now intros [H _].
    + split; [discriminate|]. intros [[H _]|(_ & n & _ & _ & H)]; [discriminate|]. inversion H; congruence.
Qed.
Lemma pcl_trimmed v t n : Trimmed v t -> (parse_content_length v = Some n <-> Decimal t n /\ n < 2 ^ 64).
Proof.
  intros T. rewrite pcl_iff. split.
  - intros (u & Hu & D & L). rewrite (Trimmed_det _ _ _ T Hu). auto.
  - intros [D L]. now exists t.
Qed.
Lemma cl_spec h r q : HeaderMap h -> SentAs (fields_of h) r ->
  (declared_content_length h = Some q <->
     match q with
     | None => values_of (str "Content-Length") r = []
     | Some n => values_of (str "Content-Length") r <> [] /\ n < 2 ^ 64 /\
                 Forall (fun v => Decimal v n) (values_of (str "Content-Length") r)
     end).
Proof.
  intros Hm Hs. pose proof (values_sent (str "Content-Length") _ _ Hs) as V.
  pose proof (find_header_values (str "Content-Length") h ltac:(repeat constructor) Hm) as F.
  unfold declared_content_length. destruct (find_header _ h) as [vs|].
  - destruct F as [E Hne]. rewrite E in V. set (rv := values_of (str "Content-Length") r) in *. clearbody rv.
    rewrite cl_loop. assert (Hrv : rv <> []) by (intros ->; inversion V; congruence).
    assert (G : forall n, Forall (fun v => parse_content_length v = Some n) vs <-> Forall (fun v => Decimal v n) rv /\ n < 2 ^ 64).
    { intros n. clear -V Hne. destruct V as [|x y l l' Hx H]; [congruence|].
      assert (Q : Forall (fun v => parse_content_length v = Some n) l <-> Forall (fun v => Decimal v n /\ n < 2 ^ 64) l').
      { clear -H. induction H as [|a b l l' Ha H IH]; [split; constructor|]. split; intros K; inversion K; subst; constructor; try (apply IH; auto);
          apply (pcl_trimmed a b n Ha); auto. }
      split.
      - intros K. inversion K as [|? ? K1 K2]; subst. apply (pcl_trimmed x y n Hx) in K1 as [K1 K3]. split; [|auto]. constructor; [auto|].
        apply Q in K2. eapply Forall_impl; [|exact K2]. cbn. tauto.
      - intros [K L]. inversion K as [|? ? K1 K2]; subst. constructor; [apply (pcl_trimmed x y n Hx); auto|]. apply Q.
        eapply Forall_impl; [|exact K2]. cbn. auto. }
    destruct q as [n|].
    + split.
      * intros [[H _]|(_ & m & Hq & _ & H)]; [congruence|]. apply some_inj in Hq. subst m. apply G in H as [H1 H2]. auto.
      * intros (_ & L & H). right. split; [auto|]. exists n. refine (conj eq_refl (conj _ _)); [discriminate|]. now apply G.
    + split; [|congruence]. intros [[H _]|(_ & m & Hq & _)]; congruence.
  - rewrite F in V. inversion V. destruct q as [n|]; split; intros H'; try congruence. destruct H' as [H' _]. congruence.
Qed.

(** ** The header section *)
Definition line_of (f : field) : list N := fst f ++ [58; 32] ++ snd f ++ endl.
Definition ok_field (f : field) : Prop := (Token (fst f) /\ len (fst f) <= 1024) /\ Forall FieldVchar (snd f) /\ len (snd f) <= 8192.

Lemma values_cost_spec vs : forall e e', values_cost vs e = Some e' <->
  Forall (fun v => header_value_is_valid v = true) vs /\ e' = e + fold_right (fun v a => len v + 2 + a) 0 vs.
Proof.
  induction vs as [|v vs IH]; intros e e'; cbn [values_cost fold_right].
  - split; [intros H; apply some_inj in H; split; [constructor|lia]|]. intros [_ ->]. f_equal. lia.
  - destruct (header_value_is_valid v) eqn:E.
    + rewrite IH. split; intros [H1 H2]; (split; [|lia]); [constructor; auto|now inversion H1].
    + split; [discriminate|]. intros [H _]. inversion H; congruence.
Qed.
(** estimated size of the header section *)
Definition cost (h : headers_map) : N :=
  fold_right (fun e a => len (fst e) + 2 + fold_right (fun v b => len v + 2 + b) 0 (snd e) + a) 0 h.
Definition ok_map (h : headers_map) : Prop :=
  Forall (fun e => header_name_is_valid (fst e) = true /\ Forall (fun v => header_value_is_valid v = true) (snd e)) h.
Lemma headers_cost_spec h : forall e e', headers_cost h e = Some e' <-> ok_map h /\ e' = e + cost h.
Proof.
  induction h as [|[n vs] h IH]; intros e e'; cbn [headers_cost].
  - cbn [cost fold_right]. split; [intros H; apply some_inj in H; split; [constructor|lia]|]. intros [_ ->]. f_equal. lia.
  - unfold cost. cbn [fold_right fst snd]. fold (cost h). destruct (header_name_is_valid n) eqn:E.
    + destruct (values_cost vs (e + (len n + 2))) as [x|] eqn:Ev.
      * rewrite IH. apply values_cost_spec in Ev as [V ->]. split; intros [H1 H2]; (split; [|lia]); [constructor; auto|now inversion H1].
      * split; [discriminate|]. intros [H _]. inversion H as [|? ? [_ V] _]; subst. cbn [snd] in V.
        assert (K : values_cost vs (e + (len n + 2)) = Some (e + (len n + 2) + fold_right (fun v a => len v + 2 + a) 0 vs)) by (apply values_cost_spec; auto).
        congruence.
    + split; [discriminate|]. intros [H _]. inversion H as [|? ? [V _] _]; subst. cbn [fst] in V. congruence.
Qed.
Lemma put_values_ok vs n : header_name_is_valid n = true -> Forall (fun v => header_value_is_valid v = true) vs -> forall p,
  put_values p n vs = (p ++ flat_map line_of (map (fun v => (n, v)) vs), true).
Proof.
  intros Hn. induction 1 as [|v vs Hv H IH]; intros p; cbn [put_values map flat_map]; [now rewrite app_nil_r|].
  unfold header_is_valid. rewrite Hn, Hv. cbn [andb]. rewrite IH. unfold line_of. cbn [fst snd]. now rewrite <- !app_assoc.
Qed.
Lemma put_headers_ok h : ok_map h -> forall p, put_headers p h = (p ++ flat_map line_of (fields_of h), true).
Proof.
  induction 1 as [|[n vs] h [Hn Hv] H IH]; intros p; cbn [put_headers]; [now rewrite app_nil_r|].
  cbn [fst snd] in *. rewrite put_values_ok by auto. rewrite IH. rewrite fields_cons. cbn [fst snd]. now rewrite flat_map_app, <- app_assoc.
Qed.
Lemma ok_map_fields h : ok_map h -> Forall ok_field (fields_of h).
Proof.
  induction 1 as [|[n vs] h [Hn Hv] H IH]; [constructor|]. rewrite fields_cons. cbn [fst snd] in *. apply Forall_app. split; [|auto].
  apply name_valid_iff in Hn. clear -Hn Hv. induction Hv as [|v vs Hv H IH]; cbn [map]; constructor; [|auto].
  split; [exact Hn|]. cbn [snd]. now apply value_valid_iff.
Qed.

Definition seen (f : field) : field := (fst f, trim_http_whitespace (snd f)).
Lemma sent_seen fs : SentAs fs (map seen fs).
Proof. induction fs as [|f fs IH]; cbn [map]; constructor; [|exact IH]. split; [reflexivity|]. apply trim_spec. Qed.
Lemma sent_det g r r' : SentAs g r -> SentAs g r' -> r = r'.
Proof.
  intros H. revert r'. induction H as [|x y g r [H1 H2] H IH]; intros r' H'; inversion H' as [|? z ? r2 [H3 H4] H5]; subst; [reflexivity|].
  f_equal; [|auto]. rewrite (surjective_pairing y), (surjective_pairing z). f_equal; [congruence|]. eapply Trimmed_det; eauto.
Qed.

Lemma field_line f : ok_field f -> FieldLine (seen f) (fst f ++ [58; 32] ++ snd f).
Proof.
  intros ([Hn _] & Hv & _). split; [exact Hn|]. exists (32 :: snd f). split; [reflexivity|]. split.
  - constructor; [lia|]. now apply vchar_noeol.
  - cbn [seen snd]. rewrite <- (trim_ows [32] (snd f)) by (repeat constructor; now left). apply trim_spec.
Qed.
Lemma field_lines fs : Forall ok_field fs -> forall rest,
  FieldLines (map seen fs) (flat_map line_of fs ++ endl ++ rest) rest.
Proof.
  induction 1 as [|f fs Hf H IH]; intros rest; cbn [map flat_map]; [apply fl_end|].
  unfold line_of at 1. rewrite <- !app_assoc.
  replace (fst f ++ [58; 32] ++ snd f ++ endl ++ flat_map line_of fs ++ endl ++ rest)
    with ((fst f ++ [58; 32] ++ snd f) ++ CRLF ++ (flat_map line_of fs ++ endl ++ rest)) by (now rewrite <- !app_assoc).
  constructor; [now apply field_line|apply IH].
Qed.
