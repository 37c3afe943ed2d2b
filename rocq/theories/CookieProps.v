(** Cookies: the theorems (C79-C82). *)
From Verif Require Import Base UtilModel UtilSpec UtilProofs StaticModel DateModel DateSpec DateProofs DateProps
  CookieModel CookieSpec CookieProofs.
Local Open Scope N_scope.

(** * Request cookies *)

(** C79: a well-formed Cookie header is parsed to exactly its cookies: looking up a name (in any case)
    gives the value of the first cookie of that name, and nothing else is found. *)
Theorem cookie_header_exact : forall l k v,
  l <> [] -> Forall GoodCookie l -> N.of_nat (length (cookie_header l)) <= 16384 -> bytes_ok k ->
  exists d, parse_cookies (cookie_header l) false = Some d /\
            (cookie_get d k = Some v <-> FirstValue l k v).
Proof.
  intros l k v Hl F L Hk. exists (dict_of [] l). split.
  - unfold parse_cookies. replace (length (cookie_header l) =? 0)%nat with false.
    2:{ symmetry. apply Nat.eqb_neq. destruct l as [|c l]; [congruence|]. 
        destruct l; cbn [cookie_header]; unfold pair_text; rewrite ?app_length; cbn [length]; lia. }
    replace (MAX_COOKIE_HEADER_SIZE <? len (cookie_header l)) with false by (unfold len, MAX_COOKIE_HEADER_SIZE; lia).
    apply run_header; auto.
  - rewrite get_dict_of by auto. cbn [cookie_get find option_map]. now apply first_value_iff.
Qed.

(** C80: whatever the header, what is returned is bounded and its names are clean; a header over 16384
    octets is refused (exception). *)
Theorem cookie_parse_bounds : forall h sc d, parse_cookies h sc = Some d ->
  N.of_nat (length h) <= 16384 /\
  forall n v, In (n, v) d ->
    n <> [] /\ (forall r, n <> 36 :: r) /\ N.of_nat (length n) <= 1024 /\ N.of_nat (length v) <= 4096 /\
    Forall (fun c => ~ Control c /\ c <> 32 /\ c <> 61 /\ c <> 59) n.
Proof.
  intros h sc d H. split.
  - unfold parse_cookies in H. destruct (length h =? 0)%nat eqn:E; [apply Nat.eqb_eq in E; lia|].
    destruct (MAX_COOKIE_HEADER_SIZE <? len h) eqn:E2; [discriminate|]. unfold MAX_COOKIE_HEADER_SIZE, len in E2. lia.
  - intros n v Hin. apply parse_entries in H. rewrite Forall_forall in H.
    destruct (H _ Hin) as ((A & B & C & D) & E). cbn [fst snd] in *. unfold len in *. repeat split; auto.
Qed.

(** Three surprises.  A backslash inside a quoted value lets a control character through (here CR LF). *)
Theorem cookie_value_clean_refuted :
  exists h d, parse_cookies h false = Some d /\ cookie_get d (str "a") = Some [13; 10].
Proof. exists (str "a=""" ++ [92; 13; 92; 10] ++ str """"), [(str "a", [13; 10])]. split; vm_compute; reflexivity. Qed.

(** A value that begins with an apostrophe, a legal cookie-octet (RFC 6265 4.1.1), is not returned: the
    whole header is refused. *)
Theorem cookie_apostrophe_refuted : parse_cookies (str "a='b; c=d") false = None.
Proof. reflexivity. Qed.

(** Names are matched without case although cookie names are case-sensitive (RFC 6265): the second of two
    distinct cookies is lost. *)
Theorem cookie_case_refuted :
  exists d, parse_cookies (str "sid=1; SID=2") false = Some d /\ cookie_get d (str "SID") = Some (str "1").
Proof. exists [(str "sid", str "1")]. split; vm_compute; reflexivity. Qed.

(** * Set-Cookie *)

Lemma drop_ws_no c r : is_http_whitespace c = false -> drop_ws (c :: r) = c :: r.
Proof. intros H. cbn. now rewrite H. Qed.

Definition rtrim (s : list N) : list N := rev (drop_ws (rev s)).

Lemma rtrim_app p c d : is_http_whitespace c = false -> rtrim ((p ++ [c]) ++ d) = (p ++ [c]) ++ rtrim d.
Proof.
  intros H. unfold rtrim. rewrite rev_app_distr.
  assert (A : forall x y, Forall Ows x -> drop_ws (x ++ y) = drop_ws y).
  { induction x as [|a x IH]; intros y F; cbn [app drop_ws]; [reflexivity|]. inversion F; subst.
    replace (is_http_whitespace a) with true by (symmetry; unfold is_http_whitespace, Ows in *; lia). auto. }
  destruct (drop_ws_spec (rev d)) as (a & E & Fa & Hh).
  rewrite E at 1. rewrite <- app_assoc, A by auto.
  destruct (drop_ws (rev d)) as [|x t] eqn:Ed.
  - cbn [app]. rewrite rev_app_distr. cbn [rev app]. rewrite drop_ws_no by auto. cbn [rev].
    rewrite rev_involutive. now rewrite app_nil_r.
  - cbn [app]. rewrite drop_ws_no.
    2:{ destruct (is_http_whitespace x) eqn:Ex; [|reflexivity]. exfalso. eapply Hh; [reflexivity|].
        unfold is_http_whitespace, Ows in *. lia. }
    cbn [rev]. rewrite !rev_app_distr, !rev_involutive. cbn [rev app]. rewrite <- !app_assoc. reflexivity.
Qed.

Lemma rtrim_spec s : RTrimmed s (rtrim s).
Proof.
  unfold rtrim. destruct (drop_ws_spec (rev s)) as (a & E & Fa & Hh).
  exists (rev a). refine (conj _ (conj _ _)).
  - rewrite <- rev_app_distr, <- E. now rewrite rev_involutive.
  - now apply Forall_rev.
  - intros c r H. apply (f_equal (@rev N)) in H. rewrite rev_involutive, rev_app_distr in H. eapply Hh. exact H.
Qed.

Lemma trim_rtrim s : trim_http_whitespace (rtrim s) = trim_http_whitespace s.
Proof.
  apply (Trimmed_det s); [|apply trim_spec].
  destruct (rtrim_spec s) as (b & E & Fb & _).
  destruct (trim_spec (rtrim s)) as (a' & b' & E' & Fa' & Fb' & H1 & H2).
  exists a', (b' ++ b). refine (conj _ (conj Fa' (conj _ (conj H1 H2)))).
  - rewrite E at 1. rewrite E' at 1. now rewrite <- !app_assoc.
  - apply Forall_app. auto.
Qed.

Lemma trim_head c r : is_http_whitespace c = false -> trim_http_whitespace (c :: r) = rtrim (c :: r).
Proof. intros H. unfold trim_http_whitespace. now rewrite drop_ws_no. Qed.

Lemma trim_sp s : trim_http_whitespace (32 :: s) = trim_http_whitespace s.
Proof. reflexivity. Qed.

Lemma unquote_spec v : Stripped v (unquote v).
Proof.
  unfold Stripped, unquote. destruct v as [|c r].
  - right. split; auto. intros m H. discriminate.
  - destruct (rev r) as [|e m] eqn:E.
    + right. split; auto. intros m H. injection H as -> H. apply (f_equal (@rev N)) in H.
      rewrite rev_app_distr in H. cbn in H. congruence.
    + assert (Er : r = rev m ++ [e]) by (apply (f_equal (@rev N)) in E; rewrite rev_involutive in E; exact E).
      destruct ((c =? 34) && (e =? 34)) eqn:Q.
      * left. assert (c = 34 /\ e = 34) as [-> ->] by lia. now rewrite Er.
      * right. split; auto. intros m' H. injection H as -> H. rewrite Er in H.
        apply app_inj_tail in H as [_ ->]. discriminate.
Qed.

Lemma stripped_unquote v v' : Stripped v v' -> unquote v = v'.
Proof.
  intros H. pose proof (unquote_spec v) as U. destruct H as [-> | [H ->]].
  - destruct U as [U | [U _]]; [|exfalso; now apply (U v')]. injection U as U. apply app_inj_tail in U as [U _]; now symmetry.
  - destruct U as [U | [_ U]]; [exfalso; now apply (H (unquote v)) | auto].
Qed.

(** The text of Set-Cookie: the pair, then attributes each preceded by a semicolon. *)
Definition opt {A B} (o : option A) (f : A -> B) : list B := match o with Some x => [f x] | None => [] end.

Definition attr_list (c : cookie) : list (list N) :=
  opt (ck_expires c) (fun t => str " Expires=" ++ format_http_date t)
  ++ opt (ck_max_age c) (fun n => str " Max-Age=" ++ to_string n)
  ++ (match ck_domain c with [] => [] | d => [str " Domain=" ++ d] end)
  ++ (match ck_path c with [] => [] | p => [str " Path=" ++ p] end)
  ++ (if ck_secure c then [str " Secure"] else [])
  ++ (if ck_http_only c then [str " HttpOnly"] else [])
  ++ opt (ck_same_site c) (fun s => str " SameSite=" ++ match s with SSStrict => str "Strict" | SSLax => str "Lax" | SSNone => str "None" end).

Lemma some_inj {A} (a b : A) : Some a = Some b -> a = b.
Proof. congruence. Qed.

Lemma to_header_text c h : to_header c = Some h ->
  h = (ck_name c ++ [61] ++ ck_value c) ++ flat_map (fun a => 59 :: a) (attr_list c) /\ validate_cookie c = true.
Proof.
  unfold to_header. destruct (validate_cookie c); cbn [negb]; [|discriminate]. intros H. apply some_inj in H. subst h.
  split; [|reflexivity]. unfold attr_list. rewrite !flat_map_app.
  rewrite <- (app_assoc (ck_name c)), <- (app_assoc [61] (ck_value c)).
  do 9 try match goal with |- ?a ++ ?b = ?c ++ ?d => refine (@f_equal2 _ _ _ (@app N) a c b d _ _); [try reflexivity|] end.
  - destruct (ck_expires c); cbn [opt flat_map]; rewrite ?app_nil_r; reflexivity.
  - destruct (ck_max_age c); cbn [opt flat_map]; rewrite ?app_nil_r; reflexivity.
  - destruct (ck_domain c); cbn [flat_map]; rewrite ?app_nil_r; reflexivity.
  - destruct (ck_path c); cbn [flat_map]; rewrite ?app_nil_r; reflexivity.
  - destruct (ck_secure c); reflexivity.
  - destruct (ck_http_only c); reflexivity.
  - destruct (ck_same_site c) as [[]|]; reflexivity.
Qed.

Definition no59 (s : list N) : Prop := Forall (fun x => x <> 59) s.

Lemma find_semi a b : no59 a -> find_char 59 (a ++ 59 :: b) = Some (length a).
Proof. intros H. now apply find_char_at. Qed.

Lemma loop_attrs : forall l a c fuel, no59 a -> Forall no59 l -> a <> [] -> Forall (fun x => x <> []) l ->
  (length (a ++ flat_map (fun a => 59%N :: a) l) < fuel)%nat ->
  attributes_loop fuel c (a ++ flat_map (fun a => 59 :: a) l) = fold_left apply_attribute (a :: l) c.
Proof.
  induction l as [|b l IH]; intros a c fuel Ha Hl Na Nl Hf; (destruct fuel as [|f]; [lia|]).
  - cbn [flat_map]. rewrite app_nil_r. cbn [attributes_loop fold_left].
    destruct a as [|x a]; [congruence|]. now rewrite (find_char_absent 59 (x :: a)) by exact Ha.
  - inversion Hl; inversion Nl; subst. cbn [flat_map]. cbn [attributes_loop].
    assert (E : a ++ (59 :: b) ++ flat_map (fun a => 59 :: a) l = a ++ 59 :: (b ++ flat_map (fun a => 59 :: a) l)) by reflexivity.
    rewrite E. destruct (a ++ 59 :: b ++ flat_map (fun a0 : list N => 59 :: a0) l) eqn:Z; [destruct a; discriminate|].
    rewrite <- Z. clear Z.
    rewrite find_semi by auto. rewrite firstn_length_app.
    replace (skipn (S (length a)) (a ++ 59 :: b ++ flat_map (fun a0 : list N => 59 :: a0) l))
      with (b ++ flat_map (fun a0 : list N => 59 :: a0) l).
    2:{ replace (a ++ 59 :: b ++ flat_map (fun a0 : list N => 59 :: a0) l)
          with ((a ++ [59]) ++ b ++ flat_map (fun a0 : list N => 59 :: a0) l) by (rewrite <- app_assoc; reflexivity).
        replace (S (length a)) with (length (a ++ [59])) by (rewrite app_length; cbn; lia).
        now rewrite skipn_length_app. }
    rewrite IH; auto. cbn [flat_map] in Hf. rewrite !app_length in *. cbn [length] in Hf. lia.
Qed.

Lemma parse_shape p l c : no59 p -> Forall no59 l -> Forall (fun x => x <> []) l ->
  p <> [] ->
  parse_set_cookie (p ++ flat_map (fun a => 59 :: a) l) = Some c <->
  exists i, find_char 61 (trim_http_whitespace p) = Some i /\ i <> 0%nat /\
    c = fold_left apply_attribute l
          (new_cookie (firstn i (trim_http_whitespace p)) (unquote (skipn (S i) (trim_http_whitespace p)))).
Proof.
  intros Hp Hl Nl Np. unfold parse_set_cookie.
  destruct (p ++ flat_map (fun a => 59 :: a) l) eqn:Z; [destruct p; [congruence | discriminate]|]. rewrite <- Z. clear Z.
  destruct l as [|a l].
  - cbn [flat_map]. rewrite app_nil_r, (find_char_absent 59) by exact Hp. cbn [fold_left].
    destruct (find_char 61 (trim_http_whitespace p)) as [i|].
    + destruct (Nat.eqb_spec i 0).
      * split; [discriminate|]. intros (j & E & H & _). congruence.
      * cbn [attributes_loop length]. split.
        -- intros H. injection H as <-. eauto.
        -- intros (j & E & _ & ->). now injection E as ->.
    + split; [discriminate|]. intros (j & E & _). discriminate.
  - cbn [flat_map]. inversion Hl; inversion Nl; subst.
    change (p ++ (59 :: a) ++ flat_map (fun a => 59 :: a) l) with (p ++ 59 :: (a ++ flat_map (fun a => 59 :: a) l)).
    rewrite find_semi by auto. rewrite firstn_length_app.
    replace (skipn (S (length p)) (p ++ 59 :: a ++ flat_map (fun a0 : list N => 59 :: a0) l))
      with (a ++ flat_map (fun a0 : list N => 59 :: a0) l).
    2:{ replace (p ++ 59 :: a ++ flat_map (fun a0 : list N => 59 :: a0) l)
          with ((p ++ [59]) ++ a ++ flat_map (fun a0 : list N => 59 :: a0) l) by (rewrite <- app_assoc; reflexivity).
        replace (S (length p)) with (length (p ++ [59])) by (rewrite app_length; cbn; lia).
        now rewrite skipn_length_app. }
    cbv iota beta zeta.
    destruct (find_char 61 (trim_http_whitespace p)) as [i|].
    + destruct (Nat.eqb_spec i 0).
      * split; [discriminate|]. intros (j & E & H' & _). congruence.
      * rewrite loop_attrs by (auto; lia). split.
        -- intros H'. injection H' as <-. eauto.
        -- intros (j & E & _ & ->). now injection E as ->.
    + split; [discriminate|]. intros (j & E & _). discriminate.
Qed.

(** ** Each attribute *)

Lemma attr_pair p d : (forall c r, p = c :: r -> is_http_whitespace c = false) -> p <> [] ->
  trim_http_whitespace (32 :: p ++ 61 :: d) = p ++ 61 :: rtrim d.
Proof.
  intros H N. rewrite trim_sp. destruct p as [|c r]; [congruence|]. cbn [app]. rewrite trim_head by eauto.
  replace (c :: r ++ 61 :: d) with (((c :: r) ++ [61]) ++ d) by (rewrite <- app_assoc; reflexivity).
  rewrite rtrim_app by reflexivity. rewrite <- app_assoc. reflexivity.
Qed.

Lemma find_eq p d : Forall (fun x => x <> 61) p -> find_char 61 (p ++ 61 :: d) = Some (length p).
Proof. intros. now apply find_char_at. Qed.

(** an attribute "NAME=value" as apply_attribute sees it *)
Lemma attr_split p d : (forall c r, p = c :: r -> is_http_whitespace c = false) -> p <> [] ->
  Forall (fun x => x <> 61) p -> trim_http_whitespace p = p ->
  let pair := trim_http_whitespace (32 :: p ++ 61 :: d) in
  (length pair =? 0)%nat = false /\
  match find_char 61 pair with
  | None => (pair, [])
  | Some i => (trim_http_whitespace (firstn i pair), unquote (trim_http_whitespace (skipn (S i) pair)))
  end = (p, unquote (trim_http_whitespace d)).
Proof.
  intros H Np F T. cbv zeta. rewrite attr_pair by auto. split.
  - apply Nat.eqb_neq. rewrite app_length. cbn. lia.
  - rewrite find_eq by auto. rewrite firstn_length_app, T.
    replace (p ++ 61 :: rtrim d) with ((p ++ [61]) ++ rtrim d) by (rewrite <- app_assoc; reflexivity).
    replace (S (length p)) with (length (p ++ [61])) by (rewrite app_length; cbn; lia).
    rewrite skipn_length_app, trim_rtrim. reflexivity.
Qed.

Ltac attr_name :=
  match goal with |- apply_attribute _ (?s ++ ?d) = _ =>
    unfold apply_attribute;
    let p := eval vm_compute in (removelast (tl s)) in
    change (s ++ d) with (32 :: p ++ 61 :: d);
    let A := fresh "A" in let B := fresh "B" in
    destruct (attr_split p d) as [A B];
    [ intros ? ? E; injection E as <- _; reflexivity
    | discriminate
    | repeat (constructor; [discriminate|]); constructor
    | reflexivity
    | cbv zeta in A, B |- *; rewrite A, B ]
  end.

Lemma attr_domain c d : apply_attribute c (str " Domain=" ++ d) = set_domain c (unquote (trim_http_whitespace d)).
Proof. attr_name. reflexivity. Qed.
Lemma attr_path c d : apply_attribute c (str " Path=" ++ d) = set_path c (unquote (trim_http_whitespace d)).
Proof. attr_name. reflexivity. Qed.
Lemma attr_expires c d t : parse_http_date (unquote (trim_http_whitespace d)) = Ok t ->
  apply_attribute c (str " Expires=" ++ d) = set_expires c t.
Proof. intros H. attr_name. cbn [iequals]. rewrite H. reflexivity. Qed.
Lemma attr_max_age c d n : to_number_int (unquote (trim_http_whitespace d)) = Some n ->
  apply_attribute c (str " Max-Age=" ++ d) = set_max_age c n.
Proof.
  intros H. attr_name.
  change (iequals [77; 97; 120; 45; 65; 103; 101] (str "Expires")) with false.
  change (iequals [77; 97; 120; 45; 65; 103; 101] (str "Max-Age")) with true. cbv iota.
  rewrite H. destruct (unquote (trim_http_whitespace d)); [discriminate | reflexivity].
Qed.
Lemma attr_secure c : apply_attribute c (str " Secure") = set_secure c.
Proof. reflexivity. Qed.
Lemma attr_http_only c : apply_attribute c (str " HttpOnly") = set_http_only c.
Proof. reflexivity. Qed.
Lemma attr_same_site c s : apply_attribute c (str " SameSite=" ++ match s with SSStrict => str "Strict" | SSLax => str "Lax" | SSNone => str "None" end)
  = set_same_site c s.
Proof. destruct s; reflexivity. Qed.

(** ** Numbers and dates as attribute values *)

Lemma fold_value l : forall a, fold_left (fun a c => 10 * a + (Z.of_N c - 48))%Z l a =
  (a * 10 ^ Z.of_nat (length l) + digits_value l)%Z.
Proof.
  unfold digits_value. induction l as [|c l IH]; intros a.
  - cbn [fold_left length]. change (Z.of_nat 0) with 0%Z. rewrite Z.pow_0_r. lia.
  - cbn [fold_left length]. rewrite IH. rewrite (IH (10 * 0 + (Z.of_N c - 48))%Z).
    rewrite Nat2Z.inj_succ, Z.pow_succ_r by lia. ring.
Qed.

Lemma digits_spec : forall f n acc, n < 10 ^ N.of_nat f -> f <> 0%nat ->
  exists ds, digits f n acc = ds ++ acc /\ ds <> [] /\
    Forall (fun c => 48 <= c <= 57) ds /\ digits_value ds = Z.of_N n.
Proof.
  induction f as [|f IH]; intros n acc Hn Hf; [congruence|]. cbn [digits].
  assert (M : 48 <= 48 + n mod 10 <= 57) by (pose proof (N.mod_lt n 10 ltac:(lia)); lia).
  destruct (N.ltb_spec n 10) as [Hl|Hl].
  - exists [48 + n mod 10]. refine (conj eq_refl (conj _ (conj _ _))); [discriminate | now repeat constructor |].
    unfold digits_value. cbn [fold_left]. rewrite N.mod_small by lia. lia.
  - assert (Hf0 : f <> 0%nat) by (intros ->; cbn in Hn; lia).
    assert (Hd : n / 10 < 10 ^ N.of_nat f).
    { apply N.div_lt_upper_bound; [lia|]. rewrite Nat2N.inj_succ, N.pow_succ_r' in Hn. lia. }
    destruct (IH (n / 10) ((48 + n mod 10) :: acc) Hd Hf0) as (ds & E & Nn & F & V).
    exists (ds ++ [48 + n mod 10]). refine (conj _ (conj _ (conj _ _))).
    + rewrite E, <- app_assoc. reflexivity.
    + now destruct ds.
    + apply Forall_app. split; auto.
    + unfold digits_value in *. rewrite fold_left_app. rewrite V. cbn [fold_left].
      pose proof (N.div_mod n 10 ltac:(lia)). lia.
Qed.

Lemma size_bound n : n < 10 ^ N.of_nat (S (N.size_nat n)).
Proof.
  assert (E : N.of_nat (N.size_nat n) = N.size n).
  { destruct n; [reflexivity|]. cbn. induction p; cbn; lia. }
  rewrite Nat2N.inj_succ, E, N.pow_succ_r'.
  pose proof (N.size_gt n). pose proof (N.pow_le_mono_l 2 10 (N.size n) ltac:(lia)). lia.
Qed.

Lemma digit_no_ws c : 48 <= c <= 57 -> is_http_whitespace c = false.
Proof. unfold is_http_whitespace. lia. Qed.

Lemma trim_id s : (forall c r, s = c :: r -> is_http_whitespace c = false) ->
  (forall c r, s = r ++ [c] -> is_http_whitespace c = false) -> trim_http_whitespace s = s.
Proof.
  intros H1 H2. apply (Trimmed_det s); [apply trim_spec|]. exists [], []. rewrite app_nil_r.
  repeat split; auto.
  - intros c r E O. apply H1 in E. unfold is_http_whitespace, Ows in *. lia.
  - intros c r E O. apply H2 in E. unfold is_http_whitespace, Ows in *. lia.
Qed.

Lemma unquote_id s : (forall r, s <> 34 :: r) -> unquote s = s.
Proof.
  intros H. unfold unquote. destruct s as [|c r]; auto. destruct (rev r); auto.
  destruct (N.eqb_spec c 34) as [-> |_]; [exfalso; now apply (H r) | reflexivity].
Qed.

Lemma to_string_number n : (-2147483648 <= n <= 2147483647)%Z ->
  to_number_int (unquote (trim_http_whitespace (to_string n))) = Some n /\
  Forall (fun c => c = 45 \/ 48 <= c <= 57) (to_string n).
Proof.
  intros H. unfold to_string.
  assert (D : exists ds, digits (S (N.size_nat (Z.abs_N n))) (Z.abs_N n) [] = ds /\ ds <> [] /\
     Forall (fun c => 48 <= c <= 57) ds /\ digits_value ds = Z.abs n).
  { destruct (digits_spec (S (N.size_nat (Z.abs_N n))) (Z.abs_N n) [] (size_bound _) ltac:(lia)) as (ds & E & Nn & F & V).
    exists ds. rewrite E, app_nil_r. repeat split; auto. rewrite V. lia. }
  destruct D as (ds & E & Nn & F & V).
  assert (Dig : forallb (fun c => (48 <=? c) && (c <=? 57)) ds = true).
  { apply forallb_forall. intros x Hx. rewrite Forall_forall in F. specialize (F x Hx). lia. }
  assert (Ln : (length ds =? 0)%nat = false) by (destruct ds; [congruence | reflexivity]).
  assert (Hd : forall c r, ds = c :: r -> 48 <= c <= 57) by (intros c r ->; now inversion F).
  assert (Hl : forall c r, ds = r ++ [c] -> 48 <= c <= 57).
  { intros c r ->. apply Forall_app in F as [_ F]. now inversion F. }
  destruct (Z.ltb_spec n 0) as [Hn|Hn].
  - rewrite E. split.
    + rewrite trim_id.
      2:{ intros c r X. injection X as <- _. reflexivity. }
      2:{ intros c r X. destruct r as [|x r]; [injection X as <- ->; congruence|]. injection X as _ X. apply digit_no_ws. eauto. }
      rewrite unquote_id by discriminate. unfold to_number_int. rewrite N.eqb_refl. rewrite Ln, Dig. cbn [negb].
      rewrite V. replace (- Z.abs n)%Z with n by lia.
      replace ((n <? -2147483648) || (2147483647 <? n))%Z with false by lia. reflexivity.
    + constructor; [now left|]. eapply Forall_impl; [|exact F]. cbn. auto.
  - replace (Z.to_N n) with (Z.abs_N n) by lia. rewrite E. split.
    + rewrite trim_id by (intros; apply digit_no_ws; eauto).
      rewrite unquote_id by (intros r ->; specialize (Hd 34 r eq_refl); lia).
      unfold to_number_int. destruct ds as [|c r]; [congruence|].
      replace (c =? 45) with false by (specialize (Hd c r eq_refl); lia). rewrite Ln, Dig. cbn [negb].
      rewrite V. replace (Z.abs n)%Z with n by lia.
      replace ((n <? -2147483648) || (2147483647 <? n))%Z with false by lia. reflexivity.
    + eapply Forall_impl; [|exact F]. cbn. auto.
Qed.

Definition four_digit_year (t : Z) : Prop :=
  exists y m d n w hh mm ss, DayNo (y, m, d) n w /\ TimeOfDay hh mm ss /\
    t = (86400 * n + 3600 * hh + 60 * mm + ss)%Z /\ (1000 <= y <= 9999)%Z.

Lemma date_value t : four_digit_year t ->
  parse_http_date (unquote (trim_http_whitespace (format_http_date t))) = Ok t /\
  Forall (fun c => 32 <= c <= 122 /\ c <> 59) (format_http_date t).
Proof.
  intros (y & m & d & n & w & hh & mm & ss & D & HT & -> & Hy).
  rewrite (date_format y m d n w hh mm ss D Hy HT).
  pose proof (proj1 (DayNo_iff _ _ _ _ _) D) as (HD & En & Ew).
  pose proof HT as (T1 & T2 & T3). apply date_iff in HD as [Hm Hd].
  assert ((mlen (is_leap y) m <= 31)%Z) by (unfold mlen; destruct (is_leap y); cbn; repeat match goal with |- context [if ?x then _ else _] => destruct x end; lia).
  assert (Hw : (0 <= w <= 6)%Z) by (subst w; Z.to_euclidean_division_equations; lia).
  assert (Pl : forall z, (0 <= z <= 9)%Z -> 32 <= dig z <= 122 /\ dig z <> 59) by (intros z Hz; pose proof (dig_range z Hz); lia).
  assert (D2 : forall z, (0 <= z <= 99)%Z -> Forall (fun c => 32 <= c <= 122 /\ c <> 59) (d2 z)).
  { intros z Hz. unfold d2. repeat constructor; apply Pl; Z.to_euclidean_division_equations; lia. }
  assert (D4 : Forall (fun c => 32 <= c <= 122 /\ c <> 59) (d4 y)).
  { unfold d4. repeat constructor; apply Pl; Z.to_euclidean_division_equations; lia. }
  assert (Lit : forall s, forallb (fun c => (32 <=? c) && (c <=? 122) && negb (c =? 59)) s = true -> Forall (fun c => 32 <= c <= 122 /\ c <> 59) s).
  { intros s Hs. apply Forall_forall. intros x Hx. rewrite forallb_forall in Hs. specialize (Hs x Hx). lia. }
  assert (Wn : Forall (fun c => 32 <= c <= 122 /\ c <> 59) (day_name w) /\
               exists a b c, day_name w = [a; b; c] /\ is_http_whitespace a = false /\ a <> 34).
  { assert (X : (w = 0 \/ w = 1 \/ w = 2 \/ w = 3 \/ w = 4 \/ w = 5 \/ w = 6)%Z) by lia.
    destruct X as [-> | [-> | [-> | [-> | [-> | [-> | ->]]]]]]; (split; [apply Lit; reflexivity |]);
      (do 3 eexists; split; [reflexivity | split; [reflexivity | discriminate]]). }
  destruct Wn as (W1 & a & b & c & W2 & W3 & W4).
  assert (Mn : Forall (fun c => 32 <= c <= 122 /\ c <> 59) (mon_name m)).
  { assert (X : (m = 1 \/ m = 2 \/ m = 3 \/ m = 4 \/ m = 5 \/ m = 6 \/ m = 7 \/ m = 8 \/ m = 9 \/ m = 10 \/ m = 11 \/ m = 12)%Z) by lia.
    destruct X as [-> | [-> | [-> | [-> | [-> | [-> | [-> | [-> | [-> | [-> | [-> | ->]]]]]]]]]]]; apply Lit; reflexivity. }
  split.
  - rewrite trim_id, unquote_id.
    + apply date_parse_imf; try lia. refine (conj _ (conj HT _)); [lia|]. exists n, w. auto.
    + intros r E. unfold imf in E. rewrite W2 in E. injection E as E _. congruence.
    + intros x r E. unfold imf in E. rewrite W2 in E. injection E as <- _. exact W3.
    + intros x r E. unfold imf in E.
      change (str " GMT") with (str " GM" ++ [84]) in E. rewrite !app_assoc in E.
      apply app_inj_tail in E as [_ <-]. reflexivity.
  - unfold imf, hms. fa; auto; try (apply D2; lia); apply Lit; reflexivity.
Qed.

(** ** The whole header *)

Lemma forallb_Forall (p : N -> bool) s : forallb p s = true -> Forall (fun c => p c = true) s.
Proof. intros H. apply Forall_forall. now rewrite forallb_forall in H. Qed.

Lemma value_no59 s : forallb is_set_cookie_value_char s = true -> no59 s.
Proof.
  intros H. apply forallb_Forall in H. eapply Forall_impl; [|exact H]. cbn. unfold is_set_cookie_value_char. intros c Hc. lia.
Qed.

Lemma validate_parts c : validate_cookie c = true ->
  ck_name c <> [] /\ Forall TokenChar (ck_name c) /\ forallb is_set_cookie_value_char (ck_value c) = true /\
  forallb is_set_cookie_value_char (ck_domain c) = true /\ forallb is_set_cookie_value_char (ck_path c) = true.
Proof.
  unfold validate_cookie. intros H. repeat (apply andb_true_iff in H; destruct H as [H ?]).
  repeat split; auto.
  - intros E. rewrite E in H. discriminate.
  - apply forallb_Forall in H3. eapply Forall_impl; [|exact H3]. cbn. intros x Hx. now apply token_iff.
Qed.

Definition AttrOk (c : cookie) : Prop :=
  (forall t, ck_expires c = Some t -> four_digit_year t) /\
  (forall n, ck_max_age c = Some n -> (-2147483648 <= n <= 2147483647)%Z).

Lemma attr_list_no59 c : validate_cookie c = true -> AttrOk c ->
  Forall no59 (attr_list c) /\ Forall (fun x => x <> []) (attr_list c).
Proof.
  intros V [HE HM]. apply validate_parts in V as (_ & _ & _ & VD & VP). apply value_no59 in VD, VP.
  assert (Lit : forall s, forallb (fun c => negb (c =? 59)) s = true -> no59 s).
  { intros s Hs. apply Forall_forall. intros x Hx. rewrite forallb_forall in Hs. specialize (Hs x Hx). lia. }
  assert (App : forall s d, forallb (fun c => negb (c =? 59)) s = true -> no59 d -> no59 (s ++ d)).
  { intros s d H1 H2. apply Forall_app. split; auto. now apply Lit. }
  unfold attr_list. split.
  - fa.
    + destruct (ck_expires c) as [t|]; cbn [opt]; constructor; [|constructor]. apply App; [reflexivity|].
      eapply Forall_impl; [|apply (proj2 (date_value t (HE t eq_refl)))]. cbn. tauto.
    + destruct (ck_max_age c) as [n|]; cbn [opt]; constructor; [|constructor]. apply App; [reflexivity|].
      eapply Forall_impl; [|apply (proj2 (to_string_number n (HM n eq_refl)))]. cbn. lia.
    + destruct (ck_domain c); constructor; [|constructor]. apply App; [reflexivity | auto].
    + destruct (ck_path c); constructor; [|constructor]. apply App; [reflexivity | auto].
    + destruct (ck_secure c); constructor; [|constructor]. now apply Lit.
    + destruct (ck_http_only c); constructor; [|constructor]. now apply Lit.
    + destruct (ck_same_site c) as [x|]; cbn [opt]; constructor; [|constructor]. destruct x; now apply Lit.
  - fa.
    + destruct (ck_expires c); cbn [opt]; constructor; [discriminate | constructor].
    + destruct (ck_max_age c); cbn [opt]; constructor; [discriminate | constructor].
    + destruct (ck_domain c); constructor; [discriminate | constructor].
    + destruct (ck_path c); constructor; [discriminate | constructor].
    + destruct (ck_secure c); constructor; [discriminate | constructor].
    + destruct (ck_http_only c); constructor; [discriminate | constructor].
    + destruct (ck_same_site c); cbn [opt]; constructor; [discriminate | constructor].
Qed.

Lemma fold_attrs c v : AttrOk c ->
  fold_left apply_attribute (attr_list c) (new_cookie (ck_name c) v) =
  mkCookie (ck_name c) v (ck_expires c) (ck_max_age c)
    (unquote (trim_http_whitespace (ck_domain c)))
    (match ck_path c with [] => str "/" | p => unquote (trim_http_whitespace p) end)
    (ck_secure c) (ck_http_only c) (ck_same_site c).
Proof.
  intros [HE HM]. unfold attr_list. rewrite !fold_left_app. unfold new_cookie.
  destruct (ck_expires c) as [t|]; cbn [opt fold_left];
    [rewrite (attr_expires _ _ t (proj1 (date_value t (HE t eq_refl)))); unfold set_expires; cbn [ck_name ck_value ck_expires ck_max_age ck_domain ck_path ck_secure ck_http_only ck_same_site]|].
  all: destruct (ck_max_age c) as [n|]; cbn [opt fold_left];
    [rewrite (attr_max_age _ _ n (proj1 (to_string_number n (HM n eq_refl)))); unfold set_max_age; cbn [ck_name ck_value ck_expires ck_max_age ck_domain ck_path ck_secure ck_http_only ck_same_site]|].
  all: destruct (ck_domain c) as [|d0 d]; cbn [fold_left]; [change (unquote (trim_http_whitespace [])) with (@nil N) | rewrite attr_domain; unfold set_domain; cbn [ck_name ck_value ck_expires ck_max_age ck_domain ck_path ck_secure ck_http_only ck_same_site]].
  all: destruct (ck_path c) as [|p0 p]; cbn [fold_left]; [| rewrite attr_path; unfold set_path; cbn [ck_name ck_value ck_expires ck_max_age ck_domain ck_path ck_secure ck_http_only ck_same_site]].
  all: destruct (ck_secure c); cbn [fold_left]; [rewrite attr_secure; unfold set_secure; cbn [ck_name ck_value ck_expires ck_max_age ck_domain ck_path ck_secure ck_http_only ck_same_site] |].
  all: destruct (ck_http_only c); cbn [fold_left]; [rewrite attr_http_only; unfold set_http_only; cbn [ck_name ck_value ck_expires ck_max_age ck_domain ck_path ck_secure ck_http_only ck_same_site] |].
  all: destruct (ck_same_site c) as [s|]; cbn [opt fold_left]; [rewrite attr_same_site; unfold set_same_site; cbn [ck_name ck_value ck_expires ck_max_age ck_domain ck_path ck_secure ck_http_only ck_same_site] |].
  all: reflexivity.
Qed.

Lemma parse_to_header c h : to_header c = Some h -> AttrOk c ->
  parse_set_cookie h = Some (
    mkCookie (ck_name c) (unquote (rtrim (ck_value c))) (ck_expires c) (ck_max_age c)
      (unquote (trim_http_whitespace (ck_domain c)))
      (match ck_path c with [] => str "/" | p => unquote (trim_http_whitespace p) end)
      (ck_secure c) (ck_http_only c) (ck_same_site c)).
Proof.
  intros H A. apply to_header_text in H as [-> V]. pose proof (validate_parts c V) as (Nn & Tn & Vv & _ & _).
  destruct (attr_list_no59 c V A) as [L1 L2].
  assert (N61 : Forall (fun x => x <> 61) (ck_name c)).
  { eapply Forall_impl; [|exact Tn]. cbn. intros x Hx. apply token_facts in Hx. tauto. }
  apply parse_shape; auto.
  - apply Forall_app. split.
    + eapply Forall_impl; [|exact Tn]. cbn. intros x Hx. apply token_facts in Hx. tauto.
    + constructor; [discriminate|]. now apply value_no59.
  - destruct (ck_name c); discriminate.
  - exists (length (ck_name c)).
    assert (T : trim_http_whitespace (ck_name c ++ [61] ++ ck_value c) = ck_name c ++ 61 :: rtrim (ck_value c)).
    { destruct (ck_name c) as [|x r] eqn:E; [congruence|]. cbn [app]. rewrite trim_head.
      - replace (x :: r ++ 61 :: ck_value c) with (((x :: r) ++ [61]) ++ ck_value c) by (rewrite <- app_assoc; reflexivity).
        rewrite rtrim_app by reflexivity. rewrite <- app_assoc. reflexivity.
      - inversion Tn; subst. unfold is_http_whitespace. destruct (token_facts x) as (_ & _ & ? & ? & _); auto. lia. }
    rewrite T, find_eq by auto. refine (conj eq_refl (conj _ _)); [destruct (ck_name c); [congruence | cbn; lia]|].
    rewrite firstn_length_app.
    replace (ck_name c ++ 61 :: rtrim (ck_value c)) with ((ck_name c ++ [61]) ++ rtrim (ck_value c)) by (rewrite <- app_assoc; reflexivity).
    replace (S (length (ck_name c))) with (length (ck_name c ++ [61])) by (rewrite app_length; cbn; lia).
    rewrite skipn_length_app. symmetry. now apply fold_attrs.
Qed.

(** C81 (a): to_header refuses (throws) exactly the cookies whose name is not a token or whose value,
    Domain or Path holds a semicolon or a control character. *)
Theorem set_cookie_refuses : forall c,
  to_header c = None <->
  ~ (Token (ck_name c) /\
     forall s, In s [ck_value c; ck_domain c; ck_path c] -> Forall (fun x => x <> 59 /\ ~ Control x) s).
Proof.
  intros c. unfold to_header.
  assert (E : validate_cookie c = true <->
    (Token (ck_name c) /\ forall s, In s [ck_value c; ck_domain c; ck_path c] -> Forall (fun x => x <> 59 /\ ~ Control x) s)).
  { assert (P : forall s, forallb is_set_cookie_value_char s = true <-> Forall (fun x => x <> 59 /\ ~ Control x) s).
    { intros s. rewrite forallb_forall, Forall_forall. unfold is_set_cookie_value_char.
      split; intros H x Hx; specialize (H x Hx); pose proof (control_iff x); destruct (is_control x); intuition lia. }
    assert (T : forallb is_cookie_name_char (ck_name c) = true <-> Forall TokenChar (ck_name c)).
    { rewrite forallb_forall, Forall_forall. split; intros H x Hx; specialize (H x Hx); now apply token_iff. }
    unfold validate_cookie, Token. rewrite !andb_true_iff, T, !P, negb_true_iff, Nat.eqb_neq, length_zero_iff_nil.
    cbn [In]. split.
    - intros ((((A & B) & C) & D) & F). repeat split; auto. intros s [<- | [<- | [<- | []]]]; auto.
    - intros ((A & B) & C). repeat split; auto. }
  destruct (validate_cookie c); cbn [negb]; split; try discriminate.
  - intros H. exfalso. apply H. now apply E.
  - intros _ H. apply E in H. discriminate.
  - reflexivity.
Qed.

(** C81 (b): what it produces holds no control character (no header can be smuggled in). *)
Theorem set_cookie_no_control : forall c h, to_header c = Some h ->
  (forall t, ck_expires c = Some t -> four_digit_year t) ->
  (forall n, ck_max_age c = Some n -> (-2147483648 <= n <= 2147483647)%Z) ->
  Forall (fun x => ~ Control x) h.
Proof.
  intros c h H HE HM. apply to_header_text in H as [-> V].
  pose proof (validate_parts c V) as (Nn & Tn & Vv & Vd & Vp).
  assert (Val : forall s, forallb is_set_cookie_value_char s = true -> Forall (fun x => ~ Control x) s).
  { intros s H. apply forallb_Forall in H. eapply Forall_impl; [|exact H]. cbn. intros x Hx.
    unfold is_set_cookie_value_char in Hx. apply control_false. destruct (is_control x); auto. lia. }
  apply Val in Vv, Vd, Vp.
  assert (Lit : forall s, forallb (fun c => negb (is_control c)) s = true -> Forall (fun x => ~ Control x) s).
  { intros s Hs. apply forallb_Forall in Hs. eapply Forall_impl; [|exact Hs]. cbn. intros x Hx. apply control_false. destruct (is_control x); auto. }
  fa.
  - eapply Forall_impl; [|exact Tn]. cbn. intros x Hx. apply token_facts in Hx. tauto.
  - apply Lit; reflexivity.
  - exact Vv.
  - apply Forall_flat_map. unfold attr_list.
    assert (One : forall s d, forallb (fun c => negb (is_control c)) s = true -> Forall (fun x => ~ Control x) d ->
       Forall (fun l => Forall (fun x => ~ Control x) (59 :: l)) [s ++ d]).
    { intros s d H1 H2. constructor; [|constructor]. constructor; [unfold Control; lia|]. apply Forall_app. split; auto. }
    fa.
    + destruct (ck_expires c) as [t|]; cbn [opt]; [|constructor]. apply One; [reflexivity|].
      eapply Forall_impl; [|apply (proj2 (date_value t (HE t eq_refl)))]. cbn. unfold Control. lia.
    + destruct (ck_max_age c) as [n|]; cbn [opt]; [|constructor]. apply One; [reflexivity|].
      eapply Forall_impl; [|apply (proj2 (to_string_number n (HM n eq_refl)))]. cbn. unfold Control. lia.
    + destruct (ck_domain c); [constructor | apply One; [reflexivity | auto]].
    + destruct (ck_path c); [constructor | apply One; [reflexivity | auto]].
    + destruct (ck_secure c); [apply (One (str " Secure") []); [reflexivity | constructor] | constructor].
    + destruct (ck_http_only c); [apply (One (str " HttpOnly") []); [reflexivity | constructor] | constructor].
    + destruct (ck_same_site c) as [x|]; cbn [opt]; [|constructor]. apply One; [reflexivity|]. destruct x; apply Lit; reflexivity.
Qed.

(** C81 (c): reading the header back gives the cookie: no text in the value, Domain or Path can add,
    remove or change an attribute.  Only blanks at the ends of those texts, and one pair of double quotes
    around them, are lost; an empty Path reads back as the default. *)
Theorem set_cookie_roundtrip : forall c h, to_header c = Some h ->
  (forall t, ck_expires c = Some t -> four_digit_year t) ->
  (forall n, ck_max_age c = Some n -> (-2147483648 <= n <= 2147483647)%Z) ->
  exists c', parse_set_cookie h = Some c' /\
    ck_name c' = ck_name c /\ ck_expires c' = ck_expires c /\ ck_max_age c' = ck_max_age c /\
    ck_secure c' = ck_secure c /\ ck_http_only c' = ck_http_only c /\ ck_same_site c' = ck_same_site c /\
    (exists v, RTrimmed (ck_value c) v /\ Stripped v (ck_value c')) /\
    (exists d, Trimmed (ck_domain c) d /\ Stripped d (ck_domain c')) /\
    (ck_path c = [] -> ck_path c' = str "/") /\
    (ck_path c <> [] -> exists p, Trimmed (ck_path c) p /\ Stripped p (ck_path c')).
Proof.
  intros c h H HE HM. eexists. split; [apply (parse_to_header c h H); split; auto|].
  cbn [ck_name ck_value ck_expires ck_max_age ck_domain ck_path ck_secure ck_http_only ck_same_site].
  repeat (refine (conj eq_refl _)).
  refine (conj _ (conj _ (conj _ _))).
  - exists (rtrim (ck_value c)). split; [apply rtrim_spec | apply unquote_spec].
  - exists (trim_http_whitespace (ck_domain c)). split; [apply trim_spec | apply unquote_spec].
  - intros ->. reflexivity.
  - intros Hp. destruct (ck_path c) as [|x r]; [congruence|].
    exists (trim_http_whitespace (x :: r)). split; [apply trim_spec | apply unquote_spec].
Qed.

(** A text is plain if it neither begins nor ends with a blank nor is wrapped in double quotes. *)
Definition PlainText (s : list N) : Prop :=
  (forall c r, s = c :: r -> ~ Ows c) /\ (forall c r, s = r ++ [c] -> ~ Ows c) /\ (forall m, s <> [34] ++ m ++ [34]).

(** For cookies made of plain texts with a Path, nothing at all is lost. *)
Theorem set_cookie_exact : forall c h, to_header c = Some h ->
  (forall t, ck_expires c = Some t -> four_digit_year t) ->
  (forall n, ck_max_age c = Some n -> (-2147483648 <= n <= 2147483647)%Z) ->
  PlainText (ck_value c) -> PlainText (ck_domain c) -> PlainText (ck_path c) -> ck_path c <> [] ->
  parse_set_cookie h = Some c.
Proof.
  intros c h H HE HM (A1 & A2 & A3) (B1 & B2 & B3) (C1 & C2 & C3) Np.
  rewrite (parse_to_header c h H) by (split; auto).
  assert (W : forall x, ~ Ows x -> is_http_whitespace x = false) by (intros x Hx; unfold Ows, is_http_whitespace in *; lia).
  assert (U : forall s, (forall m, s <> [34] ++ m ++ [34]) -> unquote s = s) by (intros s Hs; apply stripped_unquote; right; auto).
  assert (R : rtrim (ck_value c) = ck_value c).
  { destruct (list_eq_dec N.eq_dec (ck_value c) []) as [-> |Nv]; [reflexivity|].
    destruct (exists_last Nv) as (l & x & Ev). rewrite Ev.
    rewrite <- (app_nil_r (l ++ [x])) at 1. rewrite rtrim_app by (apply W; eapply A2; exact Ev).
    cbn. now rewrite app_nil_r. }
  rewrite R, (U _ A3).
  rewrite (trim_id (ck_domain c)), (U _ B3) by (intros; apply W; eauto).
  assert (P : match ck_path c with [] => str "/" | _ => unquote (trim_http_whitespace (ck_path c)) end = ck_path c).
  { rewrite (trim_id (ck_path c)), (U _ C3) by (intros; apply W; eauto). destruct (ck_path c); [congruence | reflexivity]. }
  assert (Q : match ck_path c with [] => str "/" | _ :: _ => unquote (trim_http_whitespace (ck_path c)) end
             = match ck_path c with [] => str "/" | n :: l => unquote (trim_http_whitespace (n :: l)) end)
    by (destruct (ck_path c); reflexivity).
  rewrite <- Q, P. destruct c; reflexivity.
Qed.

(** * The cookie jar *)

Definition jar_keys_ok (j : jar) : Prop := Forall (fun e => bytes_ok (fst e)) j.

Lemma jar_put_keys j k c : jar_keys_ok j -> bytes_ok k -> jar_keys_ok (jar_put j k c).
Proof.
  intros Hj Hk. induction j as [|e j IH]; cbn [jar_put]; [repeat constructor; auto|].
  inversion Hj; subst. destruct (iequals k (fst e)); constructor; auto. now apply IH.
Qed.

Lemma jar_get_put j k c q : jar_keys_ok j -> bytes_ok k -> bytes_ok q ->
  jar_get (jar_put j k c) q = if iequals q k then Some c else jar_get j q.
Proof.
  intros Hj Hk Hq. unfold jar_get. induction j as [|e j IH]; cbn [jar_put find fst].
  - destruct (iequals q k); reflexivity.
  - inversion Hj as [|? ? He Hj']; subst. specialize (IH Hj').
    destruct (iequals k (fst e)) eqn:E.
    + apply iequals_spec in E; auto. cbn [find fst].
      assert (X : iequals q (fst e) = iequals q k).
      { destruct (iequals q (fst e)) eqn:A; destruct (iequals q k) eqn:B; auto.
        - apply iequals_spec in A; auto. assert (iequals q k = true) by (apply iequals_spec; auto; congruence). congruence.
        - apply iequals_spec in B; auto. assert (iequals q (fst e) = true) by (apply iequals_spec; auto; congruence). congruence. }
      rewrite X. destruct (iequals q k); reflexivity.
    + cbn [find]. destruct (iequals q (fst e)) eqn:A; [|exact IH].
      destruct (iequals q k) eqn:B; [|reflexivity].
      apply iequals_spec in A, B; auto. assert (iequals k (fst e) = true) by (apply iequals_spec; auto; congruence). congruence.
Qed.

(** A jar as the operations build it. *)
Inductive jar_op := JAdd (c : cookie) | JRemove (name : list N).
Definition jar_run (l : list jar_op) : jar :=
  fold_left (fun j o => match o with JAdd c => jar_add j c | JRemove k => jar_remove j k end) l [].

(** The last operation on a name decides: last_op l q is the cookie last added under that name and not
    removed since. *)
Inductive Holds : list jar_op -> list N -> option cookie -> Prop :=
| h_empty q : Holds [] q None
| h_add l c q : SameName (ck_name c) q -> Holds (l ++ [JAdd c]) q (Some c)
| h_add_other l c q r : ~ SameName (ck_name c) q -> Holds l q r -> Holds (l ++ [JAdd c]) q r
| h_remove l k q : SameName k q -> Holds (l ++ [JRemove k]) q None
| h_remove_other l k q r : ~ SameName k q -> Holds l q r -> Holds (l ++ [JRemove k]) q r.

Definition op_ok (o : jar_op) : Prop :=
  match o with JAdd c => bytes_ok (ck_name c) | JRemove k => bytes_ok k end.

Lemma jar_run_keys l : Forall op_ok l -> jar_keys_ok (jar_run l).
Proof.
  induction l as [|o l IH] using rev_ind; intros F; [constructor|].
  apply Forall_app in F as [F Fo]. inversion Fo as [|? ? Ho _]; subst. unfold jar_run. rewrite fold_left_app. cbn [fold_left].
  fold (jar_run l). destruct o; cbn in Ho.
  - apply jar_put_keys; auto.
  - unfold jar_remove, jar_keys_ok. apply Forall_forall. intros e He. apply filter_In in He as [He _].
    specialize (IH F). unfold jar_keys_ok in IH. rewrite Forall_forall in IH. auto.
Qed.

Lemma jar_get_remove j k q : jar_keys_ok j -> bytes_ok k -> bytes_ok q ->
  jar_get (jar_remove j k) q = if iequals k q then None else jar_get j q.
Proof.
  intros Hj Hk Hq. unfold jar_get, jar_remove. induction j as [|e j IH]; cbn [filter find].
  - destruct (iequals k q); reflexivity.
  - inversion Hj as [|? ? He Hj']; subst. specialize (IH Hj').
    destruct (iequals k (fst e)) eqn:E; cbn [negb].
    + rewrite IH. destruct (iequals k q) eqn:B; [reflexivity|].
      destruct (iequals q (fst e)) eqn:A; [|reflexivity].
      apply iequals_spec in A, E; auto. assert (iequals k q = true) by (apply iequals_spec; auto; congruence). congruence.
    + cbn [find]. destruct (iequals q (fst e)) eqn:A; [|exact IH].
      destruct (iequals k q) eqn:B; [|reflexivity].
      apply iequals_spec in A, B; auto. assert (iequals k (fst e) = true) by (apply iequals_spec; auto; congruence). congruence.
Qed.

(** C82: after any history of additions and removals, a lookup gives the cookie last added under that name
    (in any case), unless it was removed since. *)
Theorem cookie_jar_history : forall l q, Forall op_ok l -> bytes_ok q -> Holds l q (jar_get (jar_run l) q).
Proof.
  intros l q F Hq. induction l as [|o l IH] using rev_ind; [constructor|].
  apply Forall_app in F as [F Fo]. inversion Fo as [|? ? Ho _]; subst. specialize (IH F).
  pose proof (jar_run_keys l F) as K.
  unfold jar_run. rewrite fold_left_app. cbn [fold_left]. fold (jar_run l). destruct o as [c|k]; cbn in Ho.
  - unfold jar_add. rewrite jar_get_put by auto. destruct (iequals q (ck_name c)) eqn:E.
    + apply h_add. apply iequals_spec in E; auto. now symmetry.
    + apply h_add_other; auto. intros S1. assert (iequals q (ck_name c) = true) by (apply iequals_spec; auto; now symmetry). congruence.
  - rewrite jar_get_remove by auto. destruct (iequals k q) eqn:E.
    + apply h_remove. now apply iequals_spec in E.
    + apply h_remove_other; auto. intros S1. assert (iequals k q = true) by (apply iequals_spec; auto). congruence.
Qed.

(** * Non-vacuity *)
Definition ex_cookies : list req_cookie :=
  [ {| rc_name := str "sid"; rc_value := str "a,b=c"; rc_wire := str "a,b=c" |};
    {| rc_name := str "theme"; rc_value := str "x; y"; rc_wire := str """x; y""" |} ].
Example ex_good : Forall GoodCookie ex_cookies.
Proof.
  assert (T : forall s, forallb is_cookie_name_char s = true -> s <> [] -> Token s).
  { intros s H N. split; auto. apply forallb_Forall in H. eapply Forall_impl; [|exact H]. cbn. intros x Hx. now apply token_iff. }
  assert (C : forall s, forallb (fun c => negb (is_control c) && negb (c =? 59)) s = true -> Forall (fun c => ~ Control c /\ c <> 59) s).
  { intros s H. apply forallb_Forall in H. eapply Forall_impl; [|exact H]. cbn. intros x Hx.
    rewrite <- control_false. destruct (is_control x); cbn in Hx; [discriminate|]. split; auto. lia. }
  constructor; [|constructor; [|constructor]].
  - refine (conj _ (conj _ (conj _ (conj _ _)))).
    + apply T; [reflexivity | discriminate].
    + intros r H. discriminate.
    + apply Nat.leb_le. reflexivity.
    + apply wire_bare. split; [apply C; reflexivity|]. intros c r E. injection E as <- _. repeat split; discriminate.
    + cbn. lia.
  - refine (conj _ (conj _ (conj _ (conj _ _)))).
    + apply T; [reflexivity | discriminate].
    + intros r H. discriminate.
    + apply Nat.leb_le. reflexivity.
    + apply (wire_quoted (str "x; y")). apply Forall_forall. intros x Hx. apply control_false.
      revert x Hx. apply Forall_forall. repeat constructor.
    + cbn. lia.
Qed.
Example ex_header : cookie_header ex_cookies = str "sid=a,b=c; theme=""x; y""" /\
  parse_cookies (cookie_header ex_cookies) false = Some [(str "sid", str "a,b=c"); (str "theme", str "x; y")].
Proof. split; reflexivity. Qed.

Definition ex_cookie : cookie :=
  mkCookie (str "id") (str "a=b, Secure") (Some 784111777%Z) (Some 3600%Z) (str "example.com") (str "/app") false true (Some SSLax).
Example ex_set_cookie : to_header ex_cookie =
  Some (str "id=a=b, Secure; Expires=Sun, 06 Nov 1994 08:49:37 GMT; Max-Age=3600; Domain=example.com; Path=/app; HttpOnly; SameSite=Lax").
Proof. vm_compute. reflexivity. Qed.
Example ex_expires : four_digit_year 784111777.
Proof.
  exists 1994%Z, 11%Z, 6%Z, 9075%Z, 0%Z, 8%Z, 49%Z, 37%Z. refine (conj ex_dayno (conj _ (conj eq_refl _))); [unfold TimeOfDay; lia | lia].
Qed.
