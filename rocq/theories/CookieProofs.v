(** Proofs about the cookie parsers. *)
From Verif Require Import Base UtilModel UtilSpec UtilProofs StaticModel DateModel CookieModel CookieSpec.
Local Open Scope N_scope.

Lemma len_app a b : len (a ++ b) = len a + len b.
Proof. unfold len. rewrite app_length. lia. Qed.
Lemma len_one c : len [c] = 1.
Proof. reflexivity. Qed.

Lemma control_iff c : is_control c = true <-> Control c.
Proof. unfold is_control, Control. lia. Qed.
Lemma control_false c : is_control c = false <-> ~ Control c.
Proof. unfold is_control, Control. lia. Qed.

Lemma token_iff c : is_cookie_name_char c = true <-> TokenChar c.
Proof.
  unfold is_cookie_name_char, TokenChar. cbn [In].
  change (str "!#$%&'*+-.^_`|~") with [33; 35; 36; 37; 38; 39; 42; 43; 45; 46; 94; 95; 96; 124; 126].
  cbn [In]. lia.
Qed.

Lemma token_facts c : TokenChar c -> c <> 61 /\ c <> 59 /\ c <> 32 /\ c <> 9 /\ ~ Control c /\ c < 128.
Proof.
  intros H. apply token_iff in H. unfold is_cookie_name_char in H. unfold Control. lia.
Qed.

Lemma run_app sc s a b : cookie_run sc s (a ++ b) =
  match cookie_run sc s a with None => None | Some s' => cookie_run sc s' b end.
Proof.
  revert s. induction a as [|c a IH]; intros s; cbn [cookie_run app]; [reflexivity|].
  destruct (cookie_step sc s c); auto.
Qed.

(** * Reading a well-formed pair in a Cookie header *)

Lemma run_name d n0 v q e : forall n, Forall TokenChar n -> len n0 + len n <= 1024 ->
  cookie_run false (mkC d PName n0 v q e) n = Some (mkC d PName (n0 ++ n) v q e).
Proof.
  intros n. revert n0. induction n as [|c n IH]; intros n0 F L; cbn [cookie_run]; [now rewrite app_nil_r|].
  inversion F as [|? ? Hc Hn]; subst. pose proof (token_facts c Hc) as (T1 & T2 & T3 & T4 & T5 & _).
  unfold cookie_step. cbn [c_state c_name c_dict c_value c_quote c_escape].
  replace (c =? 61) with false by lia. replace (c =? 59) with false by lia. cbn [orb andb].
  replace (is_http_whitespace c) with false by (unfold is_http_whitespace; lia). cbn [negb].
  apply control_false in T5. rewrite T5. cbn [orb].
  change (c :: n) with ([c] ++ n) in L. rewrite len_app, len_one in L.
  replace (COOKIE_NAME_MAX <=? len n0) with false by (unfold COOKIE_NAME_MAX; lia).
  rewrite IH; [now rewrite <- app_assoc | auto | rewrite len_app, len_one; lia].
Qed.

Lemma run_bare d n e : forall v v0, Forall (fun c => ~ Control c /\ c <> 59) v -> v0 <> [] ->
  len v0 + len v <= 4096 ->
  cookie_run false (mkC d PValue n v0 0 e) v = Some (mkC d PValue n (v0 ++ v) 0 e).
Proof.
  induction v as [|c v IH]; intros v0 F Hv L; cbn [cookie_run]; [now rewrite app_nil_r|].
  inversion F as [|? ? [Hc H59] Hn]; subst.
  unfold cookie_step. cbn [c_state c_name c_dict c_value c_quote c_escape].
  change (0 =? 0) with true. cbv iota.
  replace (c =? 59) with false by lia. cbn [orb andb].
  replace (length v0 =? 0)%nat with false by (destruct v0; [congruence | reflexivity]).
  rewrite andb_false_r. cbn [negb]. rewrite orb_true_r.
  apply control_false in Hc. rewrite Hc. cbn [orb].
  change (c :: v) with ([c] ++ v) in L. rewrite len_app, len_one in L.
  replace (COOKIE_VALUE_MAX <=? len v0) with false by (unfold COOKIE_VALUE_MAX; lia).
  rewrite IH; [now rewrite <- app_assoc | auto | now destruct v0 | rewrite len_app, len_one; lia].
Qed.

Lemma run_bare_all d n e v : Bare v -> len v <= 4096 ->
  cookie_run false (mkC d PValue n [] 0 e) v = Some (mkC d PValue n v 0 e).
Proof.
  intros [F Hh] L. destruct v as [|c v]; [reflexivity|]. cbn [cookie_run].
  inversion F as [|? ? [Hc H59] Hn]; subst. destruct (Hh c v eq_refl) as (H32 & H34 & H39).
  unfold cookie_step. cbn [c_state c_name c_dict c_value c_quote c_escape].
  change (0 =? 0) with true. cbv iota.
  replace (c =? 59) with false by lia. cbn [orb andb].
  replace ((c =? 39) || (c =? 34)) with false by lia. cbn [andb].
  replace (is_http_whitespace c) with false by (unfold is_http_whitespace; unfold Control in Hc; lia). cbn [negb orb].
  apply control_false in Hc. rewrite Hc. cbn [orb length].
  replace (COOKIE_VALUE_MAX <=? len []) with false by reflexivity.
  cbn [app]. change (c :: v) with ([c] ++ v) in *. rewrite len_app, len_one in L.
  rewrite run_bare; [reflexivity | auto | discriminate | rewrite len_one; lia].
Qed.

Lemma run_quoted_body d n : forall v v0, Forall (fun c => ~ Control c) v -> len v0 + len v <= 4096 ->
  cookie_run false (mkC d PValue n v0 34 false) (escape v) = Some (mkC d PValue n (v0 ++ v) 34 false).
Proof.
  induction v as [|c v IH]; intros v0 F L; cbn [escape flat_map cookie_run]; [now rewrite app_nil_r|].
  inversion F as [|? ? Hc Hn]; subst. fold (escape v).
  change (c :: v) with ([c] ++ v) in L. rewrite len_app, len_one in L.
  assert (Lim : (COOKIE_VALUE_MAX <=? len v0) = false) by (unfold COOKIE_VALUE_MAX; lia).
  rewrite run_app.
  assert (Step : cookie_run false (mkC d PValue n v0 34 false) (if (c =? 34) || (c =? 92) then [92; c] else [c])
                 = Some (mkC d PValue n (v0 ++ [c]) 34 false)).
  { destruct ((c =? 34) || (c =? 92)) eqn:E.
    - cbn [cookie_run]. unfold cookie_step at 1. cbn [c_state c_name c_dict c_value c_quote c_escape].
      change (34 =? 0) with false. change (92 =? 92) with true. cbv iota.
      unfold cookie_step. cbn [c_state c_name c_dict c_value c_quote c_escape].
      change (34 =? 0) with false. cbv iota. now rewrite Lim.
    - cbn [cookie_run]. unfold cookie_step. cbn [c_state c_name c_dict c_value c_quote c_escape].
      change (34 =? 0) with false. cbv iota. replace (c =? 92) with false by lia. replace (c =? 34) with false by lia.
      apply control_false in Hc. rewrite Hc. now rewrite Lim. }
  rewrite Step. rewrite IH; [now rewrite <- app_assoc | auto | rewrite len_app, len_one; lia].
Qed.

Lemma run_eq d n v q e : cookie_run false (mkC d PName n v q e) [61] = Some (mkC d PValue n [] 0 e).
Proof. reflexivity. Qed.

(** the state after name=wire: still in the value (bare) or after the closing quote *)
Definition after_pair (d : list (list N * list N)) (c : req_cookie) (s : cst) : Prop :=
  s = mkC d PValue (rc_name c) (rc_value c) 0 false \/
  s = mkC (store false d (rc_name c) (rc_value c)) PAfterQuoted [] [] 0 false.

Lemma run_pair d c : GoodCookie c ->
  exists s, cookie_run false (mkC d PName [] [] 0 false) (pair_text c) = Some s /\ after_pair d c s.
Proof.
  intros ((Hne & HT) & Hd & HL & HW & HV). unfold pair_text. rewrite run_app.
  rewrite run_name by (auto; unfold len in *; cbn [length]; lia). cbn [app]. 
  change (61 :: rc_wire c) with ([61] ++ rc_wire c). rewrite run_app, run_eq.
  revert HV. unfold after_pair. destruct HW as [v Hv | v Hv]; intros HV.
  - rewrite run_bare_all by auto. eexists. split; [reflexivity|]. now left.
  - rewrite run_app. cbn [cookie_run]. unfold cookie_step at 1. cbn [c_state c_name c_dict c_value c_quote c_escape].
    change (34 =? 0) with false. change (0 =? 0) with true. cbv iota. cbn [N.eqb Pos.eqb orb andb length Nat.eqb].
    change (34 =? 59) with false. change (34 =? 39) with false. change (34 =? 34) with true. cbn [orb andb].
    rewrite run_app, run_quoted_body by auto. cbn [cookie_run app].
    unfold cookie_step. cbn [c_state c_name c_dict c_value c_quote c_escape].
    change (34 =? 0) with false. change (34 =? 92) with false. change (34 =? 34) with true. cbv iota.
    eexists. split; [reflexivity|]. now right.
Qed.

Lemma good_store d c : GoodCookie c -> store false d (rc_name c) (rc_value c) = emplace d (rc_name c) (rc_value c).
Proof.
  intros ((Hne & HT) & Hd & _). unfold store, is_cookie_attribute. destruct (rc_name c) as [|x r] eqn:E; [congruence|].
  destruct (N.eqb_spec x 36) as [-> | _]; [exfalso; now apply (Hd r) | reflexivity].
Qed.

Lemma run_sep d c s : GoodCookie c -> after_pair d c s ->
  cookie_run false s [59; 32] = Some (mkC (store false d (rc_name c) (rc_value c)) PName [] [] 0 false).
Proof. intros G [-> | ->]; reflexivity. Qed.

Lemma finish_pair d c s : GoodCookie c -> after_pair d c s ->
  cookie_finish false s = Some (store false d (rc_name c) (rc_value c)).
Proof.
  intros ((Hne & HT) & _) [-> | ->]; cbn; [|reflexivity]. destruct (rc_name c); [congruence | reflexivity].
Qed.

Definition dict_of (d : list (list N * list N)) (l : list req_cookie) : list (list N * list N) :=
  fold_left (fun d c => emplace d (rc_name c) (rc_value c)) l d.

Lemma run_header : forall l d, l <> [] -> Forall GoodCookie l ->
  match cookie_run false (mkC d PName [] [] 0 false) (cookie_header l) with
  | Some s => cookie_finish false s
  | None => None
  end = Some (dict_of d l).
Proof.
  induction l as [|c l IH]; intros d Hl F; [congruence|]. inversion F as [|? ? Gc Gl]; subst.
  destruct (run_pair d c Gc) as (s & Rs & As).
  destruct l as [|c2 l].
  - cbn [cookie_header]. rewrite Rs. rewrite (finish_pair d c s Gc As), good_store by auto. reflexivity.
  - change (cookie_header (c :: c2 :: l)) with (pair_text c ++ [59; 32] ++ cookie_header (c2 :: l)).
    rewrite run_app, Rs, run_app, (run_sep d c s Gc As), good_store by auto.
    rewrite IH; [reflexivity | discriminate | auto].
Qed.

(** ** What the resulting map holds *)

Lemma token_bytes n : Token n -> bytes_ok n.
Proof.
  intros [_ H]. unfold bytes_ok. eapply Forall_impl; [|exact H]. cbn. intros c Hc. apply token_facts in Hc. lia.
Qed.

Lemma find_find {A} (p q : A -> bool) l : (forall x, In x l -> p x = q x) -> find p l = find q l.
Proof.
  induction l as [|a l IH]; intros H; cbn [find]; [reflexivity|]. rewrite (H a) by now left.
  destruct (q a); auto. apply IH. intros x Hx. apply H. now right.
Qed.

Lemma get_emplace d n v k : bytes_ok k -> bytes_ok n -> Forall (fun e => bytes_ok (fst e)) d ->
  cookie_get (emplace d n v) k =
  match cookie_get d k with Some x => Some x | None => if iequals k n then Some v else None end.
Proof.
  intros Hk Hn Hd. unfold cookie_get, emplace.
  destruct (find (fun e => iequals n (fst e)) d) as [[n' v']|] eqn:F.
  - destruct (find (fun e => iequals k (fst e)) d) as [[k' w]|] eqn:G; [reflexivity|]. cbn [option_map].
    destruct (iequals k n) eqn:E; [|reflexivity]. exfalso.
    apply find_some in F as [Fi Fe]. cbn in Fe.
    pose proof (find_none _ _ G _ Fi) as Gn. cbn in Gn.
    assert (Hn' : bytes_ok n') by (rewrite Forall_forall in Hd; apply (Hd _ Fi)).
    apply iequals_spec in E; auto. apply iequals_spec in Fe; auto.
    assert (iequals k n' = true) by (apply iequals_spec; auto; congruence). congruence.
  - assert (A : forall l, find (fun e : list N * list N => iequals k (fst e)) (l ++ [(n, v)]) =
       match find (fun e => iequals k (fst e)) l with Some e => Some e | None => if iequals k n then Some (n, v) else None end).
    { induction l as [|e l IH]; cbn [app find fst]; [destruct (iequals k n); reflexivity|].
      destruct (iequals k (fst e)); auto. }
    rewrite A. clear F. destruct (find _ d); [reflexivity|]. cbn [option_map]. destruct (iequals k n); reflexivity.
Qed.

Lemma emplace_keys d n v : Forall (fun e => bytes_ok (fst e)) d -> bytes_ok n ->
  Forall (fun e => bytes_ok (fst e)) (emplace d n v).
Proof.
  intros Hd Hn. unfold emplace. destruct (find _ d); auto. apply Forall_app. split; auto.
Qed.

Lemma get_dict_of k : bytes_ok k -> forall l d, Forall GoodCookie l -> Forall (fun e => bytes_ok (fst e)) d ->
  cookie_get (dict_of d l) k =
  match cookie_get d k with
  | Some x => Some x
  | None => option_map rc_value (find (fun c => iequals k (rc_name c)) l)
  end.
Proof.
  intros Hk. induction l as [|c l IH]; intros d F Hd; cbn [dict_of fold_left find].
  - destruct (cookie_get d k); reflexivity.
  - inversion F as [|? ? Gc Gl]; subst. pose proof (token_bytes _ (proj1 Gc)) as Hn.
    fold (dict_of (emplace d (rc_name c) (rc_value c)) l).
    rewrite IH by (auto using emplace_keys). rewrite get_emplace by auto.
    destruct (cookie_get d k); [reflexivity|]. destruct (iequals k (rc_name c)); reflexivity.
Qed.

Lemma first_value_iff l k v : bytes_ok k -> Forall GoodCookie l ->
  (option_map rc_value (find (fun c => iequals k (rc_name c)) l) = Some v <-> FirstValue l k v).
Proof.
  intros Hk F. induction l as [|c l IH].
  - cbn. split; [discriminate|]. intros (pre & c & post & E & _). destruct pre; discriminate.
  - inversion F as [|? ? Gc Gl]; subst. specialize (IH Gl). pose proof (token_bytes _ (proj1 Gc)) as Hn.
    cbn [find]. destruct (iequals k (rc_name c)) eqn:E.
    + apply iequals_spec in E; auto. cbn [option_map]. split.
      * intros H. injection H as <-. exists [], c, l. repeat split; auto. now symmetry.
      * intros (pre & c' & post & Ec & Hs & Hv & Hp). destruct pre as [|c0 pre].
        -- injection Ec as <- <-. now rewrite Hv.
        -- injection Ec as <- ->. inversion Hp as [|? ? Hx Hy]; subst. exfalso. apply Hx. now symmetry.
    + assert (N1 : ~ SameName (rc_name c) k).
      { intros Hs. assert (iequals k (rc_name c) = true) by (apply iequals_spec; auto; now symmetry). congruence. }
      rewrite IH. split.
      * intros (pre & c' & post & -> & Hs & Hv & Hp). exists (c :: pre), c', post. repeat split; auto.
      * intros (pre & c' & post & Ec & Hs & Hv & Hp). destruct pre as [|c0 pre].
        -- injection Ec as <- <-. contradiction.
        -- injection Ec as <- ->. inversion Hp; subst. exists pre, c', post. repeat split; auto.
Qed.

(** * Every input *)

Definition clean_name (n : list N) : Prop :=
  n <> [] /\ (forall r, n <> 36 :: r) /\ len n <= 1024 /\
  Forall (fun c => ~ Control c /\ c <> 32 /\ c <> 61 /\ c <> 59) n.

Definition entry_ok (e : list N * list N) : Prop := clean_name (fst e) /\ len (snd e) <= 4096.

Definition st_ok (s : cst) : Prop :=
  Forall entry_ok (c_dict s) /\ len (c_name s) <= 1024 /\
  Forall (fun c => ~ Control c /\ c <> 32 /\ c <> 61 /\ c <> 59) (c_name s) /\ len (c_value s) <= 4096.

Lemma store_ok sc d n v : Forall entry_ok d -> len n <= 1024 ->
  Forall (fun c => ~ Control c /\ c <> 32 /\ c <> 61 /\ c <> 59) n -> len v <= 4096 -> Forall entry_ok (store sc d n v).
Proof.
  intros Hd L F V. unfold store. destruct (is_cookie_attribute n sc) eqn:E; auto.
  unfold emplace. destruct (find _ d); auto. apply Forall_app. split; auto. repeat constructor; cbn [fst snd]; auto.
  - intros ->. discriminate.
  - intros r ->. cbn in E. discriminate.
Qed.

Lemma step_ok sc s ch s' : st_ok s -> cookie_step sc s ch = Some s' -> st_ok s'.
Proof.
  intros (H1 & H2 & H3 & H4) E. unfold cookie_step in E.
  assert (L0 : len [] <= 4096 /\ len [] <= 1024) by (unfold len; cbn; lia).
  assert (S1 : forall v, len v <= 4096 -> Forall entry_ok (store sc (c_dict s) (c_name s) v)) by (intros; now apply store_ok).
  destruct (c_state s).
  - destruct (ch =? 61) eqn:E1; [injection E as <-; repeat split; cbn; auto; tauto|].
    destruct ((ch =? 59) || (sc && (ch =? 44))) eqn:E2.
    + destruct (c_name s) eqn:En; injection E as <-; [repeat split; auto; rewrite En; auto|].
      repeat split; cbn; auto; try tauto. apply S1. tauto.
    + destruct (is_http_whitespace ch) eqn:E3; cbn [negb] in E; [injection E as <-; repeat split; auto|].
      destruct (is_control ch) eqn:E4; [discriminate|]. cbn [orb] in E.
      destruct (COOKIE_NAME_MAX <=? len (c_name s)) eqn:E5; [discriminate|]. injection E as <-.
      repeat split; cbn [c_dict c_name c_value]; auto.
      * rewrite len_app, len_one. unfold COOKIE_NAME_MAX in E5. lia.
      * apply Forall_app. split; auto. repeat constructor; [now apply control_false | unfold is_http_whitespace in E3; lia | lia | lia].
  - destruct (c_quote s =? 0).
    + destruct ((ch =? 59) || (sc && (ch =? 44))) eqn:E2; [injection E as <-; repeat split; cbn; auto; try tauto; constructor|].
      destruct (((ch =? 39) || (ch =? 34)) && (length (c_value s) =? 0)%nat); [injection E as <-; repeat split; auto|].
      destruct (negb (is_http_whitespace ch) || negb (length (c_value s) =? 0)%nat); [|injection E as <-; repeat split; auto].
      destruct (is_control ch); [discriminate|]. cbn [orb] in E.
      destruct (COOKIE_VALUE_MAX <=? len (c_value s)) eqn:E5; [discriminate|]. injection E as <-.
      repeat split; cbn [c_dict c_name c_value]; auto. rewrite len_app, len_one. unfold COOKIE_VALUE_MAX in E5. lia.
    + destruct (c_escape s).
      { destruct (COOKIE_VALUE_MAX <=? len (c_value s)) eqn:E5; [discriminate|]. injection E as <-.
        repeat split; cbn [c_dict c_name c_value]; auto. rewrite len_app, len_one. unfold COOKIE_VALUE_MAX in E5. lia. }
      destruct (ch =? 92); [injection E as <-; repeat split; auto|].
      destruct (ch =? c_quote s); [injection E as <-; repeat split; cbn; auto; try tauto; constructor|].
      destruct (is_control ch); [discriminate|].
      destruct (COOKIE_VALUE_MAX <=? len (c_value s)) eqn:E5; [discriminate|]. injection E as <-.
      repeat split; cbn [c_dict c_name c_value]; auto. rewrite len_app, len_one. unfold COOKIE_VALUE_MAX in E5. lia.
  - destruct ((ch =? 59) || (ch =? 44)); [injection E as <-; repeat split; auto|].
    destruct (negb (is_http_whitespace ch)); [discriminate|]. injection E as <-; repeat split; auto.
Qed.

Lemma run_ok sc l : forall s s', st_ok s -> cookie_run sc s l = Some s' -> st_ok s'.
Proof.
  induction l as [|c l IH]; intros s s' H E; cbn [cookie_run] in E; [now injection E as <-|].
  destruct (cookie_step sc s c) as [s1|] eqn:E1; [|discriminate]. eapply IH; [eapply step_ok; eauto | exact E].
Qed.

Lemma finish_ok sc s d : st_ok s -> cookie_finish sc s = Some d -> Forall entry_ok d.
Proof.
  intros (H1 & H2 & H3 & H4) E. unfold cookie_finish in E.
  assert (S1 : Forall entry_ok (store sc (c_dict s) (c_name s) (c_value s))) by now apply store_ok.
  destruct (c_state s); [|destruct (negb (c_quote s =? 0) || c_escape s); [discriminate|]|];
    destruct (c_name s); injection E as <-; auto.
Qed.

Lemma parse_entries sc h d : parse_cookies h sc = Some d -> Forall entry_ok d.
Proof.
  unfold parse_cookies. destruct (length h =? 0)%nat; [intros E; injection E as <-; constructor|].
  destruct (MAX_COOKIE_HEADER_SIZE <? len h); [discriminate|].
  destruct (cookie_run sc cookie_init h) as [s|] eqn:E; [|discriminate]. intros F.
  eapply finish_ok; [|exact F]. eapply run_ok; [|exact E]. repeat split; cbn; auto; unfold len; cbn; lia.
Qed.

