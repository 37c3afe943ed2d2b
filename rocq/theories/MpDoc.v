(** Documents, read octet by octet. *)
From Verif Require Import Base UtilModel Http1Model UtilSpec CookieSpec H2FieldSpec Http1Spec Http1Proofs RecvSpec MpModel MpSpec MpAuto MpRefine MpRefine2.
Local Open Scope nat_scope.

Lemma run_first b p l : 5 <= length b -> forall k ts, k <= length b - 2 ->
  a_run b (mkAu MStartBoundary p l (length b - 2 - k) []) ts (skipn (length b - k) b) = ANext (mkAu MStartBoundary p l (length b - 2) []) ts.
Proof.
  intros HB. induction k as [|k IH]; intros ts HK.
  - rewrite !Nat.sub_0_r. rewrite skipn_all2 by lia. reflexivity.
  - destruct (nth_error b (length b - S k)) as [c|] eqn:EC; [|apply nth_error_None in EC; lia]. rewrite (skipn_nth _ _ _ EC). cbn [a_run]. unfold a_step. cbn [u_state u_n]. unfold a_first.
    assert (E1 : (length b - 2 - S k =? length b - 2) = false) by (apply Nat.eqb_neq; lia). assert (E2 : (length b - 2 - S k - 1 =? length b - 2) = false) by (apply Nat.eqb_neq; lia). rewrite E1, E2.
    replace (length b - 2 - S k + 2) with (length b - S k) by lia. rewrite EC, N.eqb_refl. cbn [u_part u_last]. replace (S (length b - 2 - S k)) with (length b - 2 - k) by lia. replace (S (length b - S k)) with (length b - k) by lia.
    rewrite app_nil_r. apply IH. lia.
Qed.
Definition fs (p l : bool) : au := mkAu MFieldStart p l 0 [].
Lemma run_start bd ts : BoundaryText bd -> a_run (stored_boundary bd) a_init ts (str "--" ++ bd ++ crlf) = ANext (fs false false) (ts ++ [KBegin]).
Proof.
  intros HB. destruct (good_boundary bd HB) as [HG _]. set (b := stored_boundary bd) in *. assert (E0 : forall r, a_run b a_init ts (45%N :: r) = a_run b (mkAu MStartBoundary false false 0 []) ts (45%N :: r)) by reflexivity.
  rewrite app_assoc. change (str "--" ++ bd) with (skipn 2 b). assert (EB : skipn 2 b = 45%N :: skipn 3 b) by reflexivity. rewrite EB. cbn [app]. rewrite E0. change (45%N :: skipn 3 b ++ crlf) with (skipn 2 b ++ crlf). rewrite a_run_app.
  pose proof (run_first b false false HG (length b - 2) ts ltac:(lia)) as HR. rewrite Nat.sub_diag in HR. replace (length b - (length b - 2)) with 2 in HR by lia. rewrite HR.
  unfold crlf. cbn [a_run]. unfold a_step at 1. cbn [u_state u_n]. unfold a_first. rewrite Nat.eqb_refl. change (13 =? 13)%N with true. cbv iota. cbn [u_part u_last].
  unfold a_step. cbn [u_state u_n]. unfold a_first. assert (E1 : (S (length b - 2) =? length b - 2) = false) by (apply Nat.eqb_neq; lia). assert (E2 : (S (length b - 2) - 1 =? length b - 2) = true) by (apply Nat.eqb_eq; lia).
  rewrite E1, E2. change (10 =? 10)%N with true. cbv iota. cbn [u_part u_last]. now rewrite app_nil_r.
Qed.
Lemma run_name b p l name : Forall TokenChar name -> forall n ts, a_run b (mkAu MField p l n []) ts name = ANext (mkAu MField p l (n + length name) []) (ts ++ map KName name).
Proof.
  induction 1 as [|c name HC _ IH]; intros n ts; cbn [a_run length map]; [now rewrite Nat.add_0_r, app_nil_r|]. unfold a_step. cbn [u_state u_n]. unfold a_field.
  assert (E1 : (c =? 13)%N = false) by (apply N.eqb_neq; intros ->; apply name_char_iff in HC; discriminate HC). assert (E2 : (c =? 58)%N = false) by (apply N.eqb_neq; intros ->; apply name_char_iff in HC; discriminate HC).
  rewrite E1, E2. unfold field_char. rewrite (proj2 (name_char_iff c) HC). cbn [u_part u_last]. rewrite IH. rewrite <- app_assoc. do 2 f_equal. lia.
Qed.
Lemma run_name0 b p l name ts : name <> [] -> Forall TokenChar name -> a_run b (fs p l) ts name = ANext (mkAu MField p l (length name) []) (ts ++ map KName name).
Proof.
  intros HN HT. destruct name as [|c name]; [contradiction|]. change (a_run b (fs p l) ts (c :: name)) with (a_run b (mkAu MField p l 0 []) ts (c :: name)). now rewrite (run_name b p l (c :: name) HT 0 ts).
Qed.
Lemma run_spaces b a n ts : u_state a = MValueStart -> a_run b a ts (repeat 32%N n) = ANext a ts.
Proof. intros H. induction n as [|n IH]; [reflexivity|]. cbn [repeat a_run]. unfold a_step. rewrite H. change (32 =? 32)%N with true. cbv iota. rewrite app_nil_r. exact IH. Qed.
Lemma run_value b p l v : ~ In 13%N v -> forall ts, a_run b (mkAu MValue p l 0 []) ts v = ANext (mkAu MValue p l 0 []) (ts ++ map KValue v).
Proof.
  induction v as [|c v IH]; intros HN ts; cbn [a_run map]; [now rewrite app_nil_r|]. unfold a_step. cbn [u_state]. unfold a_value. assert (E : (c =? 13)%N = false) by (apply N.eqb_neq; intros ->; apply HN; now left).
  rewrite E. cbn [u_part u_last]. rewrite IH by (intros H; apply HN; now right). now rewrite <- app_assoc.
Qed.
Lemma run_line b p l f s ts : MLine f s -> a_run b (fs p l) ts s = ANext (fs p l) (ts ++ field_tokens f).
Proof.
  intros (HN & HT & HV & HS & n & ->). rewrite a_run_app, run_name0 by auto. cbn [app a_run]. unfold a_step. cbn [u_state u_n]. unfold a_field. change (58 =? 13)%N with false. change (58 =? 58)%N with true. cbv iota.
  assert (E : (length (fst f) =? 0) = false) by (apply Nat.eqb_neq; destruct (fst f); [contradiction|discriminate]). rewrite E. cbn [u_part u_last]. rewrite app_nil_r. rewrite a_run_app, run_spaces by reflexivity.
  unfold field_tokens. destruct f as [name v]. cbn [fst snd] in *. destruct v as [|c v].
  - cbn [app crlf map]. unfold crlf. cbn [a_run]. unfold a_step. cbn [u_state]. change (13 =? 32)%N with false. unfold a_value. change (13 =? 13)%N with true. cbv iota. cbn [u_state u_part u_last]. change (10 =? 10)%N with true. cbv iota.
    rewrite app_nil_r, <- app_assoc. reflexivity.
  - assert (EV : forall r, a_run b (mkAu MValueStart p l 0 []) (ts ++ map KName name) (c :: r) = a_run b (mkAu MValue p l 0 []) (ts ++ map KName name) (c :: r)).
    { intros r. cbn [a_run]. unfold a_step. cbn [u_state hd] in *. apply N.eqb_neq in HS. rewrite HS. reflexivity. }
    cbn [app]. rewrite EV. change (c :: v ++ crlf) with ((c :: v) ++ crlf). rewrite a_run_app, run_value by exact HV. unfold crlf. cbn [a_run]. unfold a_step. cbn [u_state]. unfold a_value. change (13 =? 13)%N with true. cbv iota.
    cbn [u_state u_part u_last]. change (10 =? 10)%N with true. cbv iota. rewrite app_nil_r, <- !app_assoc. reflexivity.
Qed.
Lemma run_lines b p l fs0 s : MLines fs0 s -> forall ts, a_run b (fs p l) ts s = ANext (fs p l) (ts ++ flat_map field_tokens fs0).
Proof.
  induction 1 as [|f fs0 x y HL _ IH]; intros ts; [cbn [a_run flat_map]; now rewrite app_nil_r|]. rewrite a_run_app, (run_line b p l f x ts HL), IH. cbn [flat_map]. now rewrite <- app_assoc.
Qed.
Lemma run_headers_end b p l ts : a_run b (fs p l) ts crlf = ANext (mkAu MDataStart p l 0 []) (ts ++ [KHeadersEnd]).
Proof. unfold crlf. cbn [a_run]. unfold a_step. cbn [u_state fs]. unfold a_field. change (13 =? 13)%N with true. cbn [Nat.eqb]. cbv iota. cbn [u_state u_part u_last fs]. change (10 =? 10)%N with true. cbv iota. now rewrite app_nil_r. Qed.

(** the search for the delimiter *)
Definition Sharp (b : list N) : Prop := 5 <= length b /\ exists t, b = 13%N :: t /\ ~ In 13%N t.
Lemma sharp_boundary bd : BoundaryText bd -> Sharp (stored_boundary bd).
Proof.
  intros HB. split; [apply good_boundary; exact HB|]. exists ([10; 45; 45]%N ++ bd). split; [reflexivity|]. destruct HB as [_ HF]. intros HI. cbn in HI. destruct HI as [HI|[HI|[HI|HI]]]; try discriminate HI.
  rewrite Forall_forall in HF. destruct (HF _ HI). lia.
Qed.
Lemma sharp_nth b k : Sharp b -> 0 < k -> k < length b -> nth k b 0%N <> 13%N.
Proof. intros (_ & t & -> & HN) H1 H2 E. apply HN. destruct k; [lia|]. cbn [nth length] in *. rewrite <- E. apply nth_In. lia. Qed.
Lemma snoc_inj {A} (x y : list A) a b : x ++ [a] = y ++ [b] -> x = y /\ a = b.
Proof. apply app_inj_tail. Qed.
Lemma map_kdata_inj x y : map KData x = map KData y -> x = y.
Proof. revert y. induction x as [|a x IH]; intros [|c y] E; try discriminate E; [reflexivity|]. cbn [map] in E. injection E as -> E. f_equal. now apply IH. Qed.
(** two suffixes of one text *)
Lemma suffix_nth (x y p q : list N) k : x ++ p = y ++ q -> length q <= length p -> k < length q -> nth (length p - length q + k) p 0%N = nth k q 0%N.
Proof.
  intros E HL HK. assert (E1 : nth (length x + (length p - length q + k)) (x ++ p) 0%N = nth (length y + k) (y ++ q) 0%N).
  { rewrite E. f_equal. assert (length (x ++ p) = length (y ++ q)) by now rewrite E. rewrite !app_length in H. lia. }
  rewrite !app_nth2_plus in E1. exact E1.
Qed.
Lemma search b a : Sharp b -> forall u, ~ Contains b u -> forall ts, exists p t,
  a_run b (d_hold a []) ts u = ANext (d_hold a p) (ts ++ t) /\ t ++ map KData p = map KData u /\ p = firstn (length p) b /\ length p < length b /\
  forall k x, k <= length b -> u = x ++ firstn k b -> k <= length p.
Proof.
  intros HB. pose proof HB as (HB5 & tb & HBt & HBn). induction u as [|c u IH] using rev_ind; intros HN ts.
  - exists [], []. cbn [a_run map app length firstn]. rewrite app_nil_r. repeat split; auto; try lia. intros k x HK E. destruct x; [|discriminate E]. cbn [app] in E. destruct k; [lia|]. rewrite HBt in E. discriminate E.
  - destruct (IH) with (ts := ts) as (p & t & E1 & E2 & E3 & E4 & E5). { intros (x & y & E). apply HN. exists x, (y ++ [c]). rewrite E. now rewrite <- !app_assoc. }
    assert (HU : exists z, u = z ++ p). { exists (firstn (length u - length p) u). assert (HE : length t + length p = length u) by (rewrite <- (map_length KData u), <- E2, app_length, map_length; reflexivity).
      assert (E6 : skipn (length t) (map KData u) = map KData p) by (rewrite <- E2, skipn_app, Nat.sub_diag, skipn_all; reflexivity). rewrite <- (firstn_skipn (length u - length p) u) at 1. f_equal. replace (length u - length p) with (length t) by lia.
      apply map_kdata_inj. rewrite <- E6. now rewrite skipn_map. }
    destruct HU as (z & HU). rewrite a_run_app, E1. cbn [a_run]. unfold a_step. cbn [d_hold u_state]. unfold a_data. cbn [d_hold u_pend]. assert (EL : (length p <? length b) = true) by now apply Nat.ltb_lt. rewrite EL.
    destruct (nth (length p) b 0 =? c)%N eqn:EC.
    + apply N.eqb_eq in EC. assert (EP : p ++ [c] = firstn (S (length p)) b) by (rewrite firstn_S by exact E4; rewrite EC, <- E3; reflexivity).
      exists (p ++ [c]), t. rewrite app_nil_r. split; [reflexivity|]. rewrite map_app, app_assoc, E2, <- map_app. split; [reflexivity|]. rewrite app_length. cbn [length]. rewrite Nat.add_1_r. split; [exact EP|]. split.
      * destruct (Nat.eq_dec (S (length p)) (length b)) as [HE|HE]; [|lia]. exfalso. apply HN. exists z, []. rewrite HU, app_nil_r, <- app_assoc. f_equal. rewrite EP, HE. apply firstn_all.
      * intros k x HK E. destruct k; [lia|]. rewrite firstn_S, app_assoc in E by lia. apply snoc_inj in E as [E _]. assert (k <= length p) by (eapply E5; [lia|exact E]). lia.
    + apply N.eqb_neq in EC. assert (HM : forall k x, k <= length b -> u ++ [c] = x ++ firstn k b -> k <= 1 /\ (k = 1 -> c = 13%N)).
      { intros k x HK E. destruct k; [lia|]. rewrite firstn_S, app_assoc in E by lia. apply snoc_inj in E as [E EN]. assert (HK1 : k <= length p) by (eapply E5; [lia|exact E]).
        destruct k. { split; [lia|]. intros _. rewrite EN, HBt. reflexivity. } exfalso.
        destruct (Nat.eq_dec (S k) (length p)) as [HE|HE]; [apply EC; rewrite <- HE; congruence|].
        assert (HQ : nth (length p - length (firstn (S k) b) + 0) p 0%N = nth 0 (firstn (S k) b) 0%N) by (eapply suffix_nth; [rewrite <- HU; exact E|rewrite firstn_length; lia|rewrite firstn_length; lia]).
        rewrite firstn_length in HQ. replace (Nat.min (S k) (length b)) with (S k) in HQ by lia. rewrite HBt in HQ at 1. cbn [firstn nth] in HQ. rewrite Nat.add_0_r in HQ.
        assert (HX : nth (length p - S k) p 0%N = nth (length p - S k) b 0%N). { rewrite E3 at 2. rewrite <- (firstn_skipn (length p) b) at 2. rewrite app_nth1; [reflexivity|]. rewrite firstn_length. lia. }
        rewrite HX in HQ. revert HQ. apply sharp_nth; [exact HB|lia|lia]. }
      unfold d_false. cbn [d_hold u_pend]. assert (EH : hd 0%N b = 13%N) by (rewrite HBt; reflexivity). rewrite EH. destruct (c =? 13)%N eqn:E13.
      * apply N.eqb_eq in E13. subst c. exists [13%N], (t ++ map KData p). unfold d_hold. cbn [u_part u_last]. rewrite <- !app_assoc. split; [reflexivity|]. rewrite app_assoc, E2, map_app. split; [reflexivity|]. cbn [length]. split; [rewrite HBt; reflexivity|]. split; [lia|].
        intros k x HK E. apply (HM k x HK E).
      * apply N.eqb_neq in E13. exists [], (t ++ map KData (p ++ [c])). unfold d_hold. cbn [u_part u_last]. rewrite <- !app_assoc. split; [reflexivity|]. cbn [map length]. split; [rewrite app_nil_r, !map_app, app_assoc, E2; reflexivity|]. split; [reflexivity|]. split; [lia|].
        intros k x HK E. destruct (HM k x HK E) as [H1 H2]. destruct k as [|[|k]]; [lia| |lia]. exfalso. apply E13. auto.
Qed.
Lemma no_overlap b body : Sharp b -> ~ Contains b body -> ~ Contains b (body ++ firstn (length b - 1) b).
Proof.
  intros HB HN (x & y & E). pose proof HB as (HB5 & t & HBt & _). assert (HL : length body + (length b - 1) = length x + (length b + length y)).
  { rewrite <- !app_length, <- E, app_length, firstn_length. lia. }
  destruct (Nat.le_gt_cases (length x + length b) (length body)) as [H|H].
  - apply HN. exists x, (skipn (length x + length b) body). assert (E1 : firstn (length x + length b) (body ++ firstn (length b - 1) b) = x ++ b).
    { rewrite E, app_assoc. rewrite <- app_length. now rewrite firstn_app, Nat.sub_diag, firstn_all, firstn_O, app_nil_r. }
    rewrite firstn_app in E1. replace (length x + length b - length body) with 0 in E1 by lia. cbn [firstn] in E1. rewrite app_nil_r in E1. rewrite app_assoc, <- E1. symmetry. apply firstn_skipn.
  - assert (E1 : nth (length body) (body ++ firstn (length b - 1) b) 0%N = 13%N).
    { rewrite app_nth2 by lia. rewrite Nat.sub_diag. rewrite HBt at 2. destruct (length b - 1) eqn:EB; [lia|]. reflexivity. }
    rewrite E in E1. rewrite app_nth2 in E1 by lia. rewrite app_nth1 in E1 by lia. revert E1. apply sharp_nth; [exact HB|lia|lia].
Qed.
Lemma run_body b p l body ts : Sharp b -> ~ Contains b body -> a_run b (mkAu MData p l 0 []) ts (body ++ b) = ANext (mkAu MData p l 0 b) (ts ++ map KData body).
Proof.
  intros HB HN. pose proof HB as (HB5 & t & HBt & _). pose proof (firstn_S b (length b - 1) ltac:(lia)) as EB. replace (S (length b - 1)) with (length b) in EB by lia. rewrite firstn_all in EB.
  rewrite EB at 2. rewrite app_assoc, a_run_app. set (a := mkAu MData p l 0 []). destruct (search b a HB _ (no_overlap b body HB HN) ts) as (q & tk & E1 & E2 & E3 & E4 & E5).
  assert (HQ : length q = length b - 1). { assert (length b - 1 <= length q) by (eapply E5; [lia|reflexivity]). lia. }
  change (d_hold a []) with a in E1. rewrite E1. rewrite HQ in E3. cbn [a_run]. unfold a_step. cbn [d_hold u_state]. unfold a_data. cbn [d_hold u_pend]. rewrite HQ. assert (EL : (length b - 1 <? length b) = true) by (apply Nat.ltb_lt; lia).
  rewrite EL, N.eqb_refl. rewrite E3, <- EB. unfold d_hold, a. cbn [u_part u_last]. rewrite app_nil_r. do 2 f_equal. rewrite map_app in E2. rewrite E3 in E2. now apply app_inv_tail in E2.
Qed.
Lemma run_body_start b p l s ts : s <> [] -> a_run b (mkAu MDataStart p l 0 []) ts s = a_run b (mkAu MData p l 0 []) ts s.
Proof. destruct s; [contradiction|reflexivity]. Qed.
Lemma run_next b p l ts : 5 <= length b -> a_run b (mkAu MData p l 0 b) ts crlf = ANext (fs false l) (ts ++ [KPartEnd; KBegin]).
Proof.
  intros HB. unfold crlf. cbn [a_run]. unfold a_step. cbn [u_state]. unfold a_data at 1. cbn [u_pend]. rewrite Nat.ltb_irrefl, Nat.eqb_refl. change (13 =? 13)%N with true. cbv iota. cbn [u_state u_part u_last].
  unfold a_data. cbn [u_pend u_part u_last]. rewrite app_length. cbn [length]. assert (E1 : (length b + 1 <? length b) = false) by (apply Nat.ltb_ge; lia). assert (E2 : (length b + 1 =? length b) = false) by (apply Nat.eqb_neq; lia). rewrite E1, E2.
  change (10 =? 10)%N with true. cbv iota. now rewrite app_nil_r.
Qed.
Lemma run_final b l ts : 5 <= length b -> a_run b (mkAu MData false l 0 b) ts (str "--") = ANext (mkAu MEnd false true 0 []) (ts ++ [KPartEnd; KEnd]).
Proof.
  intros HB. change (str "--") with [45; 45]%N. cbn [a_run]. unfold a_step. cbn [u_state]. unfold a_data at 1. cbn [u_pend]. rewrite Nat.ltb_irrefl, Nat.eqb_refl. change (45 =? 13)%N with false. change (45 =? 45)%N with true. cbv iota. cbn [u_state u_part u_last].
  unfold a_data. cbn [u_pend u_part u_last]. rewrite app_length. cbn [length]. assert (E1 : (length b + 1 <? length b) = false) by (apply Nat.ltb_ge; lia). assert (E2 : (length b + 1 =? length b) = false) by (apply Nat.eqb_neq; lia). rewrite E1, E2.
  change (45 =? 45)%N with true. cbv iota. now rewrite app_nil_r.
Qed.
Lemma run_parts bd ps r : BoundaryText bd -> Parts bd ps r -> forall l ts,
  exists a, u_state a = MEnd /\ match r with 13%N :: 10%N :: r' => a_run (stored_boundary bd) (fs false l) ts r' | _ => AErr end =
    ANext a (ts ++ match ps with [] => [] | (h, body) :: ps' => flat_map field_tokens h ++ [KHeadersEnd] ++ map KData body ++ [KPartEnd] ++ document_tokens ps' end).
Proof.
  intros HB HP. pose proof (sharp_boundary bd HB) as HS. pose proof (proj1 HS) as H5. induction HP as [fs0 body h HL HN|fs0 body h ps r HL HN HP IH]; intros l ts; cbn [app crlf].
  - eexists. split; [|rewrite a_run_app, (run_lines _ _ _ _ _ HL); change (13%N :: 10%N :: body ++ delimiter bd ++ str "--") with (crlf ++ body ++ delimiter bd ++ str "--"); rewrite a_run_app, run_headers_end;
      change (delimiter bd) with (stored_boundary bd); rewrite run_body_start by (destruct body; discriminate); rewrite app_assoc, a_run_app, run_body by auto; rewrite run_final by exact H5; unfold document_tokens; cbn [flat_map app]; rewrite <- !app_assoc; reflexivity].
    reflexivity.
  - destruct (IH l (ts ++ flat_map field_tokens fs0 ++ [KHeadersEnd] ++ map KData body ++ [KPartEnd; KBegin])) as (a & HA & E). exists a. split; [exact HA|].
    rewrite a_run_app, (run_lines _ _ _ _ _ HL). change (13%N :: 10%N :: body ++ delimiter bd ++ r) with (crlf ++ body ++ delimiter bd ++ r). rewrite a_run_app, run_headers_end.
    change (delimiter bd) with (stored_boundary bd). rewrite run_body_start by (destruct body; discriminate). rewrite app_assoc, a_run_app, run_body by auto.
    assert (HR : exists r', r = crlf ++ r') by (destruct HP; eauto). destruct HR as (r' & ->). cbn [app crlf] in E. rewrite a_run_app, run_next by exact H5. rewrite <- !app_assoc. cbn [app] in E |- *. rewrite E. f_equal.
    destruct HP; unfold document_tokens; cbn [flat_map]; unfold part_tokens; cbn [fst snd]; repeat (progress (rewrite <- ?app_assoc; cbn [app])); reflexivity.
Qed.
Lemma run_document bd ps s : BoundaryText bd -> Document bd ps s -> exists a, u_state a = MEnd /\ a_run (stored_boundary bd) a_init [] s = ANext a (document_tokens ps).
Proof.
  intros HB (r & -> & HP). destruct (run_parts bd ps r HB HP false [KBegin]) as (a & HA & E). exists a. split; [exact HA|]. assert (HR : exists r', r = crlf ++ r') by (destruct HP; eauto). destruct HR as (r' & ->). cbn [app crlf] in E.
  rewrite !app_assoc. rewrite a_run_app. rewrite <- app_assoc. rewrite run_start by exact HB. cbn [app]. rewrite E. f_equal.
  inversion HP; subst; unfold document_tokens; cbn [flat_map]; unfold part_tokens; cbn [fst snd]; repeat (progress (rewrite <- ?app_assoc; cbn [app])); reflexivity.
Qed.
