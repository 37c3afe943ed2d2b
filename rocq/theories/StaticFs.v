(** Path resolution and containment. *)
From Verif Require Import Base UtilModel UtilSpec StaticModel StaticSpec.
Open Scope N_scope.

Definition plain (x : name) : Prop := x <> [] /\ x <> DOT /\ x <> DOTDOT.

Lemma resolve_nil fs k cur : resolve fs k cur [] = Found cur.
Proof. destruct k; reflexivity. Qed.

Lemma resolve_cons fs k cur x t :
  resolve fs k cur (x :: t) =
    if beq x [] || beq x DOT then resolve fs k cur t
    else if beq x DOTDOT then resolve fs k (removelast cur) t
    else match fs (cur ++ [x]) with
         | None => Missing
         | Some Dir => resolve fs k (cur ++ [x]) t
         | Some (Link absolute target) =>
             match k with O => Failure | S k' => resolve fs k' (if absolute then [] else cur) (target ++ t) end
         | Some _ => match t with [] => Found (cur ++ [x]) | _ => Missing end
         end.
Proof. destruct k; reflexivity. Qed.

Lemma plain_beq x : plain x -> beq x [] || beq x DOT = false /\ beq x DOTDOT = false.
Proof.
  intros [H1 [H2 H3]]. split; [apply orb_false_iff; split|]; now apply beq_neq.
Qed.

Lemma name_plain x : name_ok x -> plain x.
Proof. intros [H1 [_ [H2 H3]]]. now repeat split. Qed.

Lemma app_single {A} (a b : list A) x c : a ++ [x] = b ++ c -> c <> [] -> exists c', c = c' ++ [x] /\ a = b ++ c'.
Proof.
  intros H Hc. destruct (exists_last Hc) as [c' [y ->]]. rewrite app_assoc in H. apply app_inj_tail in H.
  destruct H as [-> ->]. now exists c'.
Qed.

Lemma real_nil fs : Real fs [].
Proof. intros [|] x b H; discriminate. Qed.

Lemma real_snoc fs cur x n : RealDir fs cur -> fs (cur ++ [x]) = Some n -> (forall ab t, n <> Link ab t) -> Real fs (cur ++ [x]).
Proof.
  intros [H1 H2] H3 H4 a y b E. destruct b as [|z b].
  - apply app_inj_tail in E. destruct E as [-> ->]. exists n. repeat split; auto. congruence.
  - change (a ++ y :: z :: b) with (a ++ (y :: z :: b)) in E. apply app_single in E; [|discriminate].
    destruct E as [c' [E1 E2]]. destruct c' as [|y' c'].
    { cbn in E1. destruct b; discriminate. }
    injection E1 as <- E1. destruct (H1 a y c' E2) as [n' [F1 [F2 F3]]]. exists n'. repeat split; auto.
    intros _. destruct c' as [|w c']; [|apply F3; discriminate].
    destruct H2 as [H2|H2]; [rewrite E2 in H2; destruct a; discriminate|]. rewrite E2 in H2. congruence.
Qed.

Lemma realdir_snoc fs cur x : RealDir fs cur -> fs (cur ++ [x]) = Some Dir -> RealDir fs (cur ++ [x]).
Proof. intros H E. split; [|now right]. apply (real_snoc fs cur x Dir H E). discriminate. Qed.

Lemma real_prefix fs a b : Real fs (a ++ b) -> b <> [] -> RealDir fs a.
Proof.
  intros H Hb. split.
  - intros c x d E. destruct (H c x (d ++ b)) as [n [H1 [H2 H3]]]; [rewrite E; now rewrite <- app_assoc|].
    exists n. repeat split; auto. intros Hd. apply H3. destruct d; [congruence|discriminate].
  - destruct a as [|y a] using rev_ind; [now left|]. right. clear IHa.
    destruct (H a y b) as [n [H1 [H2 H3]]]; [now rewrite <- app_assoc|]. rewrite H1. f_equal. now apply H3.
Qed.

Lemma removelast_real fs cur : RealDir fs cur -> RealDir fs (removelast cur).
Proof.
  intros H. destruct cur as [|y cur] using rev_ind; [exact H|]. clear IHcur. rewrite removelast_last.
  apply (real_prefix fs cur [y]); [apply H|discriminate].
Qed.

Lemma resolve_real fs k : forall cur todo r, RealDir fs cur -> resolve fs k cur todo = Found r -> Real fs r.
Proof.
  induction k as [k IHk] using (well_founded_induction Wf_nat.lt_wf).
  intros cur todo. revert cur. induction todo as [|x t IH]; intros cur r Hc H.
  - rewrite resolve_nil in H. injection H as <-. apply Hc.
  - rewrite resolve_cons in H. destruct (beq x [] || beq x DOT); [exact (IH _ _ Hc H)|].
    destruct (beq x DOTDOT); [exact (IH _ _ (removelast_real _ _ Hc) H)|].
    destruct (fs (cur ++ [x])) as [[|c m| |ab tg]|] eqn:F; try discriminate.
    + exact (IH _ _ (realdir_snoc _ _ _ Hc F) H).
    + destruct t; [|discriminate]. injection H as <-. apply (real_snoc _ _ _ _ Hc F). discriminate.
    + destruct t; [|discriminate]. injection H as <-. apply (real_snoc _ _ _ _ Hc F). discriminate.
    + destruct k as [|k']; [discriminate|]. apply (IHk k' (le_n _)) in H; [exact H|].
      destruct ab; [|exact Hc]. split; [apply real_nil|now left].
Qed.

Lemma realdir_nil fs : RealDir fs [].
Proof. split; [apply real_nil|now left]. Qed.

Lemma stat_real fs p r : stat fs p = Found r -> Real fs r.
Proof. apply resolve_real, realdir_nil. Qed.

(** Real paths resolve to themselves. *)
Lemma resolve_real_app fs k : wf_fs fs -> forall b a c, Real fs (a ++ b) -> (c = [] \/ b = [] \/ fs (a ++ b) = Some Dir) ->
  resolve fs k a (b ++ c) = resolve fs k (a ++ b) c.
Proof.
  intros Hw. induction b as [|x b IH]; intros a c Hr Hc.
  - now rewrite app_nil_r.
  - cbn [app]. rewrite resolve_cons.
    destruct (Hr a x b eq_refl) as [n [F1 [F2 F3]]].
    destruct (plain_beq x (name_plain x (Hw _ _ _ F1))) as [E1 E2]. rewrite E1, E2, F1.
    replace (a ++ x :: b) with ((a ++ [x]) ++ b) in * by now rewrite <- app_assoc.
    destruct b as [|y b].
    + rewrite app_nil_r in *. destruct n as [|ct m| |ab tg]; [reflexivity| | |].
      * destruct Hc as [-> |[Hc|Hc]]; [|discriminate|congruence]. cbn [app]. now rewrite resolve_nil.
      * destruct Hc as [-> |[Hc|Hc]]; [|discriminate|congruence]. cbn [app]. now rewrite resolve_nil.
      * now destruct (F2 ab tg).
    + rewrite (F3 ltac:(discriminate)). apply IH; [exact Hr|].
      destruct Hc as [-> |[Hc|Hc]]; [now left|discriminate|right; now right].
Qed.

Lemma real_stat fs r : wf_fs fs -> Real fs r -> stat fs r = Found r.
Proof.
  intros Hw Hr. unfold stat. rewrite <- (app_nil_r r) at 1.
  rewrite (resolve_real_app fs MAX_LINKS Hw r [] [] Hr); [apply resolve_nil|now left].
Qed.

Lemma resolve_app_missing fs k : forall cur a b, resolve fs k cur a = Missing -> resolve fs k cur (a ++ b) = Missing.
Proof.
  induction k as [k IHk] using (well_founded_induction Wf_nat.lt_wf).
  intros cur a. revert cur. induction a as [|x t IH]; intros cur b H.
  - rewrite resolve_nil in H. discriminate.
  - cbn [app]. rewrite resolve_cons in *. destruct (beq x [] || beq x DOT); [auto|].
    destruct (beq x DOTDOT); [auto|].
    destruct (fs (cur ++ [x])) as [[|c m| |ab tg]|]; auto.
    + destruct t; [discriminate|reflexivity].
    + destruct t; [discriminate|reflexivity].
    + destruct k as [|k']; [discriminate|]. rewrite app_assoc. now apply (IHk k' (le_n _)).
Qed.

Lemma resolve_app_failure fs k : forall cur a b, resolve fs k cur a = Failure -> resolve fs k cur (a ++ b) = Failure.
Proof.
  induction k as [k IHk] using (well_founded_induction Wf_nat.lt_wf).
  intros cur a. revert cur. induction a as [|x t IH]; intros cur b H.
  - rewrite resolve_nil in H. discriminate.
  - cbn [app]. rewrite resolve_cons in *. destruct (beq x [] || beq x DOT); [auto|].
    destruct (beq x DOTDOT); [auto|].
    destruct (fs (cur ++ [x])) as [[|c m| |ab tg]|]; try discriminate; auto.
    + destruct t; discriminate.
    + destruct t; discriminate.
    + destruct k as [|k']; [reflexivity|]. rewrite app_assoc. now apply (IHk k' (le_n _)).
Qed.

Lemma stat_prefix fs a b r : stat fs (a ++ b) = Found r -> exists r', stat fs a = Found r'.
Proof.
  unfold stat. intros H. destruct (resolve fs MAX_LINKS [] a) as [r'| |] eqn:E; [now exists r'| |].
  - rewrite (resolve_app_missing _ _ _ _ _ E) in H. discriminate.
  - rewrite (resolve_app_failure _ _ _ _ _ E) in H. discriminate.
Qed.

(** A resolved leading part: the rest is resolved from where it led, with the links left. *)
Lemma resolve_app_found fs k : forall cur a r b, RealDir fs cur -> resolve fs k cur a = Found r -> b <> [] ->
  (RealDir fs r /\ exists k', (k' <= k)%nat /\ resolve fs k cur (a ++ b) = resolve fs k' r b) \/
  (~ RealDir fs r /\ resolve fs k cur (a ++ b) = Missing).
Proof.
  induction k as [k IHk] using (well_founded_induction Wf_nat.lt_wf).
  intros cur a. revert cur. induction a as [|x t IH]; intros cur r b Hc H Hb.
  - rewrite resolve_nil in H. injection H as <-. left. split; [exact Hc|]. exists k. split; [lia|reflexivity].
  - cbn [app]. rewrite resolve_cons in *. destruct (beq x [] || beq x DOT); [now apply IH|].
    destruct (beq x DOTDOT); [apply IH; auto using removelast_real|].
    destruct (fs (cur ++ [x])) as [[|c m| |ab tg]|] eqn:F; try discriminate.
    + apply IH; auto using realdir_snoc.
    + destruct t; [|discriminate]. injection H as <-. right. split; [|destruct b; [congruence|reflexivity]].
      intros [_ [D|D]]; [destruct cur; discriminate|congruence].
    + destruct t; [|discriminate]. injection H as <-. right. split; [|destruct b; [congruence|reflexivity]].
      intros [_ [D|D]]; [destruct cur; discriminate|congruence].
    + destruct k as [|k']; [discriminate|]. rewrite app_assoc.
      destruct (IHk k' (le_n _) (if ab then [] else cur) (tg ++ t) r b) as [[H1 [k'' [H2 H3]]]|[H1 H2]]; auto.
      * destruct ab; [apply realdir_nil|exact Hc].
      * left. split; [exact H1|]. exists k''. split; [lia|exact H3].
Qed.

Lemma resolve_more fs k : forall k' cur a, (k <= k')%nat -> resolve fs k cur a <> Failure -> resolve fs k' cur a = resolve fs k cur a.
Proof.
  induction k as [k IHk] using (well_founded_induction Wf_nat.lt_wf).
  intros k' cur a Hk. revert cur. induction a as [|x t IH]; intros cur H.
  - now rewrite !resolve_nil.
  - rewrite !resolve_cons in *. destruct (beq x [] || beq x DOT); [auto|].
    destruct (beq x DOTDOT); [auto|].
    destruct (fs (cur ++ [x])) as [[|c m| |ab tg]|]; auto.
    destruct k as [|k1]; [congruence|]. destruct k' as [|k2]; [lia|]. apply (IHk k1); [lia|lia|exact H].
Qed.

(** * weakly_canonical *)

Lemma existing_prefix_spec fs : forall rest done d rest', stat fs done <> Missing -> stat fs done <> Failure ->
  existing_prefix fs done rest = Some (d, rest') ->
  done ++ rest = d ++ rest' /\ (exists r, stat fs d = Found r) /\
  (rest' = [] \/ exists x t, rest' = x :: t /\ stat fs (d ++ [x]) = Missing).
Proof.
  induction rest as [|x rest IH]; intros done d rest' H1 H1' H; cbn [existing_prefix] in H.
  - injection H as <- <-. refine (conj eq_refl (conj _ (or_introl eq_refl))).
    destruct (stat fs done) as [r| |]; [now exists r|congruence|congruence].
  - destruct (stat fs (done ++ [x])) as [r| |] eqn:E; [| |discriminate].
    + apply IH in H; [|congruence|congruence]. destruct H as [H2 H3]. rewrite <- app_assoc in H2. now split.
    + injection H as <- <-. refine (conj eq_refl (conj _ (or_intror _))).
      * destruct (stat fs done) as [r| |]; [now exists r|congruence|congruence].
      * now exists x, rest.
Qed.

Lemma absolute_plain l : forall st slash, Forall plain l -> absolute_loop l st slash = (rev l ++ st, match l with [] => slash | _ => false end).
Proof.
  induction l as [|x r IH]; intros st slash H; [reflexivity|]. inversion H as [|? ? Hx Hr]; subst.
  cbn [absolute_loop]. destruct (plain_beq x Hx) as [-> ->]. rewrite IH by exact Hr. cbn [rev]. rewrite <- app_assoc.
  destruct r; reflexivity.
Qed.

Lemma absolute_app a : forall b st slash,
  absolute_loop (a ++ b) st slash = let '(s1, sl) := absolute_loop a st slash in absolute_loop b s1 sl.
Proof.
  induction a as [|x a IH]; intros b st slash; [reflexivity|]. cbn [app absolute_loop].
  destruct (beq x [] || beq x DOT); [apply IH|]. destruct (beq x DOTDOT); apply IH.
Qed.

Definition tail_ok (t : list name) : Prop := t = [] \/ t = [[]].

Lemma absolute_normal_id l t : Forall plain l -> l <> [] -> tail_ok t -> absolute_normal (l ++ t) = l ++ t.
Proof.
  intros H Hl Ht. unfold absolute_normal. rewrite absolute_app, absolute_plain by exact H. rewrite app_nil_r.
  assert (rev l <> []) as Hr by (intros E; apply (f_equal (@length _)) in E; rewrite rev_length in E; destruct l; [congruence|discriminate]).
  destruct Ht as [-> | ->]; cbn [absolute_loop beq orb].
  - destruct (rev l) eqn:E; [congruence|]. rewrite <- E, rev_involutive, app_nil_r. destruct l; [congruence|reflexivity].
  - destruct (rev l) eqn:E; [congruence|]. now rewrite <- E, rev_involutive.
Qed.

Lemma real_names fs r : wf_fs fs -> Real fs r -> Forall name_ok r.
Proof.
  intros Hw Hr. apply Forall_forall. intros x Hx. apply in_split in Hx. destruct Hx as [a [b ->]].
  destruct (Hr a x b eq_refl) as [n [H _]]. exact (Hw _ _ _ H).
Qed.

Lemma app_split {A} (a b c d : list A) : a ++ b = c ++ d -> (exists e, c = a ++ e /\ b = e ++ d) \/ (exists e, a = c ++ e /\ d = e ++ b).
Proof.
  revert c. induction a as [|x a IH]; intros c H; [left; now exists c|].
  destruct c as [|y c]; [right; exists (x :: a); now split|]. injection H as <- H.
  destruct (IH c H) as [[e [-> ->]]|[e [-> ->]]]; [left|right]; now exists e.
Qed.

Lemma tail_split names t d x r : Forall plain names -> tail_ok t -> names ++ t = d ++ x :: r ->
  exists names' t', x :: r = names' ++ t' /\ Forall plain names' /\ tail_ok t'.
Proof.
  intros H Ht E. apply app_split in E. destruct E as [[e [-> ->]]|[e [-> E]]].
  - exists [], (x :: r). destruct Ht as [Ht|Ht]; [destruct e; discriminate|].
    refine (conj eq_refl (conj (Forall_nil _) _)). destruct e as [|y e]; [cbn in Ht; rewrite Ht; now right|].
    destruct e; discriminate.
  - apply Forall_app in H. exists e, t. repeat split; [exact E|apply H|exact Ht].
Qed.

(** The result of weakly_canonical, if it exists, is real. *)
Lemma weakly_canonical_real fs p1 r1 names t q : wf_fs fs ->
  stat fs p1 = Found r1 -> Forall plain names -> tail_ok t ->
  weakly_canonical fs (p1 ++ names ++ t) = Some q ->
  stat fs (p1 ++ names ++ t) = Found q /\ Real fs q \/ stat fs q = Missing.
Proof.
  intros Hw H1 Hn Ht H. unfold weakly_canonical in H.
  destruct (stat fs (p1 ++ names ++ t)) as [r| |] eqn:S; [| |discriminate].
  { left. injection H as <-. split; [reflexivity|]. exact (stat_real _ _ _ S). }
  right. destruct (existing_prefix fs [] (p1 ++ names ++ t)) as [[d rest]|] eqn:E; [|discriminate].
  destruct (stat fs d) as [r| |] eqn:D; try discriminate. injection H as <-.
  pose proof (existing_prefix_spec fs (p1 ++ names ++ t) [] d rest) as P. cbn [app] in P.
  destruct P as [P1 [_ P3]]; [discriminate|discriminate|exact E|].
  destruct P3 as [-> |[x [u [-> M]]]].
  { rewrite app_nil_r in P1. rewrite P1 in S. congruence. }
  (* x :: u is a suffix of names ++ t *)
  assert (exists names' t', x :: u = names' ++ t' /\ Forall plain names' /\ tail_ok t') as [names' [t' [E1 [Hn' Ht']]]].
  { apply app_split in P1. destruct P1 as [[e [-> P1]]|[e [-> P1]]].
    - apply (tail_split names t e x u Hn Ht P1).
    - destruct e as [|y e].
      + cbn [app] in P1. apply (tail_split names t [] x u Hn Ht). now rewrite <- P1.
      + injection P1 as <- P1. exfalso.
        replace (d ++ x :: e) with ((d ++ [x]) ++ e) in H1 by now rewrite <- app_assoc.
        apply stat_prefix in H1. destruct H1 as [r' H1]. congruence. }
  pose proof (stat_real _ _ _ D) as Hr. pose proof (real_names fs r Hw Hr) as Hrn.
  destruct (list_eq_dec (list_eq_dec N.eq_dec) (r ++ names') []) as [Z|Z].
  { (* the root itself with a trailing slash: it exists *)
    apply app_eq_nil in Z. destruct Z as [-> ->]. cbn [app] in E1. destruct Ht' as [-> | ->]; [discriminate|].
    injection E1 as -> ->. exfalso. unfold stat in D, M.
    destruct (resolve_app_found fs MAX_LINKS [] d [] [[]] (realdir_nil fs) D ltac:(discriminate)) as [[_ [k' [_ R]]]|[R _]].
    - pose proof (eq_trans (eq_sym R) M) as R2. rewrite resolve_cons in R2. cbn [beq orb] in R2. rewrite resolve_nil in R2. discriminate.
    - apply R, realdir_nil. }
  rewrite E1, app_assoc. rewrite absolute_normal_id; [|apply Forall_app; split; [revert Hrn; apply Forall_impl, name_plain|exact Hn']|exact Z|exact Ht'].
  rewrite <- app_assoc, <- E1. unfold stat in *.
  destruct (resolve_app_found fs MAX_LINKS [] d r [x] (realdir_nil fs) D ltac:(discriminate)) as [[Hd [k' [Hk R]]]|[Hd _]].
  - assert (resolve fs k' r [x] = Missing) as R2 by (rewrite <- R; exact M). clear R. rename R2 into R.
    rewrite (resolve_real_app fs MAX_LINKS Hw r [] (x :: u)); [|exact Hr|right; destruct Hd as [_ Hd]; exact Hd].
    cbn [app]. change (x :: u) with ([x] ++ u). apply resolve_app_missing.
    rewrite (resolve_more fs k' MAX_LINKS r [x] Hk); [exact R|congruence].
  - pose proof (real_stat fs r Hw Hr) as Sr. unfold stat in Sr.
    destruct (resolve_app_found fs MAX_LINKS [] r r (x :: u) (realdir_nil fs) Sr ltac:(discriminate)) as [[Hd' _]|[_ R]]; [tauto|exact R].
Qed.

(** * Normal forms *)

Definition normal_stack (st : list name) : Prop := exists n ns, st = rev ns ++ repeat DOTDOT n /\ Forall plain ns.

Lemma normal_loop_stack l : forall st slash, normal_stack st -> normal_stack (fst (normal_loop l st slash)).
Proof.
  induction l as [|x r IH]; intros st slash H; [exact H|]. cbn [normal_loop].
  destruct (beq x [] || beq x DOT) eqn:E1; [now apply IH|]. destruct (beq x DOTDOT) eqn:E2.
  - destruct st as [|y st]; [apply IH; exists 1%nat, []; split; [reflexivity|constructor]|].
    destruct H as [n [ns [E H]]]. destruct ns as [|z ns] using rev_ind.
    + destruct n as [|n]; [discriminate|]. cbn in E. injection E as -> ->. rewrite beq_refl. apply IH.
      exists (S (S n)), []. split; [reflexivity|constructor].
    + clear IHns. rewrite rev_app_distr in E. cbn in E. injection E as -> ->. apply Forall_app in H. destruct H as [H Hz].
      inversion Hz as [|? ? Hz' _]; subst. destruct (plain_beq z Hz') as [_ ->]. apply IH. now exists n, ns.
  - apply IH. destruct H as [n [ns [-> H]]]. exists n, (ns ++ [x]). rewrite rev_app_distr. split; [reflexivity|].
    apply Forall_app. split; [exact H|]. constructor; [|constructor].
    apply orb_false_iff in E1. destruct E1 as [E0 E1]. repeat split; now apply beq_neq.
Qed.

Lemma normal_form l : exists n names t, lexically_normal l = repeat DOTDOT n ++ names ++ t /\ Forall plain names /\ tail_ok t.
Proof.
  unfold lexically_normal. pose proof (normal_loop_stack l [] false) as H.
  destruct (normal_loop l [] false) as [st slash]. cbn [fst] in H.
  destruct H as [n [ns [E H]]]; [now exists 0%nat, []|]. exists n, ns. rewrite E.
  assert (rev (rev ns ++ repeat DOTDOT n) = repeat DOTDOT n ++ ns) as Hrev.
  { rewrite rev_app_distr, rev_involutive. f_equal. clear. induction n as [|n IH]; [reflexivity|].
    cbn [repeat rev]. rewrite IH. clear. induction n as [|n IH]; [reflexivity|]. cbn [repeat app]. now rewrite IH. }
  destruct (rev ns ++ repeat DOTDOT n) as [|y st'] eqn:E'.
  - exists []. apply app_eq_nil in E'. destruct E' as [E1 E2]. destruct n; [|discriminate].
    destruct ns as [|z ns]; [|cbn in E1; destruct (rev ns); discriminate]. repeat split; [constructor|now left].
  - rewrite Hrev. destruct (slash && negb (beq y DOTDOT)).
    + exists [[]]. rewrite <- app_assoc. repeat split; [exact H|now right].
    + exists []. rewrite app_nil_r. repeat split; [exact H|now left].
Qed.

Lemma resolve_up fs n : forall k cur, RealDir fs cur -> exists r, resolve fs k cur (repeat DOTDOT n) = Found r.
Proof.
  induction n as [|n IH]; intros k cur H; cbn [repeat]; [exists cur; apply resolve_nil|].
  rewrite resolve_cons. cbn [beq DOTDOT DOT orb N.eqb]. change (46 =? 46) with true. cbn [andb].
  apply IH, removelast_real, H.
Qed.

(** * Names and strings *)

Lemma cut_eq x y u v : ~ In 47 x -> ~ In 47 y -> (u = [] \/ exists u', u = 47 :: u') -> (v = [] \/ exists v', v = 47 :: v') ->
  x ++ u = y ++ v -> x = y /\ u = v.
Proof.
  revert y. induction x as [|a x IH]; intros y Hx Hy Hu Hv E.
  - destruct y as [|b y]; [now split|]. cbn in E. destruct Hu as [-> |[u' ->]]; [discriminate|].
    injection E as <- _. exfalso. apply Hy. now left.
  - destruct y as [|b y].
    + cbn in E. destruct Hv as [-> |[v' ->]]; [discriminate|]. injection E as -> _. exfalso. apply Hx. now left.
    + injection E as <- E. destruct (IH y) as [-> ->]; auto; intros H; [apply Hx|apply Hy]; now right.
Qed.

Definition flat (p : list name) : list N := flat_map (fun x => 47 :: x) p.

Lemma flat_head p w : (w = [] \/ exists w', w = 47 :: w') -> flat p ++ w = [] \/ exists u, flat p ++ w = 47 :: u.
Proof. destruct p as [|x p]; [auto|]. intros _. right. eexists. cbn. reflexivity. Qed.

Lemma flat_prefix a : forall r w, Forall name_ok a -> Forall name_ok r -> (w = [] \/ exists w', w = 47 :: w') ->
  flat r = flat a ++ w -> Under a r.
Proof.
  induction a as [|x a IH]; intros r w Ha Hr Hw E; [now exists r|].
  destruct r as [|y r]; [discriminate|]. cbn [flat flat_map] in E. change (flat_map _ ?l) with (flat l) in E.
  injection E as E. inversion Ha as [|? ? Hx Ha']; subst. inversion Hr as [|? ? Hy Hr']; subst.
  rewrite <- app_assoc in E. apply cut_eq in E; [|apply Hy|apply Hx| |now apply flat_head].
  - destruct E as [-> E]. destruct (IH r w Ha' Hr' Hw E) as [s ->]. now exists s.
  - rewrite <- (app_nil_r (flat r)). apply flat_head. now left.
Qed.

Lemma path_string_under fs base r : wf_fs fs -> Real fs base -> Real fs r ->
  is_prefix (path_string base) (path_string r) = true ->
  (match skipn (length (path_string base)) (path_string r) with [] => true | c :: _ => c =? 47 end) = true -> Under base r.
Proof.
  intros Hw Hb Hr HP HB. apply is_prefix_spec in HP. destruct HP as [w HP]. rewrite HP, skipn_length_app in HB.
  destruct base as [|b base]; [now exists r|]. destruct r as [|y r].
  { cbn in HP. destruct b; [|discriminate]. pose proof (real_names fs _ Hw Hb) as H. inversion H as [|? ? [H1 _] _]. congruence. }
  apply (flat_prefix (b :: base) (y :: r) w); [now apply (real_names fs)|now apply (real_names fs)| |exact HP].
  destruct w as [|c w]; [now left|]. apply N.eqb_eq in HB. subst c. right. now exists w.
Qed.

(** * sanitize_and_resolve_path *)

Lemma sanitize_shape fs base path q : wf_fs fs -> RealDir fs base -> sanitize_and_resolve_path fs base path = Some q ->
  stat fs q = Missing \/
  Real fs q /\ stat fs q = Found q /\ Under base q /\
  exists decoded, decode_path_component path = Some decoded /\
    stat fs (base ++ lexically_normal (elements (drop_slashes decoded))) = Found q.
Proof.
  intros Hw Hb H. unfold sanitize_and_resolve_path in H.
  destruct (decode_path_component path) as [dec|]; [|discriminate].
  destruct (existsb _ dec); [discriminate|]. cbv zeta in H.
  destruct (weakly_canonical fs _) as [q'|] eqn:W; [|discriminate].
  destruct (is_prefix _ _) eqn:P; [|discriminate]. cbn [andb] in H.
  destruct (match skipn _ _ with [] => true | c :: _ => c =? 47 end) eqn:B; [|discriminate]. injection H as <-.
  destruct (normal_form (elements (drop_slashes dec))) as [n [names [t [E [Hn Ht]]]]].
  pose proof W as W'. rewrite E, app_assoc in W.
  destruct (resolve_up fs n MAX_LINKS base Hb) as [r1 R1].
  assert (stat fs (base ++ repeat DOTDOT n) = Found r1) as S1.
  { unfold stat. rewrite (resolve_real_app fs MAX_LINKS Hw base []); [exact R1|apply Hb|]. right. apply Hb. }
  destruct (weakly_canonical_real fs _ _ names t q' Hw S1 Hn Ht W) as [[S2 Hq]|S2]; [|now left].
  right. refine (conj Hq (conj (real_stat fs q' Hw Hq) (conj _ _))).
  - apply (path_string_under fs); auto. apply Hb.
  - exists dec. split; [reflexivity|]. rewrite E, app_assoc. exact S2.
Qed.
