(** The sanitizers: C128-C132. *)
From Verif Require Import Base UtilModel UtilSpec UtilProofs ValJson SanModel SanSpec.
Local Open Scope N_scope.

(** ** Characters *)
Lemma space_iff c : ascii_is_space c = true <-> Space c.
Proof. unfold ascii_is_space, Space. lia. Qed.
Lemma space_no c : ascii_is_space c = false <-> ~ Space c.
Proof. rewrite <- space_iff. apply iff_sym, not_true_iff_false. Qed.
Lemma alnum_iff c : ascii_is_alnum c = true <-> Alnum c.
Proof. unfold ascii_is_alnum, Alnum. lia. Qed.

(** ** trim *)
Lemma drop_space_spec s : exists a, s = a ++ drop_space s /\ Forall Space a /\ (forall c r, drop_space s = c :: r -> ~ Space c).
Proof.
  induction s as [|c s IH]; cbn [drop_space]; [exists []; split; [reflexivity|]; split; [constructor|intros c r H; discriminate H]|].
  destruct (ascii_is_space c) eqn:E.
  - destruct IH as (a & H1 & H2 & H3). exists (c :: a). split; [cbn; congruence|]. split; [constructor; [now apply space_iff|exact H2]|exact H3].
  - exists []. split; [reflexivity|]. split; [constructor|]. intros c' r H. injection H as <- <-. now apply space_no.
Qed.
Theorem c129_trim s : Bare s (trim s).
Proof.
  unfold Bare, trim. destruct (drop_space_spec s) as (a & H1 & H2 & H3). destruct (drop_space s) as [|c t] eqn:ED.
  - exists a, []. cbn. rewrite app_nil_r in *. split; [exact H1|]. split; [exact H2|]. split; [constructor|]. split; [intros ? ? H; discriminate H|intros ? r H; destruct r; discriminate H].
  - destruct (drop_space_spec (rev (c :: t))) as (b & G1 & G2 & G3). set (u := drop_space (rev (c :: t))) in *.
    exists a, (rev b). assert (E : c :: t = rev u ++ rev b) by (rewrite <- rev_app_distr, <- G1; now rewrite rev_involutive).
    split; [rewrite <- E; exact H1|]. split; [exact H2|]. split; [now apply Forall_rev|]. split.
    + intros d r Hd. rewrite Hd in E. injection E as <- _. now apply (H3 c t).
    + intros d r Hd. apply (f_equal (@rev N)) in Hd. rewrite rev_involutive, rev_app_distr in Hd. cbn in Hd. now apply (G3 d (rev r)).
Qed.
Lemma bare_det s t t' : Bare s t -> Bare s t' -> t = t'.
Proof.
  intros (a & b & E1 & Ha & Hb & H1 & H2) (a' & b' & E2 & Ha' & Hb' & H1' & H2').
  assert (HA : forall a t b a' t' b', Forall Space a -> Forall Space a' -> (forall c r, t = c :: r -> ~ Space c) -> (forall c r, t' = c :: r -> ~ Space c) -> Forall Space b -> Forall Space b' ->
               a ++ t ++ b = a' ++ t' ++ b' -> (t <> [] -> t' <> [] -> t ++ b = t' ++ b') /\ (t = [] -> t' = [])).
  { clear. induction a as [|x a IH]; intros t b a' t' b' Fa Fa' N1 N2 Fb Fb' E.
    - cbn in E. split.
      + intros Ht Ht'. destruct a' as [|y a']; [exact E|]. destruct t as [|c t]; [congruence|]. injection E as -> _. apply Forall_cons_iff in Fa' as [Fa' _]. now destruct (N1 y t eq_refl).
      + intros ->. destruct t' as [|c t']; [reflexivity|]. exfalso. assert (HC : In c b) by (cbn in E; rewrite E; apply in_or_app; right; now left).
        rewrite Forall_forall in Fb. now apply (N2 c t' eq_refl), Fb.
    - apply Forall_cons_iff in Fa as [Fx Fa]. destruct a' as [|y a'].
      + cbn in E. split.
        * intros Ht Ht'. destruct t' as [|c t']; [congruence|]. injection E as <- _. now destruct (N2 x t' eq_refl).
        * intros ->. destruct t' as [|c t']; [reflexivity|]. injection E as <- _. now destruct (N2 x t' eq_refl).
      + injection E as <- E. apply Forall_cons_iff in Fa' as [_ Fa']. now apply IH with a'. }
  pose proof (HA a t b a' t' b' Ha Ha' H1 H1' Hb Hb' ltac:(congruence)) as [P1 P2].
  pose proof (HA a' t' b' a t b Ha' Ha H1' H1 Hb' Hb ltac:(congruence)) as [_ P3].
  destruct t as [|c t]; [symmetry; now apply P2|]. destruct t' as [|c' t']; [now apply P3|]. specialize (P1 ltac:(discriminate) ltac:(discriminate)).
  assert (E : rev b ++ rev (c :: t) ++ [] = rev b' ++ rev (c' :: t') ++ []) by (rewrite !app_nil_r, <- !rev_app_distr; now rewrite P1).
  assert (NR : forall (l : list N) (H : forall d r, l = r ++ [d] -> ~ Space d), forall d r, rev l = d :: r -> ~ Space d).
  { intros l H d r Hr. apply (H d (rev r)). apply (f_equal (@rev N)) in Hr. rewrite rev_involutive in Hr. exact Hr. }
  pose proof (HA (rev b) (rev (c :: t)) [] (rev b') (rev (c' :: t')) [] (Forall_rev Hb) (Forall_rev Hb') (NR _ H2) (NR _ H2') ltac:(constructor) ltac:(constructor) E) as [Q1 _].
  assert (NE : forall x (l : list N), rev (x :: l) <> []) by (intros x l; cbn; destruct (rev l); discriminate).
  specialize (Q1 (NE _ _) (NE _ _)). rewrite !app_nil_r in Q1. apply (f_equal (@rev N)) in Q1. now rewrite !rev_involutive in Q1.
Qed.
Theorem c129_trim_iff s t : trim s = t <-> Bare s t.
Proof. split; [intros <-; apply c129_trim|]. intros H. exact (bare_det s _ _ (c129_trim s) H). Qed.

(** ** letters *)
Theorem c129_upper s : Forall2 (fun c d => (97 <= c <= 122 -> d + 32 = c) /\ (~ 97 <= c <= 122 -> d = c)) s (to_upper_case s).
Proof. unfold to_upper_case. induction s as [|c s IH]; constructor; [|exact IH]. unfold ascii_to_upper. destruct ((97 <=? c) && (c <=? 122)) eqn:E; lia. Qed.
Theorem c129_lower s : bytes_ok s -> Forall2 (fun c d => (65 <= c <= 90 -> d = c + 32) /\ (~ 65 <= c <= 90 -> d = c)) s (to_lower_case s).
Proof.
  unfold to_lower_case. induction 1 as [|c s Hc _ IH]; constructor; [|exact IH].
  assert (H : forall c, c < 256 -> (65 <= c <= 90 -> ascii_to_lower c = c + 32) /\ (~ 65 <= c <= 90 -> ascii_to_lower c = c)).
  { clear. intros c Hc. assert (HS : forallb (fun n => let c := N.of_nat n in if (65 <=? c) && (c <=? 90) then ascii_to_lower c =? c + 32 else ascii_to_lower c =? c) (seq 0 256) = true) by (vm_compute; reflexivity).
    rewrite forallb_forall in HS. specialize (HS (N.to_nat c) ltac:(apply in_seq; lia)). cbv zeta in HS. rewrite N2Nat.id in HS. destruct ((65 <=? c) && (c <=? 90)) eqn:E; lia. }
  now apply H.
Qed.
Theorem c129_alphanumeric s : Kept Alnum s (alphanumeric_only s).
Proof.
  unfold alphanumeric_only. induction s as [|c s IH]; cbn [filter]; [constructor|]. destruct (ascii_is_alnum c) eqn:E; [apply kept_in|apply kept_out]; try exact IH; rewrite <- alnum_iff; congruence.
Qed.

(** ** normalize_whitespace *)
Lemma tokens_space_app p a s ts : Forall (fun c => p c = true) a -> Tokens p ts s -> Tokens p ts (a ++ s).
Proof. induction 1; cbn; [easy|]. intros. now apply tok_delim; [|apply IHForall]. Qed.
Lemma tokens_none p s : Tokens p [] s -> Forall (fun c => p c = true) s.
Proof. intros H. remember [] as ts eqn:E. induction H; try discriminate E; constructor; auto. Qed.
Lemma squeeze_tokens : forall ts s, Tokens ascii_is_space ts s -> (forall c r, s = r ++ [c] -> ~ Space c) ->
  (squeeze true s = intercalate [32] ts) /\ (squeeze false s = match s with c :: _ => if ascii_is_space c then 32 :: intercalate [32] ts else intercalate [32] ts | [] => [] end).
Proof.
  assert (HW : forall t b s, Forall (fun c => ascii_is_space c = false) t -> t <> [] -> squeeze b (t ++ s) = t ++ squeeze false s).
  { induction t as [|c t IH]; intros b s Ht HN; [congruence|]. apply Forall_cons_iff in Ht as [Hc Ht]. cbn [app squeeze]. rewrite Hc. f_equal. destruct t as [|d t]; [reflexivity|]. apply IH; [exact Ht|discriminate]. }
  induction 1 as [|d ts s Hd H IH|t Hn Ht|t d ts s Hn Ht Hd H IH]; intros HL.
  - split; reflexivity.
  - destruct s as [|c s].
    { exfalso. apply (HL d []); [reflexivity|now apply space_iff]. }
    destruct IH as [IH1 IH2]. { intros c' r E. apply (HL c' (d :: r)). cbn. now rewrite E. }
    cbn [squeeze]. rewrite Hd. cbn [squeeze] in IH1. split; [exact IH1|]. now rewrite <- IH1.
  - pose proof (fun b => HW t b [] Ht Hn) as HX. rewrite app_nil_r in HX. cbn [squeeze] in HX. cbn [intercalate].
    split; [rewrite HX; apply app_nil_r|]. rewrite HX, app_nil_r. destruct t as [|c t]; [congruence|]. apply Forall_cons_iff in Ht as [Hc _]. now rewrite Hc.
  - assert (HS : s <> []). { intros ->. apply (HL d t); [reflexivity|now apply space_iff]. }
    destruct IH as [IH1 _]. { intros c r E. apply (HL c (t ++ d :: r)). rewrite E, <- app_assoc. reflexivity. }
    assert (HT : ts <> []).
    { intros ->. apply tokens_none in H. destruct (exists_last HS) as (r & c & Er). subst s. apply Forall_app in H as [_ H]. apply Forall_cons_iff in H as [H _].
      apply (HL c (t ++ d :: r)); [rewrite <- app_assoc; reflexivity|now apply space_iff]. }
    assert (HI : intercalate [32] (t :: ts) = t ++ [32] ++ intercalate [32] ts) by (destruct ts; [congruence|reflexivity]).
    rewrite HI. assert (HX : forall b, squeeze b (t ++ d :: s) = t ++ [32] ++ intercalate [32] ts).
    { intros b. rewrite HW; [|exact Ht|exact Hn]. cbn [squeeze]. rewrite Hd, IH1. reflexivity. }
    split; [apply HX|]. rewrite HX. destruct t as [|c t]; [congruence|]. apply Forall_cons_iff in Ht as [Hc _]. cbn [app]. now rewrite Hc.
Qed.
Lemma tokens_space_end ts s b : Tokens ascii_is_space ts s -> Forall (fun c => ascii_is_space c = true) b -> Tokens ascii_is_space ts (s ++ b).
Proof.
  intros H Hb. induction H as [|d ts s Hd H IH|t Hn Ht|t d ts s Hn Ht Hd H IH].
  - rewrite app_nil_l. rewrite <- (app_nil_r b). now apply tokens_space_app; [|constructor].
  - cbn. now apply tok_delim.
  - destruct b as [|d b]; [rewrite app_nil_r; now constructor|]. apply Forall_cons_iff in Hb as [Hd Hb]. apply tok_more; try assumption.
    rewrite <- (app_nil_r b). now apply tokens_space_app; [|constructor].
  - rewrite <- app_assoc. cbn. now apply tok_more.
Qed.
(** C129: the words of the text, with one space between them. *)
Theorem c129_normalize s ws : Tokens ascii_is_space ws s -> normalize_whitespace s = intercalate [32] ws.
Proof.
  intros H. unfold normalize_whitespace. destruct (c129_trim s) as (a & b & E & Ha & Hb & H1 & H2).
  destruct (split_string_ok (trim s) ascii_is_space) as (ts & _ & HT).
  assert (HF : forall l, Forall Space l -> Forall (fun c => ascii_is_space c = true) l) by (intros l Hl; eapply Forall_impl; [|exact Hl]; intros c; apply space_iff).
  assert (Ew : ws = ts).
  { apply (Tokens_det ascii_is_space ws s H ts). rewrite E. apply tokens_space_app; [now apply HF|]. apply tokens_space_end; [exact HT|now apply HF]. }
  subst ts. destruct (squeeze_tokens ws (trim s) HT H2) as [_ HS]. destruct (trim s) as [|c t] eqn:Et.
  - now rewrite (Tokens_det ascii_is_space ws [] HT [] (tok_nil _)).
  - rewrite HS. destruct (ascii_is_space c) eqn:Ec; [|reflexivity]. apply space_iff in Ec. now destruct (H1 c t eq_refl).
Qed.

(** ** escape_html *)
Theorem c130_shown s : Shown (escape_html s) s.
Proof.
  unfold escape_html. induction s as [|c s IH]; cbn [flat_map]; [constructor|]. unfold escape_char.
  destruct (c =? 38) eqn:E1; [apply N.eqb_eq in E1; subst; now constructor|]. destruct (c =? 60) eqn:E2; [apply N.eqb_eq in E2; subst; now constructor|].
  destruct (c =? 62) eqn:E3; [apply N.eqb_eq in E3; subst; now constructor|]. destruct (c =? 34) eqn:E4; [apply N.eqb_eq in E4; subst; now constructor|].
  destruct (c =? 39) eqn:E5; [apply N.eqb_eq in E5; subst; now constructor|]. cbn [app]. apply shown_plain; [|exact IH]. cbn [In]. lia.
Qed.
Lemma shown_safe t s : Shown t s -> forall c, In c t -> c <> 60 /\ c <> 62 /\ c <> 34 /\ c <> 39.
Proof.
  induction 1 as [|c t s Hc H IH|t s H IH|t s H IH|t s H IH|t s H IH|t s H IH]; intros x Hx; [destruct Hx|..];
    try (apply in_app_or in Hx as [Hx|Hx]; [cbn in Hx; lia|now apply IH]). destruct Hx as [<-|Hx]; [cbn in Hc; lia|now apply IH].
Qed.
Theorem c130_no_markup s c : In c (escape_html s) -> c <> 60 /\ c <> 62 /\ c <> 34 /\ c <> 39.
Proof. apply (shown_safe _ s (c130_shown s)). Qed.
Lemma shown_det t s : Shown t s -> forall s', Shown t s' -> s = s'.
Proof.
  induction 1 as [|c t s Hc H IH|t s H IH|t s H IH|t s H IH|t s H IH|t s H IH]; intros s' H';
    match type of H' with Shown ?x _ => remember x as u eqn:E end; destruct H'; try discriminate E; try reflexivity;
    try (vm_compute in E; injection E; intros; subst; try discriminate; f_equal; now apply IH);
    cbn in E; injection E; intros; subst; try (f_equal; now apply IH); exfalso; cbn in *; tauto.
Qed.
(** nothing else is shown, so nothing is lost *)
Theorem c130_exact s s' : Shown (escape_html s) s' -> s' = s.
Proof. intros H. symmetry. exact (shown_det _ _ (c130_shown s) _ H). Qed.
