From Verif Require Import Base UtilModel UtilSpec UtilProofs Http1Model Http1Spec Http1Proofs RecvModel RecvInv CookieModel CorsSpec CorsModel ValJson SanModel SanSpec SanProps ReqModel ReqSpec ReqProps WsSession HeaderOps AuthModel AuthSpec.
From Coq Require Import SpecFloat.
Local Open Scope N_scope.

(** ** Blanks around a text *)
Lemma drop_if_spec p s : exists a, s = a ++ drop_if p s /\ Forall (fun c => p c = true) a /\ (forall c r, drop_if p s = c :: r -> p c = false).
Proof.
  induction s as [|c s (a & E & Ha & Hr)]; cbn [drop_if]; [exists []; split; [reflexivity|]; split; [apply Forall_nil|discriminate]|].
  destruct (p c) eqn:Ep.
  - exists (c :: a). split; [cbn [app]; now f_equal|]. split; [now apply Forall_cons|exact Hr].
  - exists []. split; [reflexivity|]. split; [apply Forall_nil|]. intros x r H. now injection H as <- <-.
Qed.
Lemma drop_if_app p a t : Forall (fun c => p c = true) a -> (forall c r, t = c :: r -> p c = false) -> drop_if p (a ++ t) = t.
Proof.
  intros Ha Ht. induction Ha as [|c a Hc _ IH]; cbn [app drop_if].
  - destruct t as [|c t]; [reflexivity|]. cbn [drop_if]. now rewrite (Ht c t eq_refl).
  - now rewrite Hc.
Qed.
Lemma drop_if_all p a : Forall (fun c => p c = true) a -> drop_if p a = [].
Proof. intros H. rewrite <- (app_nil_r a). apply drop_if_app; [exact H|discriminate]. Qed.
(** the class as a proposition *)
Definition Class (p : N -> bool) (Sp : N -> Prop) : Prop := forall c, p c = true <-> Sp c.
Lemma class_no p Sp c : Class p Sp -> (p c = false <-> ~ Sp c).
Proof. intros H. rewrite <- (H c). destruct (p c); split; congruence. Qed.
Lemma class_all p Sp l : Class p Sp -> (Forall (fun c => p c = true) l <-> Forall Sp l).
Proof. intros H. rewrite !Forall_forall. split; intros G c Hc; apply (H c), G, Hc. Qed.
Lemma strip_iff p Sp s t : Class p Sp -> Solid Sp t -> (strip p s = t <-> exists a b, s = a ++ t ++ b /\ Forall Sp a /\ Forall Sp b).
Proof.
  intros HC ((c & r & Ec & Hc) & (e & q & Ee & He)). split.
  - intros H. unfold strip in H. destruct (drop_if_spec p s) as (a & E1 & Ha & H1). destruct (drop_if_spec p (rev (drop_if p s))) as (b & E2 & Hb & H2).
    assert (E3 : drop_if p s = t ++ rev b) by (rewrite <- (rev_involutive (drop_if p s)), E2, rev_app_distr, H; reflexivity).
    exists a, (rev b). split; [now rewrite <- E3|]. split; [now apply (class_all p Sp)|]. apply Forall_rev. now apply (class_all p Sp).
  - intros (a & b & -> & Ha & Hb). unfold strip.
    rewrite drop_if_app; [|now apply (class_all p Sp)|intros x y H; rewrite Ec in H; cbn [app] in H; injection H as <- _; now apply (class_no p Sp)].
    rewrite rev_app_distr, drop_if_app; [apply rev_involutive|apply Forall_rev; now apply (class_all p Sp)|].
    intros x y H. rewrite Ee, rev_app_distr in H. cbn [rev app] in H. injection H as <- _. now apply (class_no p Sp).
Qed.
Lemma strip_solid p Sp s : Class p Sp -> strip p s <> [] -> Solid Sp (strip p s).
Proof.
  intros HC HN. unfold strip in *. destruct (drop_if_spec p s) as (a & E1 & Ha & H1). destruct (drop_if_spec p (rev (drop_if p s))) as (b & E2 & Hb & H2).
  set (v := drop_if p s) in *. destruct (drop_if p (rev v)) as [|c u]; [now cbn in HN|].
  split.
  - assert (Ev : v = rev (c :: u) ++ rev b) by (rewrite <- (rev_involutive v), E2, rev_app_distr; reflexivity).
    destruct (rev (c :: u)) as [|x y] eqn:Ex; [now destruct HN|]. exists x, y. split; [reflexivity|]. cbn [app] in Ev. apply (class_no p Sp); [exact HC|]. exact (H1 x _ Ev).
  - exists c, (rev u). split; [reflexivity|]. apply (class_no p Sp); [exact HC|]. exact (H2 c u eq_refl).
Qed.
Lemma space_class : Class ascii_is_space Space.
Proof. exact space_iff. Qed.
Lemma blank_class : Class jwt_space Blank.
Proof. intros c. unfold jwt_space, Blank. lia. Qed.
Lemma lower_space c d : lower c = lower d -> Space c -> Space d.
Proof. unfold lower, Space. destruct ((65 <=? c) && (c <=? 90)) eqn:E1, ((65 <=? d) && (d <=? 90)) eqn:E2; lia. Qed.
Lemma lower_blank c d : lower c = lower d -> Blank c -> Blank d.
Proof. unfold lower, Blank. destruct ((65 <=? c) && (c <=? 90)) eqn:E1, ((65 <=? d) && (d <=? 90)) eqn:E2; lia. Qed.
Lemma same_length a b : Same a b -> length a = length b.
Proof. intros H. apply (f_equal (@length N)) in H. now rewrite !map_length in H. Qed.
Lemma same_head (Sp : N -> Prop) : (forall c d, lower c = lower d -> Sp c -> Sp d) -> forall a c r, Same a (c :: r) -> ~ Sp c -> exists x y, a = x :: y /\ ~ Sp x.
Proof. intros HL a c r H Hc. destruct a as [|x y]; [discriminate H|]. exists x, y. split; [reflexivity|]. intros Hx. injection H as E _. now apply Hc, (HL x c). Qed.

(** ** C139: the token in the Authorization header *)
Lemma bytes_app a b : bytes_ok (a ++ b) -> bytes_ok a /\ bytes_ok b.
Proof. unfold bytes_ok. now rewrite Forall_app. Qed.
Theorem c139_token o h c r : bytes_ok h -> bytes_ok (ao_scheme o) -> ao_scheme o = c :: r -> ~ Space c -> forall t,
  (extract_token_from_header o h = t /\ t <> [] <-> Credentials Space (fun w => w <> []) (ao_scheme o) h t).
Proof.
  intros HB HBS Esc Hc t. unfold extract_token_from_header. destruct (drop_if_spec ascii_is_space h) as (a & Eh & Ha & Hv). set (v := drop_if ascii_is_space h) in *.
  assert (Ha' : Forall Space a) by now apply (class_all ascii_is_space Space); [apply space_class|]. set (sch := ao_scheme o) in *.
  split.
  - intros [E HN]. assert (HV : v <> []) by (intros E0; rewrite E0 in E; now subst t).
    assert (E' : (if (length v <? length sch + 2)%nat then [] else if negb (iequals (firstn (length sch) v) sch) then [] else if negb (ascii_is_space (nth (length sch) v 0)) then [] else strip ascii_is_space (skipn (length sch) v)) = t) by (destruct v; [congruence|exact E]).
    clear E. destruct (Nat.ltb_spec (length v) (length sch + 2)) as [|HL]; [now subst t|]. destruct (iequals (firstn (length sch) v) sch) eqn:EI; cbn [negb] in E'; [|now subst t].
    destruct (ascii_is_space (nth (length sch) v 0)) eqn:ES; cbn [negb] in E'; [|now subst t].
    assert (HBv : bytes_ok v) by (rewrite Eh in HB; now apply bytes_app in HB as [_ HB]).
    apply iequals_spec in EI; [|rewrite <- (firstn_skipn (length sch) v) in HBv; now apply bytes_app in HBv as [HBv _]|exact HBS].
    assert (HS : Solid Space t) by (rewrite <- E'; apply strip_solid; [apply space_class|congruence]).
    apply (strip_iff _ Space) in E' as (x & b & E2 & Hx & Hb); [|apply space_class|exact HS].
    exists a, (firstn (length sch) v), x, b. split; [rewrite <- E2, firstn_skipn; exact Eh|]. repeat (split; [assumption|]). split; [|split; [exact Hx|split; [exact Hb|exact HS]]].
    intros ->. destruct HS as ((d & t' & -> & Hd) & _). cbn [app] in E2. apply Hd. apply space_iff in ES.
    rewrite <- (firstn_skipn (length sch) v), app_nth2, firstn_length_le, Nat.sub_diag, E2 in ES; [exact ES|lia|]. rewrite firstn_length_le; lia.
  - intros (a' & s & w & b & E & Ha2 & Hs & Hw & Hw' & Hb & HS).
    assert (HT : t <> []) by (destruct HS as ((d & t' & -> & _) & _); discriminate). split; [|exact HT].
    rewrite Esc in Hs. destruct (same_head Space lower_space s c r Hs Hc) as (x & y & Ex & Hx). rewrite <- Esc in Hs.
    assert (Ev : v = s ++ w ++ t ++ b).
    { subst v. rewrite E. apply drop_if_app; [now apply (class_all _ Space); [apply space_class|]|]. intros z q Hz. rewrite Ex in Hz. cbn [app] in Hz. injection Hz as <- _. now apply (class_no _ Space); [apply space_class|]. }
    assert (EL : length sch = length s) by (symmetry; now apply same_length).
    assert (E' : (if (length v <? length sch + 2)%nat then [] else if negb (iequals (firstn (length sch) v) sch) then [] else if negb (ascii_is_space (nth (length sch) v 0)) then [] else strip ascii_is_space (skipn (length sch) v)) = t).
    { assert (HLw : (1 <= length w)%nat) by (destruct w; [congruence|cbn; lia]). assert (HLt : (1 <= length t)%nat) by (destruct t; [congruence|cbn; lia]).
      replace (length v <? length sch + 2)%nat with false by (symmetry; apply Nat.ltb_ge; rewrite Ev, !app_length, EL; lia).
      replace (firstn (length sch) v) with s by (rewrite EL, Ev, firstn_app, Nat.sub_diag, firstn_all, firstn_O; now rewrite app_nil_r).
      replace (iequals s sch) with true by (symmetry; apply iequals_spec; [rewrite E in HB; apply bytes_app in HB as [_ HB]; now apply bytes_app in HB as [HB _]|exact HBS|exact Hs]).
      cbn [negb]. destruct w as [|w0 w]; [congruence|].
      replace (nth (length sch) v 0) with w0 by (rewrite EL, Ev, app_nth2, Nat.sub_diag by lia; reflexivity).
      replace (ascii_is_space w0) with true by (symmetry; apply space_iff; now inversion Hw'). cbn [negb].
      replace (skipn (length sch) v) with ((w0 :: w) ++ t ++ b) by (rewrite EL, Ev, skipn_app, skipn_all, Nat.sub_diag; reflexivity).
      apply (strip_iff _ Space); [apply space_class|exact HS|]. now exists (w0 :: w), b. }
    destruct v as [|v0 v']; [|exact E']. rewrite Ex in Ev. discriminate Ev.
Qed.
(** No scheme, no tokens. *)
Theorem c139_no_scheme o h : ao_scheme o = [] -> extract_token_from_header o h = [].
Proof.
  intros E. unfold extract_token_from_header. destruct (drop_if_spec ascii_is_space h) as (a & Eh & Ha & Hv). destruct (drop_if ascii_is_space h) as [|c v]; [reflexivity|]. rewrite E. cbn [length].
  destruct (Nat.ltb_spec (S (length v)) (0 + 2)); [reflexivity|]. cbn [firstn nth]. destruct (negb (iequals [] [])); [reflexivity|]. now rewrite (Hv c v eq_refl).
Qed.
