(** strip_html_tags, escape_sql_like, and what a rule changes: C128, C131, C132. *)
From Verif Require Import Base UtilModel UtilSpec UtilProofs ValJson SanModel SanSpec SanProps.
Local Open Scope N_scope.

(** ** strip_html_tags *)
Lemma part_all s : Part s [].
Proof. induction s; constructor; assumption. Qed.
Lemma after_quote_part q s : exists a, s = a ++ after_quote q s.
Proof. induction s as [|c s [a IH]]; cbn [after_quote]; [now exists []|]. destruct (c =? q); [now exists [c]|]. exists (c :: a). cbn. congruence. Qed.
Lemma after_quote_length q s : (length (after_quote q s) <= length s)%nat.
Proof. destruct (after_quote_part q s) as [a E]. rewrite E at 2. rewrite app_length. lia. Qed.
Lemma part_app a s t : Part s t -> Part (a ++ s) t.
Proof. intros H. induction a; cbn; [exact H|]. now apply part_drop. Qed.
(** the octet before is a '<' when the state is TagStart *)
Lemma strip_part : forall f st s, match st with TagStart => Part (60 :: s) (strip f st s) | _ => Part s (strip f st s) end.
Proof.
  induction f as [|f IH]; intros st s; cbn [strip]; [destruct st; try apply part_all|].
  destruct s as [|c r]; [destruct st; try apply part_all|]. destruct st.
  - destruct (c =? 60) eqn:E; [apply N.eqb_eq in E; subst; exact (IH TagStart r)|]. apply part_keep. exact (IH Text r).
  - destruct (c =? 33); [|destruct ((c =? 47) || ascii_is_alnum c)].
    + assert (HD : Part (60 :: c :: r) (strip f InTag r)) by (do 2 apply part_drop; exact (IH InTag r)).
      destruct r as [|x [|y r']]; try exact HD. { destruct x as [|[| | ]]; try exact HD; repeat (destruct p; try exact HD). }
      destruct (N.eq_dec x 45) as [->|Hx]; [destruct (N.eq_dec y 45) as [->|Hy]|].
      * do 4 apply part_drop. exact (IH Comment r').
      * destruct y as [|p]; [exact HD|]. repeat (destruct p; try exact HD). congruence.
      * destruct x as [|p]; [exact HD|]. repeat (destruct p; try exact HD). congruence.
    + do 2 apply part_drop. exact (IH InTag r).
    + do 2 apply part_keep. exact (IH Text r).
  - destruct ((c =? 34) || (c =? 39)).
    + apply part_drop. destruct (after_quote_part c r) as [a E]. rewrite E at 1. apply part_app. exact (IH InTag _).
    + destruct (c =? 62); apply part_drop; [exact (IH Text r)|exact (IH InTag r)].
  - assert (HD : Part (c :: r) (strip f Comment r)) by (apply part_drop; exact (IH Comment r)). destruct r as [|x r']; [exact HD|].
    destruct (N.eq_dec x 45) as [->|Hx]; [destruct (c =? 45); [do 2 apply part_drop; exact (IH CommentEnd r')|exact HD]|].
    destruct x as [|p]; [exact HD|]. repeat (destruct p; try exact HD). congruence.
  - destruct (c =? 62); [|destruct (negb (c =? 45))]; apply part_drop; [exact (IH Text r)|exact (IH Comment r)|exact (IH CommentEnd r)].
Qed.
(** C131: what is left is part of the text. *)
Theorem c131_part s : Part s (strip_html_tags s).
Proof. exact (strip_part (length s) Text s). Qed.
Lemma strip_fuel : forall f g st s, (length s <= f)%nat -> (length s <= g)%nat -> strip f st s = strip g st s.
Proof.
  induction f as [|f IH]; intros g st s H1 H2; [destruct s; [|cbn in H1; lia]; destruct g, st; reflexivity|].
  destruct s as [|c r]; [destruct g, st; reflexivity|]. destruct g as [|g]; [cbn in H2; lia|]. cbn [length] in H1, H2.
  assert (HR : forall st, strip f st r = strip g st r) by (intros; apply IH; lia). cbn [strip]. destruct st.
  - rewrite !HR. reflexivity.
  - rewrite !HR. destruct (c =? 33); [|reflexivity]. destruct r as [|x [|y r']]; try reflexivity. cbn [length] in *. rewrite (IH g Comment r'); [reflexivity|lia|lia].
  - rewrite !HR. rewrite (IH g InTag (after_quote c r)); [reflexivity| |]; pose proof (after_quote_length c r); lia.
  - rewrite !HR. destruct r as [|x r']; try reflexivity. cbn [length] in *. rewrite (IH g CommentEnd r'); [reflexivity|lia|lia].
  - rewrite !HR. reflexivity.
Qed.
Lemma strip_text f a s : ~ In 60 a -> (length (a ++ s) <= f)%nat -> strip f Text (a ++ s) = a ++ strip f Text s.
Proof.
  intros Ha. revert f. induction a as [|c a IH]; intros f Hf; [reflexivity|]. cbn [app] in *. destruct f as [|f]; [cbn in Hf; lia|]. cbn [length] in Hf.
  rewrite (strip_fuel (S f) f Text s) by (rewrite app_length in Hf; lia). cbn [strip].
  destruct (c =? 60) eqn:E; [apply N.eqb_eq in E; subst; exfalso; apply Ha; now left|]. rewrite IH; [reflexivity|intros H; apply Ha; now right|lia].
Qed.
(** C131: a text without '<' stays as it is. *)
Theorem c131_plain s : ~ In 60 s -> strip_html_tags s = s.
Proof. intros H. unfold strip_html_tags. rewrite <- (app_nil_r s) at 2. rewrite (strip_text _ s []); [|exact H|now rewrite app_nil_r]. destruct (length s); cbn; now rewrite app_nil_r. Qed.

(** the inside of a tag: quoted values may hold anything but the quote *)
Inductive Inside : list N -> Prop :=
| in_nil : Inside []
| in_char c s : c <> 62 -> c <> 34 -> c <> 39 -> Inside s -> Inside (c :: s)
| in_quoted q v s : q = 34 \/ q = 39 -> ~ In q v -> Inside s -> Inside (q :: v ++ q :: s).
Lemma after_quote_app q v s : ~ In q v -> after_quote q (v ++ q :: s) = s.
Proof. induction v as [|c v IH]; intros H; cbn [app after_quote]; [now rewrite N.eqb_refl|]. destruct (c =? q) eqn:E; [apply N.eqb_eq in E; subst; exfalso; apply H; now left|]. apply IH. intros HI. apply H. now right. Qed.
Lemma strip_inside body : Inside body -> forall f s, (length (body ++ s) <= f)%nat -> strip f InTag (body ++ s) = strip f InTag s.
Proof.
  induction 1 as [|c b H1 H2 H3 HB IH|q v b Hq Hv HB IH]; intros f s Hf; [reflexivity| |].
  - cbn [app] in *. destruct f as [|f]; [cbn in Hf; lia|]. cbn [length] in Hf.
    rewrite (strip_fuel (S f) f InTag s) by (rewrite app_length in Hf; lia). cbn [strip].
    destruct ((c =? 34) || (c =? 39)) eqn:E1; [lia|]. destruct (c =? 62) eqn:E2; [lia|]. apply IH. lia.
  - cbn [app] in *. destruct f as [|f]; [cbn in Hf; lia|]. rewrite <- app_assoc in *. cbn [app length] in *. rewrite app_length in Hf. cbn [length] in Hf.
    rewrite (strip_fuel (S f) f InTag s) by (rewrite app_length in Hf; lia). cbn [strip].
    destruct ((q =? 34) || (q =? 39)) eqn:E1; [|lia]. rewrite after_quote_app; [|exact Hv]. apply IH. lia.
Qed.
Definition Opens (c : N) : Prop := c = 47 \/ Alnum c.
Lemma opens_iff c : (c =? 47) || ascii_is_alnum c = true <-> Opens c.
Proof. rewrite orb_true_iff, N.eqb_eq, alnum_iff. reflexivity. Qed.
Lemma opens_not c : Opens c -> (c =? 33) = false /\ (c =? 60) = false.
Proof. unfold Opens, Alnum. lia. Qed.
(** C131: tags are removed, with whatever quoted values they have. *)
Theorem c131_tag a c body b : ~ In 60 a -> Opens c -> Inside body -> strip_html_tags (a ++ [60; c] ++ body ++ [62] ++ b) = a ++ strip_html_tags b.
Proof.
  intros Ha Hc Hb. unfold strip_html_tags. rewrite strip_text; [|exact Ha|lia]. f_equal.
  set (n := length (a ++ [60; c] ++ body ++ [62] ++ b)). assert (Hn : (S (S (S (length body + length b))) <= n)%nat) by (subst n; rewrite !app_length; cbn [length]; lia). clearbody n.
  destruct n as [|[|n]]; [lia|lia|]. cbn [app strip]. change (60 =? 60) with true. cbv iota. pose proof (opens_not c Hc) as [E1 _]. rewrite E1. rewrite (proj2 (opens_iff c) Hc).
  rewrite (strip_inside body Hb n (62 :: b)); [|rewrite app_length; cbn [length]; lia]. destruct n as [|n]; [lia|]. cbn [strip].
  change ((62 =? 34) || (62 =? 39)) with false. change (62 =? 62) with true. cbv iota. apply strip_fuel; lia.
Qed.
(** C131: a tag that does not end is dropped with all that follows. *)
Theorem c131_unterminated a c body : ~ In 60 a -> Opens c -> Inside body -> strip_html_tags (a ++ [60; c] ++ body) = a.
Proof.
  intros Ha Hc Hb. unfold strip_html_tags. rewrite strip_text; [|exact Ha|lia]. etransitivity; [|apply app_nil_r]. f_equal.
  set (n := length (a ++ [60; c] ++ body)). assert (Hn : (S (S (length body)) <= n)%nat) by (subst n; rewrite !app_length; cbn [length]; lia). clearbody n.
  destruct n as [|[|n]]; [lia|lia|]. cbn [app strip]. change (60 =? 60) with true. cbv iota. pose proof (opens_not c Hc) as [E1 _]. rewrite E1. rewrite (proj2 (opens_iff c) Hc).
  pose proof (strip_inside body Hb n [] ltac:(rewrite app_nil_r; lia)) as H. rewrite app_nil_r in H. rewrite H. destruct n; reflexivity.
Qed.
(** C131: comments are removed. *)
Theorem c131_comment a body b : ~ In 60 a -> (forall x y, body ++ [45] <> x ++ [45; 45] ++ y) -> strip_html_tags (a ++ [60; 33; 45; 45] ++ body ++ [45; 45; 62] ++ b) = a ++ strip_html_tags b.
Proof.
  intros Ha Hb. unfold strip_html_tags. rewrite strip_text; [|exact Ha|lia]. f_equal.
  set (n := length (a ++ [60; 33; 45; 45] ++ body ++ [45; 45; 62] ++ b)). assert (Hn : (S (S (length body + S (S (S (length b))))) <= n)%nat) by (subst n; rewrite !app_length; cbn [length]; lia). clearbody n.
  destruct n as [|[|n]]; [lia|lia|]. cbn [app strip]. change (60 =? 60) with true. change (33 =? 33) with true. cbv iota.
  assert (H : forall body, (forall x y, body ++ [45] <> x ++ [45; 45] ++ y) -> forall n, (length body + S (S (S (length b))) <= n)%nat -> strip n Comment (body ++ 45 :: 45 :: 62 :: b) = strip (length b) Text b).
  { clear. induction body as [|c body IH]; intros Hb n Hn.
    - destruct n as [|[|n]]; [cbn in Hn; lia|cbn in Hn; lia|]. cbn [app strip]. change (45 =? 45) with true. cbv iota. cbn [strip]. change (62 =? 62) with true. cbv iota. apply strip_fuel; cbn in Hn; lia.
    - destruct n as [|n]; [cbn in Hn; lia|]. cbn [length] in Hn.
      assert (HB : forall x y, body ++ [45] <> x ++ [45; 45] ++ y) by (intros x y E; apply (Hb (c :: x) y); cbn; cbn in E; now rewrite E).
      assert (HI := IH HB n ltac:(lia)). cbn [app strip]. destruct (body ++ 45 :: 45 :: 62 :: b) as [|x r] eqn:ER; [destruct body; discriminate ER|].
      destruct (N.eq_dec x 45) as [->|Hx].
      + destruct (c =? 45) eqn:EC; [|exact HI]. exfalso. apply N.eqb_eq in EC. subst c. destruct body as [|d body].
        * now apply (Hb [] []).
        * injection ER as -> _. now apply (Hb [] (body ++ [45])).
      + destruct x as [|p]; [exact HI|]. repeat (destruct p; try exact HI). congruence. }
  apply H; [exact Hb|lia].
Qed.
(** C131: unless the text has two '<' in a row, no '<' that is left is followed by a letter, a digit, '/' or '!', and none is the last octet. *)
Inductive Harmless : list N -> Prop :=
| harm_nil : Harmless []
| harm_char c s : c <> 60 -> Harmless s -> Harmless (c :: s)
| harm_lt c s : c <> 60 -> c <> 33 -> ~ Opens c -> Harmless s -> Harmless (60 :: c :: s).
Definition NoDouble (s : list N) : Prop := forall x y, s <> x ++ [60; 60] ++ y.
Lemma nodouble_tail a s : NoDouble (a ++ s) -> NoDouble s.
Proof. intros H x y E. apply (H (a ++ x) y). now rewrite E, app_assoc. Qed.
Lemma strip_harmless : forall f st s, match st with TagStart => NoDouble (60 :: s) | _ => NoDouble s end -> Harmless (strip f st s).
Proof.
  induction f as [|f IH]; intros st s H; cbn [strip]; [constructor|]. destruct s as [|c r]; [constructor|].
  assert (HR : forall x, NoDouble (x :: r) -> NoDouble r) by (intros x; apply (nodouble_tail [x])). destruct st.
  - destruct (c =? 60) eqn:E; [apply N.eqb_eq in E; subst; exact (IH TagStart r H)|]. apply harm_char; [lia|]. apply IH. exact (HR c H).
  - pose proof (nodouble_tail [60; c] r H) as Hr. destruct (c =? 33) eqn:E33; [|destruct ((c =? 47) || ascii_is_alnum c) eqn:EO].
    + pose proof (IH InTag r Hr) as HD. destruct r as [|x [|y r']]; try exact HD. { destruct x as [|p]; try exact HD; repeat (destruct p; try exact HD). }
      destruct (N.eq_dec x 45) as [->|Hx]; [destruct (N.eq_dec y 45) as [->|Hy]|].
      * exact (IH Comment r' (nodouble_tail [45; 45] r' Hr)).
      * destruct y as [|p]; [exact HD|]. repeat (destruct p; try exact HD). congruence.
      * destruct x as [|p]; [exact HD|]. repeat (destruct p; try exact HD). congruence.
    + exact (IH InTag r Hr).
    + apply harm_lt; [|lia| |exact (IH Text r Hr)].
      * intros ->. now apply (H [] r).
      * rewrite <- opens_iff. congruence.
  - pose proof (nodouble_tail [c] r H) as Hr. destruct ((c =? 34) || (c =? 39)).
    + apply IH. destruct (after_quote_part c r) as [a E]. rewrite E in Hr. exact (nodouble_tail a _ Hr).
    + destruct (c =? 62); now apply IH.
  - pose proof (nodouble_tail [c] r H) as Hr. pose proof (IH Comment r Hr) as HD. destruct r as [|x r']; [exact HD|].
    destruct (N.eq_dec x 45) as [->|Hx]; [destruct (c =? 45); [exact (IH CommentEnd r' (nodouble_tail [45] r' Hr))|exact HD]|].
    destruct x as [|p]; [exact HD|]. repeat (destruct p; try exact HD). congruence.
  - pose proof (nodouble_tail [c] r H) as Hr. destruct (c =? 62); [|destruct (negb (c =? 45))]; now apply IH.
Qed.
Lemma harmless_spec s : Harmless s -> forall x y, s = x ++ 60 :: y -> exists c r, y = c :: r /\ c <> 60 /\ c <> 33 /\ ~ Opens c.
Proof.
  induction 1 as [|c s H1 H IH|c s H1 H2 H3 H IH]; intros x y E.
  - destruct x; discriminate E.
  - destruct x as [|d x]; [injection E as -> _; congruence|]. injection E as _ E. now apply IH with x.
  - destruct x as [|d x]; [injection E as <-; now exists c, s|]. injection E as <- E. destruct x as [|d x]; [injection E as -> _; congruence|]. injection E as _ E. now apply IH with x.
Qed.
Theorem c131_no_tags s : (forall x y, s <> x ++ [60; 60] ++ y) -> forall x y, strip_html_tags s = x ++ 60 :: y -> exists c r, y = c :: r /\ c <> 33 /\ ~ Opens c.
Proof.
  intros H x y E. destruct (harmless_spec _ (strip_harmless (length s) Text s H) x y E) as (c & r & H1 & _ & H2 & H3). now exists c, r.
Qed.
(** not with two '<' in a row, as the header says *)
Theorem c131_double_refuted : strip_html_tags (str "<<img src=x onerror=alert(1)>") = str "<<img src=x onerror=alert(1)>".
Proof. vm_compute. reflexivity. Qed.
Example strip_ex : strip_html_tags (str "a<b title='x>y'>b</b><!-- <i> - -->c 1 < 2 <br") = str "abc 1 < 2 ".
Proof. vm_compute. reflexivity. Qed.

(** ** escape_sql_like *)
Lemma double_literal s : Literal (double_quotes s) s.
Proof. unfold double_quotes. induction s as [|c s IH]; cbn [flat_map]; [constructor|]. destruct (c =? 39) eqn:E; [apply N.eqb_eq in E; subst; now constructor|]. cbn. constructor; [lia|exact IH]. Qed.
Lemma literal_det t s : Literal t s -> forall s', Literal t s' -> s = s'.
Proof.
  induction 1 as [|t s H IH|c t s Hc H IH]; intros s' H'; inversion H'; subst; try reflexivity; try congruence; f_equal; now apply IH.
Qed.
Lemma wildcards_like s : ~ In 92 s -> forall x, Like (escape_wildcards s) x <-> x = s.
Proof.
  unfold escape_wildcards. induction s as [|c s IH]; intros H x; cbn [flat_map].
  - split; [intros HL; now inversion HL|intros ->; constructor].
  - assert (Hs : ~ In 92 s) by (intros HI; apply H; now right). assert (Hc : c <> 92) by (intros ->; apply H; now left). destruct ((c =? 37) || (c =? 95)) eqn:E; cbn [app].
    + split; [intros HL; inversion HL; subst|intros ->; constructor; now apply IH].
      * f_equal. now apply IH.
      * exfalso. cbn in *. tauto.
    + split.
      * intros HL. inversion HL; subst; try lia; try congruence. f_equal. now apply IH.
      * intros ->. apply like_plain; [cbn; lia|now apply IH].
Qed.
(** C132: as a literal in a LIKE pattern, the escaped text matches itself and nothing else, if it has no backslash. *)
Theorem c132_like s p : ~ In 92 s -> Literal (escape_sql_like s) p -> forall x, Like p x <-> x = s.
Proof.
  intros H HL x. rewrite (literal_det _ _ HL _ (double_literal _)). now apply wildcards_like.
Qed.
Theorem c132_literal s : exists p, Literal (escape_sql_like s) p.
Proof. eexists. apply double_literal. Qed.
(** a backslash makes the wildcard after it active again *)
Theorem c132_backslash_refuted : exists s p, Literal (escape_sql_like s) p /\ Like p (str "\anything at all") /\ s <> str "\anything at all".
Proof.
  exists [92; 37], [92; 92; 37]. split; [repeat constructor; discriminate|]. split; [|discriminate].
  change (str "\anything at all") with (92 :: (str "anything at all") ++ []). apply like_escaped. apply like_any. constructor.
Qed.

(** ** Paths *)
Lemma split_loop_app cur b parts k s : ~ In 91 k -> (b = false -> ~ In 46 k) -> (b = true -> ~ In 93 k) -> split_loop (k ++ s) cur b parts = split_loop s (cur ++ k) b parts.
Proof.
  intros H1 H2 H3. revert cur. induction k as [|c k IH]; intros cur; cbn [app split_loop]; [now rewrite app_nil_r|].
  assert (E2 : (c =? 91) = false) by (apply N.eqb_neq; intros ->; apply H1; now left).
  assert (E1 : (c =? 46) && negb b = false). { destruct b; [now rewrite andb_false_r|]. cbn. rewrite andb_true_r. apply N.eqb_neq. intros ->. apply (H2 eq_refl). now left. }
  assert (E3 : (c =? 93) && b = false). { destruct b; [|now rewrite andb_false_r]. rewrite andb_true_r. apply N.eqb_neq. intros ->. apply (H3 eq_refl). now left. }
  rewrite E1, E2, E3. rewrite IH; [|intros H; apply H1; now right|intros Hb H; apply (H2 Hb); now right|intros Hb H; apply (H3 Hb); now right].
  rewrite <- app_assoc. reflexivity.
Qed.
Lemma push_some k parts : k <> [] -> push k parts = parts ++ [k].
Proof. destruct k; [congruence|reflexivity]. Qed.
(** the state after a path: pending part and parts *)
Lemma split_prefix p segs : Path p segs -> exists cur parts, push cur parts = segs /\ forall s, split_loop (p ++ s) [] false [] = split_loop s cur false parts.
Proof.
  induction 1 as [k H1 H2 H3|p segs k HP (cur & parts & E & IH) H1 H2 H3|p segs k HP (cur & parts & E & IH) H1 H2 H3].
  - exists k, []. split; [now apply push_some|]. intros s. rewrite split_loop_app; [reflexivity|exact H3|easy|discriminate].
  - exists k, segs. split; [now apply push_some|]. intros s. rewrite <- !app_assoc. rewrite IH. cbn [app split_loop]. change ((46 =? 46) && negb false) with true. cbv iota. rewrite E.
    rewrite split_loop_app; [reflexivity|exact H3|easy|discriminate].
  - exists [], (segs ++ [k]). split; [reflexivity|]. intros s. rewrite <- !app_assoc. rewrite IH. cbn [app split_loop]. change ((91 =? 46) && negb false) with false. change (91 =? 91) with true. cbv iota. rewrite E.
    rewrite split_loop_app; [|exact H2|discriminate|easy]. cbn [app split_loop]. change ((93 =? 46) && negb true) with false. change (93 =? 91) with false. change ((93 =? 93) && true) with true. cbv iota.
    now rewrite push_some.
Qed.
Theorem c128_path p segs : Path p segs -> split_path p = segs.
Proof. intros H. destruct (split_prefix p segs H) as (cur & parts & E & HS). specialize (HS []). rewrite app_nil_r in HS. unfold split_path. rewrite HS. exact E. Qed.
Example path_ex : split_path (str "user.tags[*].name[0]") = map str ["user"; "tags"; "*"; "name"; "0"]%string.
Proof. vm_compute. reflexivity. Qed.
