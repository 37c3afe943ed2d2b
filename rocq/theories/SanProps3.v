(** What the rules of a sanitizer change in a JSON value: C128. *)
From Verif Require Import Base UtilModel UtilSpec UtilProofs ValJson SanModel SanSpec SanProps SanProps2.
Local Open Scope N_scope.

(** What may be found at a place after a rule, given what was there. *)
Definition After (f : list N -> option (list N)) (named : Prop) (x x' : option json) : Prop :=
  match x with
  | None => x' = None
  | Some (JStr s) => (named -> exists t, f s = Some t /\ x' = Some (JStr t)) /\ (~ named -> x' = Some (JStr s))
  | Some (JArr l) => exists l', x' = Some (JArr l') /\ length l' = length l
  | Some (JObj m) => exists m', x' = Some (JObj m') /\ map fst m' = map fst m
  | Some y => x' = Some y
  end.
Lemma after_same f named x : (forall s, x = Some (JStr s) -> ~ named) -> After f named x x.
Proof.
  intros H. unfold After. destruct x as [[| | | | |s|l|m]|]; try reflexivity; [|now exists l|now exists m]. split; [intros HN; now destruct (H s eq_refl)|reflexivity].
Qed.
Lemma after_iff f (P Q : Prop) x x' : (P <-> Q) -> After f P x x' -> After f Q x x'.
Proof. intros H. unfold After. destruct x as [[| | | | |s|l|m]|]; tauto. Qed.

Lemma update_lookup {A} (k : list N) (g : A -> option A) : forall m m',
  update (fun e => beq (fst e) k) (fun e => match g (snd e) with Some y => Some (fst e, y) | None => None end) m = Some m' ->
  map fst m' = map fst m /\ (forall x, lookup k m = Some x -> exists y, g x = Some y /\ lookup k m' = Some y) /\ (lookup k m = None -> lookup k m' = None) /\
  (forall k', k' <> k -> lookup k' m' = lookup k' m).
Proof.
  unfold lookup. induction m as [|[n x] m IH]; intros m' H; cbn [update] in H.
  - injection H as <-. split; [reflexivity|]. split; [intros x E; discriminate E|]. split; reflexivity.
  - cbn [fst snd] in H. cbn [find fst]. destruct (beq n k) eqn:E.
    + destruct (g x) as [y|] eqn:EG; [|discriminate H]. injection H as <-. cbn [map fst find]. rewrite E. cbn [snd]. split; [reflexivity|].
      split; [intros z Ez; injection Ez as <-; now exists y|]. split; [intros HN; discriminate HN|]. intros k' Hk. apply beq_eq in E. subst n.
      destruct (beq k k') eqn:EK; [apply beq_eq in EK; congruence|reflexivity].
    + destruct (update _ _ m) as [r|] eqn:EU; [|discriminate H]. injection H as <-. destruct (IH r eq_refl) as (H1 & H2 & H3 & H4).
      cbn [map fst find]. rewrite E. split; [now rewrite H1|]. split; [exact H2|]. split; [exact H3|]. intros k' Hk. destruct (beq n k'); [reflexivity|now apply H4].
Qed.
Lemma map_opt_nth {A B} (g : A -> option B) : forall l l', map_opt g l = Some l' ->
  length l' = length l /\ (forall i x, nth_error l i = Some x -> exists y, g x = Some y /\ nth_error l' i = Some y) /\ (forall i, nth_error l i = None -> nth_error l' i = None).
Proof.
  induction l as [|x l IH]; intros l' H; cbn [map_opt] in H.
  - injection H as <-. split; [reflexivity|]. split; [intros [|i] x E; discriminate E|intros [|i] _; reflexivity].
  - destruct (g x) as [y|] eqn:EG; [|discriminate H]. destruct (map_opt g l) as [r|] eqn:EM; [|discriminate H]. injection H as <-. destruct (IH r eq_refl) as (H1 & H2 & H3).
    split; [cbn; now rewrite H1|]. split; [intros [|i] z Ez; [injection Ez as <-; now exists y|now apply H2]|]. intros [|i] E; [discriminate E|now apply H3].
Qed.
Lemma update_at_nth {A} (g : A -> option A) : forall l i l', update_at i g l = Some l' ->
  length l' = length l /\ (forall x, nth_error l i = Some x -> exists y, g x = Some y /\ nth_error l' i = Some y) /\ (nth_error l i = None -> nth_error l' i = None) /\
  (forall k, k <> i -> nth_error l' k = nth_error l k).
Proof.
  induction l as [|x l IH]; intros i l' H; cbn [update_at] in H.
  - injection H as <-. split; [reflexivity|]. split; [intros x E; destruct i; discriminate E|]. split; [intros _; destruct i; reflexivity|reflexivity].
  - destruct i as [|i].
    + destruct (g x) as [y|] eqn:EG; [|discriminate H]. injection H as <-. split; [reflexivity|]. split; [intros z Ez; injection Ez as <-; now exists y|]. split; [intros E; discriminate E|].
      intros [|k] Hk; [congruence|reflexivity].
    + destruct (update_at i g l) as [r|] eqn:EU; [|discriminate H]. injection H as <-. destruct (IH i r EU) as (H1 & H2 & H3 & H4). split; [cbn; now rewrite H1|]. split; [exact H2|]. split; [exact H3|].
      intros [|k] Hk; [reflexivity|]. cbn. apply H4. congruence.
Qed.

Section Rules.
Variable number : list N -> option N.

(** C128: a rule changes exactly the strings its path names; everything else, and the shape, stays. *)
Theorem c128_rule f : forall segs j j', traverse_and_apply number f segs j = Some j' -> forall loc, After f (Names number segs loc) (at_ loc j) (at_ loc j').
Proof.
  induction segs as [|seg segs IH]; intros j j' H loc; cbn [traverse_and_apply] in H.
  - assert (HN : forall s l, ~ Names number [] (s :: l)) by (intros s l HX; inversion HX).
    destruct j as [| | | | |s|l|m]; try (injection H as <-; apply after_same; intros x E HX; destruct loc as [|st loc]; [discriminate E|now apply HN in HX]).
    destruct (f s) as [t|] eqn:EF; [|discriminate H]. injection H as <-. destruct loc as [|st loc]; cbn [at_].
    + cbn [After]. split; [intros _; now exists t|]. intros HX. destruct HX. constructor.
    + destruct st; reflexivity.
  - assert (HS : forall x, (forall s, at_ loc x = Some (JStr s) -> ~ Names number (seg :: segs) loc) -> After f (Names number (seg :: segs) loc) (at_ loc x) (at_ loc x)) by (intros x HX; now apply after_same).
    destruct j as [| | | | |s|l|m]; try (injection H as <-; apply HS; destruct loc as [|[k|i] loc]; intros x E HX; try discriminate E; inversion HX).
    + (* arrays *)
      destruct loc as [|[k|i] loc].
      * destruct (beq seg (str "*")).
        { destruct (map_opt _ l) as [l'|] eqn:EM; [|discriminate H]. injection H as <-. apply map_opt_nth in EM as (H1 & _). cbn. now exists l'. }
        destruct (number seg) as [i|]; [|injection H as <-; cbn; now exists l]. destruct (i <? N.of_nat (length l)); [|injection H as <-; cbn; now exists l].
        destruct (update_at _ _ l) as [l'|] eqn:EU; [|discriminate H]. injection H as <-. apply update_at_nth in EU as (H1 & _). cbn. now exists l'.
      * assert (HJ : exists l', j' = JArr l').
        { destruct (beq seg (str "*")); [destruct (map_opt _ l) as [l'|]; [|discriminate H]; injection H as <-; now exists l'|].
          destruct (number seg) as [i|]; [|injection H as <-; now exists l]. destruct (i <? N.of_nat (length l)); [|injection H as <-; now exists l].
          destruct (update_at _ _ l) as [l'|]; [|discriminate H]. injection H as <-. now exists l'. }
        destruct HJ as [l' ->]. reflexivity.
      * destruct (beq seg (str "*")) eqn:EB.
        { apply beq_eq in EB. subst seg. destruct (map_opt _ l) as [l'|] eqn:EM; [|discriminate H]. injection H as <-. apply map_opt_nth in EM as (_ & H2 & H3). cbn [at_].
          destruct (nth_error l i) as [x|] eqn:EN; [|rewrite (H3 i EN); reflexivity]. destruct (H2 i x EN) as (y & Hy & ->). apply (IH x y) with (loc := loc) in Hy.
          eapply after_iff; [|exact Hy]. split; [now apply n_all|]. intros HX. inversion HX; subst; [assumption|congruence]. }
        apply beq_neq in EB.
        assert (HNI : number seg <> Some (N.of_nat i) -> ~ Names number (seg :: segs) (Idx i :: loc)) by (intros HX HY; inversion HY; subst; congruence).
        destruct (number seg) as [n|] eqn:En; [|injection H as <-; apply HS; intros; apply HNI; discriminate].
        destruct (n <? N.of_nat (length l)) eqn:EL.
        -- destruct (update_at _ _ l) as [l'|] eqn:EU; [|discriminate H]. injection H as <-. apply update_at_nth in EU as (_ & H2 & H3 & H4). cbn [at_].
           destruct (Nat.eq_dec i (N.to_nat n)) as [Ei|Ei].
           ++ rewrite <- Ei in *. destruct (nth_error l i) as [x|] eqn:EN; [|rewrite (H3 eq_refl); reflexivity]. destruct (H2 x eq_refl) as (y & Hy & ->). apply (IH x y) with (loc := loc) in Hy.
              eapply after_iff; [|exact Hy]. split; [intros HX; apply n_item; [exact EB| |exact HX]; rewrite En; f_equal; lia|]. intros HX. inversion HX; subst; [congruence|assumption].
           ++ rewrite (H4 i Ei). change (After f (Names number (seg :: segs) (Idx i :: loc)) (at_ (Idx i :: loc) (JArr l)) (at_ (Idx i :: loc) (JArr l))). apply HS. intros _ _. apply HNI. intros EX. injection EX as ->. lia.
        -- injection H as <-. apply HS. intros s Es. apply HNI. intros EX. injection EX as ->. cbn [at_] in Es. destruct (nth_error l i) eqn:EN; [|discriminate Es].
           assert (i < length l)%nat by (apply nth_error_Some; congruence). lia.
    + (* objects *)
      destruct (update _ _ m) as [m'|] eqn:EU; [|discriminate H]. injection H as <-. apply update_lookup in EU as (H1 & H2 & H3 & H4).
      destruct loc as [|[k|i] loc]; cbn [at_]; [now exists m'| |reflexivity].
      destruct (list_eq_dec N.eq_dec k seg) as [->|Hk].
      * destruct (lookup seg m) as [x|] eqn:EL; [|rewrite (H3 eq_refl); reflexivity]. destruct (H2 x eq_refl) as (y & Hy & ->). apply (IH x y) with (loc := loc) in Hy.
        eapply after_iff; [|exact Hy]. split; [now apply n_key|]. intros HX. now inversion HX.
      * rewrite (H4 k Hk). change (After f (Names number (seg :: segs) (Key k :: loc)) (at_ (Key k :: loc) (JObj m)) (at_ (Key k :: loc) (JObj m))). apply HS. intros s Es HX. inversion HX; congruence.
Qed.

(** what all the rules together make of a string at a place *)
Inductive Applied : list (list N * list (list N -> option (list N))) -> list step -> list N -> list N -> Prop :=
| ap_nil loc s : Applied [] loc s s
| ap_use path fs rules loc s t u : split_path path <> [] -> Names number (split_path path) loc -> chain fs s = Some t -> Applied rules loc t u -> Applied ((path, fs) :: rules) loc s u
| ap_skip path fs rules loc s u : ~ (split_path path <> [] /\ Names number (split_path path) loc) -> Applied rules loc s u -> Applied ((path, fs) :: rules) loc s u.
Lemma names_dec segs : forall loc, Names number segs loc \/ ~ Names number segs loc.
Proof.
  induction segs as [|k segs IH]; intros loc; [destruct loc; [left; constructor|right; intros H; inversion H]|].
  destruct loc as [|[n|i] loc]; [right; intros H; inversion H| |].
  - destruct (list_eq_dec N.eq_dec n k) as [->|Hn]; [|right; intros H; inversion H; congruence]. destruct (IH loc) as [H|H]; [left; now constructor|right; intros HX; inversion HX; subst; contradiction].
  - destruct (IH loc) as [H|H]; [|right; intros HX; inversion HX; subst; contradiction]. destruct (list_eq_dec N.eq_dec k (str "*")) as [->|Hk]; [left; now apply n_all|].
    destruct (number k) as [m|] eqn:E; [|right; intros HX; inversion HX; subst; congruence]. destruct (N.eq_dec m (N.of_nat i)) as [->|Hm]; [left; now apply n_item|].
    right. intros HX. inversion HX; subst; congruence.
Qed.
(** C128, for a whole sanitizer: strings end as the functions of the rules that name their place make them, other values do not change. *)
Theorem c128_sanitize : forall rules j j', sanitize number rules j = Some j' -> forall loc x, at_ loc j = Some x ->
  match x with
  | JStr s => exists t, at_ loc j' = Some (JStr t) /\ Applied rules loc s t
  | JArr l => exists l', at_ loc j' = Some (JArr l') /\ length l' = length l
  | JObj m => exists m', at_ loc j' = Some (JObj m') /\ map fst m' = map fst m
  | _ => at_ loc j' = Some x
  end.
Proof.
  induction rules as [|[path fs] rules IH]; intros j j' H loc x Hx; cbn [sanitize] in H.
  - injection H as <-. destruct x; try exact Hx; [exists s; split; [exact Hx|constructor]|now exists l|now exists l].
  - assert (HSK : sanitize number rules j = Some j' -> (fs = [] \/ split_path path = []) ->
      match x with JStr s => exists t, at_ loc j' = Some (JStr t) /\ Applied ((path, fs) :: rules) loc s t | JArr l => exists l', at_ loc j' = Some (JArr l') /\ length l' = length l
      | JObj m => exists m', at_ loc j' = Some (JObj m') /\ map fst m' = map fst m | _ => at_ loc j' = Some x end).
    { intros HS HE. pose proof (IH j j' HS loc x Hx) as HI. destruct x; try exact HI. destruct HI as (t & H1 & H2). exists t. split; [exact H1|]. destruct HE as [->|HE].
      - destruct (names_dec (split_path path) loc) as [HN|HN]; [|apply ap_skip; tauto]. destruct (split_path path) eqn:EP; [apply ap_skip; [rewrite EP; tauto|exact H2]|].
        apply ap_use with s; [rewrite EP; discriminate|now rewrite EP|reflexivity|exact H2].
      - apply ap_skip; [rewrite HE; tauto|exact H2]. }
    destruct fs as [|f0 fs]; [apply HSK; [exact H|now left]|]. destruct (split_path path) as [|g segs] eqn:EP; [apply HSK; [exact H|now right]|]. clear HSK.
    destruct (traverse_and_apply number (chain (f0 :: fs)) (g :: segs) j) as [j1|] eqn:ET; [|discriminate H].
    pose proof (c128_rule _ _ _ _ ET loc) as HA. rewrite Hx in HA. specialize (IH j1 j' H loc). rewrite <- EP in *.
    destruct x; cbn [After] in HA; try exact (IH _ HA).
    + destruct HA as [H1 H2]. destruct (names_dec (split_path path) loc) as [HN|HN].
      * destruct (H1 HN) as (t & Ht & Et). destruct (IH _ Et) as (u & Hu & HP). exists u. split; [exact Hu|]. apply ap_use with t; try assumption. rewrite EP. discriminate.
      * destruct (IH _ (H2 HN)) as (u & Hu & HP). exists u. split; [exact Hu|]. apply ap_skip; [tauto|exact HP].
    + destruct HA as (l1 & E1 & L1). destruct (IH _ E1) as (l2 & E2 & L2). exists l2. split; [exact E2|congruence].
    + destruct HA as (l1 & E1 & L1). destruct (IH _ E1) as (l2 & E2 & L2). exists l2. split; [exact E2|congruence].
Qed.
End Rules.

(** an instance *)
Definition number1 (s : list N) : option N := if beq s (str "0") then Some 0 else if beq s (str "1") then Some 1 else None.
Definition total (f : list N -> list N) (s : list N) : option (list N) := Some (f s).
Definition doc : json := JObj [(str "name", JStr (str "  Bob ")); (str "tags", JArr [JStr (str "<b>A</b>"); JStr (str "B"); JUint 3]); (str "n", JUint 1)].
Example sanitize_ex : sanitize number1 [(str "name", [total trim; total to_upper_case]); (str "tags[*]", [total strip_html_tags]); (str "tags[1]", [total to_lower_case]); (str "n", [total trim])] doc
  = Some (JObj [(str "name", JStr (str "BOB")); (str "tags", JArr [JStr (str "A"); JStr (str "b"); JUint 3]); (str "n", JUint 1)]).
Proof. vm_compute. reflexivity. Qed.
