From Verif Require Import Base UtilModel UtilProofs UtilSpec UtilProps FormModel FormSpec.
From Coq Require Import Permutation.
Local Open Scope N_scope.

Lemma index_some c s e : index_of c s = Some e -> exists b, s = firstn e s ++ c :: b /\ ~ In c (firstn e s) /\ skipn (S e) s = b.
Proof.
  revert e. induction s as [|x r IH]; intros e H; [discriminate|]. cbn in H. destruct (N.eqb_spec x c) as [->|D].
  - injection H as <-. exists r. cbn. auto.
  - destruct (index_of c r) as [n|] eqn:Q; [|discriminate]. injection H as <-. destruct (IH n eq_refl) as (b & E & I & K).
    exists b. cbn [firstn skipn app]. split; [f_equal; exact E|]. split; [|exact K]. intros [X|X]; [auto|auto].
Qed.
Lemma index_none c s : index_of c s = None <-> ~ In c s.
Proof.
  induction s as [|x r IH]; cbn; [tauto|]. destruct (N.eqb_spec x c) as [->|D]; [split; [discriminate|tauto]|].
  destruct (index_of c r) as [n|]; split; intro H; try discriminate; [|tauto|reflexivity].
  exfalso. destruct IH as [_ IH]. assert (X : Some n = None) by (apply IH; intro I; apply H; now right). discriminate.
Qed.
Lemma index_app c a b : ~ In c a -> index_of c (a ++ c :: b) = Some (length a).
Proof.
  induction a as [|x a IH]; cbn; intro H; [now rewrite N.eqb_refl|]. destruct (N.eqb_spec x c); [exfalso; auto|]. rewrite IH; auto.
Qed.
Lemma beq_no a b : a <> b -> beq a b = false.
Proof. apply beq_neq. Qed.
Lemma get_add k v n f : form_get n (form_add k v f) = form_get n f ++ (if list_eq_dec N.eq_dec k n then [v] else []).
Proof.
  induction f as [|[m vs] r IH]; cbn [form_add form_get].
  - destruct (list_eq_dec N.eq_dec k n) as [->|D]; [now rewrite beq_refl|]. rewrite beq_no; auto.
  - destruct (beq m k) eqn:Q.
    + apply beq_eq in Q. subst m. cbn [form_get]. destruct (list_eq_dec N.eq_dec k n) as [->|D]; [now rewrite beq_refl|].
      rewrite beq_no by auto. now rewrite app_nil_r.
    + cbn [form_get]. destruct (beq m n) eqn:W; [|exact IH]. apply beq_eq in W. subst m.
      destruct (list_eq_dec N.eq_dec k n) as [->|D]; [now rewrite beq_refl in Q|now rewrite app_nil_r].
Qed.
Definition build (l : list (list N * list N)) (f : form) : form := fold_left (fun f p => form_add (fst p) (snd p) f) l f.
Lemma get_build k l : forall f, form_get k (build l f) = form_get k f ++ submitted k l.
Proof.
  induction l as [|[n v] l IH]; intro f; unfold submitted in *; cbn [build fold_left]; [now rewrite app_nil_r|].
  change (fold_left _ l _) with (build l (form_add n v f)). rewrite IH, get_add, <- app_assoc. cbn [filter fst].
  destruct (list_eq_dec N.eq_dec n k); reflexivity.
Qed.

Lemma first_at (x : N) a : forall b s t, ~ In x a -> ~ In x b -> a ++ x :: s = b ++ x :: t -> a = b /\ s = t.
Proof.
  induction a as [|c a IH]; intros [|d b] s t A B E; cbn in E; injection E.
  - auto.
  - intros _ ->. destruct B. now left.
  - intros _ ->. destruct A. now left.
  - intros E' ->. destruct (IH b s t) as [-> ->]; auto; intro I; [apply A|apply B]; now right.
Qed.

(** C152, first half: a form answers with what was added, in order. *)
Theorem c152_form : forall l k, form_get k (build l []) = submitted k l /\
  form_get_first k (build l []) = match submitted k l with [] => None | v :: _ => Some v end.
Proof. intros l k. unfold form_get_first. rewrite get_build. cbn [form_get app]. split; [reflexivity|]. now destruct (submitted k l). Qed.
Print Assumptions c152_form.

Section Uri.
Variable decode : list N -> list N.
Hypothesis D0 : decode [] = [].
Lemma read_pair_eq p n v f : Pair p n v -> read_pair decode p f = match decode n with [] => f | _ => form_add (decode n) (decode v) f end.
Proof.
  intro H. unfold read_pair. inversion H; subst.
  - rewrite index_app by assumption. rewrite firstn_app, Nat.sub_diag, firstn_O, app_nil_r, firstn_all.
    replace (skipn (S (length n)) (n ++ 61 :: v)) with v; [reflexivity|].
    clear. induction n; [reflexivity|]. cbn [length app skipn]. exact IHn.
  - match goal with K : ~ In 61 _ |- _ => apply index_none in K; rewrite K end. rewrite D0. reflexivity.
Qed.
Lemma pair_total p : exists n v, Pair p n v.
Proof.
  destruct (index_of 61 p) as [e|] eqn:Q.
  - destruct (index_some _ _ _ Q) as (b & E & I & _). exists (firstn e p), b. rewrite E at 1. now constructor.
  - apply index_none in Q. exists p, []. now constructor.
Qed.
Lemma denotes_total ps : exists l, Denotes decode ps l.
Proof.
  induction ps as [|p ps [l IH]]; [exists []; constructor|]. destruct (pair_total p) as (n & v & H).
  destruct (list_eq_dec N.eq_dec (decode n) []) as [E|E]; [exists l; econstructor; eauto|].
  exists ((decode n, decode v) :: l). eapply Den_take; eauto.
Qed.
Lemma cut_total s : exists l, Cut s l.
Proof.
  induction s as [s IH] using (well_founded_ind (Wf_nat.well_founded_ltof _ (@length N))).
  destruct (index_of 38 s) as [e|] eqn:Q.
  - destruct (index_some _ _ _ Q) as (b & E & I & _). destruct (IH b) as [l H].
    + unfold Wf_nat.ltof. rewrite E, app_length. cbn. lia.
    + exists (firstn e s :: l). rewrite E at 1. now constructor.
  - apply index_none in Q. exists [s]. now constructor.
Qed.
Lemma read_step p ps l f : Denotes decode (p :: ps) l -> exists l', Denotes decode ps l' /\ build l f = build l' (read_pair decode p f).
Proof.
  intro H. inversion H as [|p0 n v ps0 l0 P E D|p0 n v ps0 l0 P E D]; subst; [exists l|exists l0].
  - split; [assumption|]. rewrite (read_pair_eq _ _ _ _ P). now rewrite E.
  - split; [assumption|]. rewrite (read_pair_eq _ _ _ _ P). cbn [build fold_left fst snd]. destruct (decode n); [now destruct E|reflexivity].
Qed.
Lemma read_loop_eq s ps : Cut s ps -> forall l fuel f, Denotes decode ps l -> (length s < fuel)%nat -> read_loop decode fuel s f = build l f.
Proof.
  induction 1 as [p N|p s ps N C IH]; intros l fuel f D L.
  - destruct fuel as [|fuel]; [lia|]. destruct (read_step _ _ _ f D) as (l' & D' & ->). inversion D'; subst. cbn [build fold_left].
    destruct p as [|c p]; cbn [read_loop].
    + unfold read_pair. cbn. now rewrite D0.
    + apply index_none in N. now rewrite N.
  - destruct fuel as [|fuel]; [lia|]. rewrite app_length in L. cbn [length] in L. destruct (read_step _ _ _ f D) as (l' & D' & ->).
    replace (read_loop decode (S fuel) (p ++ 38 :: s) f) with (read_loop decode fuel s (read_pair decode p f)); [apply (IH l'); auto; lia|].
    assert (X : exists c r, p ++ 38 :: s = c :: r) by (destruct p; cbn; eauto). destruct X as (c & r & X).
    cbn [read_loop]. rewrite X. rewrite <- X, index_app by assumption.
    rewrite firstn_app, Nat.sub_diag, firstn_O, app_nil_r, firstn_all.
    replace (skipn (S (length p)) (p ++ 38 :: s)) with s; [reflexivity|]. clear. induction p; [reflexivity|]. cbn [length app skipn]. exact IHp.
Qed.
End Uri.

(** C152, second half: whatever the body, the form read holds exactly the pairs its pieces stand for, in order. *)
Theorem c152_read : forall decode body, decode [] = [] ->
  exists ps l, Cut body ps /\ Denotes decode ps l /\ forall k, form_get k (read_form decode body) = submitted k l.
Proof.
  intros decode body D0. destruct (cut_total body) as [ps C]. destruct (denotes_total decode ps) as [l D]. exists ps, l.
  split; [exact C|]. split; [exact D|]. intro k. unfold read_form. rewrite (read_loop_eq decode D0 body ps C l) by (auto; lia). now rewrite get_build.
Qed.
Print Assumptions c152_read.
(** and the pieces and pairs are unique. *)
Theorem c152_unique : forall decode body ps l ps' l', decode [] = [] -> Cut body ps -> Denotes decode ps l -> Cut body ps' -> Denotes decode ps' l' -> ps = ps' /\ l = l'.
Proof.
  intros decode body ps l ps' l' D0 C D C' D'.
  assert (E : ps = ps').
  { clear D D' l l'. revert ps' C'. induction C as [p N|p s ps N C IH]; intros ps' C'; inversion C'; subst.
    - reflexivity.
    - exfalso. apply N. apply in_or_app. right. now left.
    - exfalso. apply H. apply in_or_app. right. now left.
    - assert (p0 = p /\ s0 = s) as [-> ->].
      { match goal with K : _ ++ _ :: _ = _ ++ _ :: _ |- _ => apply (first_at 38 _ _ _ _) in K; [|assumption..]; exact K end. }
      f_equal. now apply IH. }
  subst ps'. split; [reflexivity|]. clear C C'.
  assert (PU : forall p n v n' v', Pair p n v -> Pair p n' v' -> n = n' /\ v = v').
  { clear. intros p n v n' v' A B. inversion A; subst; inversion B; subst; auto.
    - match goal with K : _ ++ _ :: _ = _ ++ _ :: _ |- _ => apply (first_at 61 _ _ _ _) in K; [|assumption..]; destruct K; auto end.
    - exfalso. apply H0. apply in_or_app. right. now left.
    - exfalso. apply H. apply in_or_app. right. now left. }
  revert l' D'. induction D as [|p n v ps l P E D IH|p n v ps l P E D IH]; intros l' D'; inversion D'; subst; auto.
  - exfalso. destruct (PU _ _ _ _ _ P H1) as [-> _]. auto.
  - exfalso. destruct (PU _ _ _ _ _ P H1) as [-> _]. auto.
  - destruct (PU _ _ _ _ _ P H1) as [-> ->]. f_equal. now apply IH.
Qed.
Print Assumptions c152_unique.

(** ** Writing *)
Definition flat (f : form) : list (list N * list N) := flat_map (fun e => map (fun v => (fst e, v)) (snd e)) f.
Lemma submitted_app k a b : submitted k (a ++ b) = submitted k a ++ submitted k b.
Proof. unfold submitted. now rewrite filter_app, map_app. Qed.
Lemma submitted_same k vs : submitted k (map (fun v => (k, v)) vs) = vs.
Proof. unfold submitted. induction vs as [|v vs IH]; [reflexivity|]. cbn [map filter fst]. destruct (list_eq_dec N.eq_dec k k); [cbn; now f_equal|now destruct n]. Qed.
Lemma submitted_other k n (vs : list (list N)) : n <> k -> submitted k (map (fun v => (n, v)) vs) = [].
Proof. intro H. unfold submitted. induction vs as [|v vs IH]; [reflexivity|]. cbn [map filter fst]. destruct (list_eq_dec N.eq_dec n k); [now destruct H|exact IH]. Qed.
Lemma submitted_absent k f : ~ In k (map fst f) -> submitted k (flat f) = [].
Proof.
  induction f as [|[n vs] r IH]; intro H; [reflexivity|]. cbn [flat flat_map fst snd]. rewrite submitted_app, submitted_other by (cbn in H; tauto).
  apply IH. cbn in H. tauto.
Qed.
Lemma get_flat k f : NoDup (map fst f) -> form_get k f = submitted k (flat f).
Proof.
  induction f as [|[n vs] r IH]; cbn [map fst form_get flat flat_map snd]; intro H; [reflexivity|]. inversion H; subst. rewrite submitted_app.
  destruct (beq n k) eqn:Q.
  - apply beq_eq in Q. subst n. fold (flat r). now rewrite submitted_same, (submitted_absent k r), app_nil_r.
  - rewrite submitted_other by (intros ->; now rewrite beq_refl in Q). now apply IH.
Qed.
Section Write.
Variable encode : list N -> list N.
Definition piece (p : list N * list N) : list N := encode (fst p) ++ [61] ++ encode (snd p).
(** the pieces with an ampersand before each but, if [first], the first *)
Fixpoint glue (l : list (list N * list N)) (first : bool) : list N :=
  match l with [] => [] | p :: r => (if first then [] else [38]) ++ piece p ++ glue r false end.
Lemma write_values_glue k vs : forall first, write_values encode k vs first = (glue (map (fun v => (k, v)) vs) first, match vs with [] => first | _ => false end).
Proof.
  induction vs as [|v vs IH]; intro first; [reflexivity|]. cbn [write_values map glue]. rewrite IH. unfold piece. cbn [fst snd]. rewrite <- !app_assoc.
  f_equal. now destruct vs.
Qed.
Lemma glue_app a b first : glue (a ++ b) first = glue a first ++ glue b (match a with [] => first | _ => false end).
Proof.
  revert first. induction a as [|x a IH]; intro first; [reflexivity|]. cbn [app glue]. rewrite IH, !app_assoc. do 2 f_equal. now destruct a.
Qed.
Lemma write_loop_glue f : forall first, write_loop encode f first = glue (flat f) first.
Proof.
  induction f as [|[k vs] r IH]; intro first; [reflexivity|]. cbn [write_loop flat flat_map fst snd]. rewrite write_values_glue, IH.
  fold (flat r). rewrite glue_app. f_equal. f_equal. now destruct vs.
Qed.
End Write.
Lemma glue_cut encode p r : (forall x, In x (p :: r) -> ~ In 38 (encode (fst x)) /\ ~ In 38 (encode (snd x))) ->
  Cut (glue encode (p :: r) true) (map (piece encode) (p :: r)).
Proof.
  assert (NP : forall x, ~ In 38 (encode (fst x)) /\ ~ In 38 (encode (snd x)) -> ~ In 38 (piece encode x)).
  { intros x [A B] I. unfold piece in I. apply in_app_or in I as [I|I]; [auto|]. apply in_app_or in I as [[I|[]]|I]; [discriminate|auto]. }
  revert p. induction r as [|q r IH]; intros p H; cbn [glue map].
  - cbn [app]. rewrite app_nil_r. constructor. apply NP, H. now left.
  - cbn [app]. apply Cut_more; [apply NP, H; now left|]. specialize (IH q (fun x I => H x (or_intror I))). cbn [glue app] in IH. exact IH.
Qed.
Definition FormOk (f : form) : Prop := NoDup (map fst f) /\ Forall (fun e => bytes_ok (fst e) /\ Forall bytes_ok (snd e)) f.
Definition named (l : list (list N * list N)) : list (list N * list N) := filter (fun p => match fst p with [] => false | _ => true end) l.
Lemma submitted_named k l : submitted k (named l) = match k with [] => [] | _ => submitted k l end.
Proof.
  unfold submitted, named. induction l as [|[n v] l IH]; [now destruct k|]. cbn [filter fst].
  destruct n as [|c n].
  - rewrite IH. destruct k as [|d k]; [reflexivity|]. destruct (list_eq_dec N.eq_dec [] (d :: k)); [discriminate|reflexivity].
  - cbn [filter fst]. destruct (list_eq_dec N.eq_dec (c :: n) k) as [<-|D]; cbn [map]; [f_equal; exact IH|exact IH].
Qed.
Lemma denotes_pieces encode decode l : Coding encode decode -> Forall (fun p => bytes_ok (fst p) /\ bytes_ok (snd p)) l -> Denotes decode (map (piece encode) l) (named l).
Proof.
  intros [D0 C] H. induction H as [|[n v] l [A B] H IH]; [constructor|]. cbn [fst snd] in *. destruct (C n A) as (E1 & _ & E2). destruct (C v B) as (E3 & _ & _).
  assert (P : Pair (piece encode (n, v)) (encode n) (encode v)) by (unfold piece; cbn; now constructor).
  cbn [map named filter fst]. destruct n as [|c n].
  - eapply Den_skip; [exact P|exact E1|exact IH].
  - replace (c :: n, v) with (decode (encode (c :: n)), decode (encode v)) by now rewrite E1, E3. eapply Den_take; [|rewrite E1; discriminate|exact IH].
    rewrite E1, E3. exact P.
Qed.
Lemma read_written encode decode l : Coding encode decode -> Forall (fun p => bytes_ok (fst p) /\ bytes_ok (snd p)) l ->
  forall k, form_get k (read_form decode (glue encode l true)) = match k with [] => [] | _ => submitted k l end.
Proof.
  intros C H k. rewrite <- submitted_named. destruct l as [|p r].
  - unfold read_form. cbn. reflexivity.
  - assert (X : Cut (glue encode (p :: r) true) (map (piece encode) (p :: r))).
    { apply glue_cut. intros x I. rewrite Forall_forall in H. destruct (H x I) as [A B]. destruct C as [_ C]. split; apply C; assumption. }
    unfold read_form. rewrite (read_loop_eq decode (proj1 C) _ _ X (named (p :: r))); [now rewrite get_build|now apply denotes_pieces|lia].
Qed.
(** C151: a form assigned to a body reads back with the same values under every name but the empty one. *)
Theorem c151_readback : forall encode decode f k, Coding encode decode -> FormOk f ->
  form_get k (read_form decode (write_form encode f)) = match k with [] => [] | _ => form_get k f end.
Proof.
  intros encode decode f k C [N H]. unfold write_form. rewrite write_loop_glue, (get_flat k f) by assumption. apply read_written; [exact C|].
  clear - H. induction H as [|[n vs] r [A B] H IH]; cbn [flat flat_map fst snd]; [apply Forall_nil|]. apply Forall_app. split; [|exact IH].
  cbn [fst snd] in *. induction B; cbn [map]; [apply Forall_nil|apply Forall_cons; auto].
Qed.
Print Assumptions c151_readback.
(** The forms programs build with add are of this kind. *)
Lemma add_names n v f m : In m (map fst (form_add n v f)) -> m = n \/ In m (map fst f).
Proof.
  induction f as [|[k vs] r IH]; cbn; intro I; [destruct I as [<-|[]]; auto|]. destruct (beq k n); cbn in *; [tauto|].
  destruct I as [I|I]; [tauto|]. apply IH in I. tauto.
Qed.
Lemma add_ok n v f : bytes_ok n -> bytes_ok v -> FormOk f -> FormOk (form_add n v f).
Proof.
  intros A B [N F]. split.
  - clear F. induction f as [|[k vs] r IH]; cbn [form_add map fst] in *; [repeat constructor; auto|]. inversion N; subst.
    destruct (beq k n) eqn:Q; cbn [map fst]; [now constructor|]. constructor; [|now apply IH].
    intro I. apply add_names in I as [->|I]; [now rewrite beq_refl in Q|auto].
  - clear N. induction F as [|[k vs] r [C D] F IH]; cbn [form_add]; [repeat constructor; auto|]. cbn [fst snd] in *. destruct (beq k n); apply Forall_cons; cbn [fst snd]; auto.
    split; [exact C|]. apply Forall_app. split; [exact D|repeat constructor; exact B].
Qed.
Theorem c151_built : forall l, Forall (fun p => bytes_ok (fst p) /\ bytes_ok (snd p)) l -> FormOk (build l []).
Proof.
  intro l. assert (G : forall f, FormOk f -> Forall (fun p => bytes_ok (fst p) /\ bytes_ok (snd p)) l -> FormOk (build l f)).
  { induction l as [|[n v] l IH]; intros f F H; [exact F|]. inversion H as [|x y [A B] H']; subst. cbn [build fold_left fst snd] in *. apply IH; [|exact H'].
    now apply add_ok. }
  intro H. apply G; [|exact H]. split; [constructor|apply Forall_nil].
Qed.
Print Assumptions c151_built.
(** Percent coding as this repository has it meets the demand. *)
Definition decoded (s : list N) : list N := match decode_path_component s with Some t => t | None => [] end.
Theorem coding_ours : Coding uri_encode_component decoded.
Proof.
  split; [reflexivity|]. intros s B. unfold decoded. rewrite uri_encode_decode_roundtrip by exact B. split; [reflexivity|].
  unfold uri_encode_component.
  assert (Y : forall c, c < 256 -> ~ In 38 (uri_encode_byte c) /\ ~ In 61 (uri_encode_byte c)).
  { intros c L. assert (Z : forallb (fun c => forallb (fun x => negb (x =? 38) && negb (x =? 61)) (uri_encode_byte c)) (map N.of_nat (seq 0 256)) = true) by (vm_compute; reflexivity).
    rewrite forallb_forall in Z. specialize (Z c). rewrite forallb_forall in Z.
    assert (I : In c (map N.of_nat (seq 0 256))) by (apply in_map_iff; exists (N.to_nat c); split; [lia|apply in_seq; lia]).
    split; intro J; specialize (Z I _ J); apply andb_prop in Z as [Z1 Z2]; [discriminate Z1|discriminate Z2]. }
  split; intro I; apply in_flat_map in I as (c & I & J); unfold bytes_ok in B; rewrite Forall_forall in B; destruct (Y c (B c I)); auto.
Qed.
Example c151_ex : let f := build [(str "a&b", str "1=2"); (str "x", str "y"); (str "a&b", str "")] [] in
  write_form uri_encode_component f = str "a%26b=1%3D2&a%26b=&x=y" /\ form_get (str "a&b") (read_form decoded (write_form uri_encode_component f)) = [str "1=2"; []].
Proof. vm_compute. auto. Qed.
(** The statement with the empty name would be false. *)
Theorem c151_empty_name_refuted : exists f, FormOk f /\ form_get [] (read_form decoded (write_form uri_encode_component f)) <> form_get [] f.
Proof.
  exists (build [([], str "v")] []). split; [apply c151_built; repeat constructor; unfold bytes_ok; cbn; repeat constructor|]. vm_compute. discriminate.
Qed.
