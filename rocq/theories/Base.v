(** Shared vocabulary: bytes, byte strings, byte sweeps, searching.
    A byte is an N below 256, a C++ std::string / string_view / vector<uint8_t> is a list N. *)
From Coq Require Export String Ascii.
From Coq Require Export NArith ZArith Lia Bool PeanoNat.
From Coq Require Export List.
From Coq Require Export ZifyBool ZifyNat ZifyN.
Export ListNotations.

Arguments N.add : simpl never.
Arguments N.mul : simpl never.
Arguments N.sub : simpl never.
Arguments N.div : simpl never.
Arguments N.modulo : simpl never.
Arguments N.pow : simpl never.
Arguments N.shiftl : simpl never.
Arguments N.shiftr : simpl never.
Arguments N.land : simpl never.
Arguments N.lor : simpl never.
Arguments N.lxor : simpl never.
Arguments N.of_nat : simpl never.
Arguments N.to_nat : simpl never.
Arguments N.eqb : simpl never.
Arguments N.ltb : simpl never.
Arguments N.leb : simpl never.

Definition bytes_ok (s : list N) : Prop := Forall (fun b => (b < 256)%N) s.

(** String literals as byte lists. *)
Definition str (s : string) : list N := map N_of_ascii (list_ascii_of_string s).

(** Value of a byte read through a signed C++ char (x86-64). *)
Definition schar (b : N) : Z := if (b <? 128)%N then Z.of_N b else (Z.of_N b - 256)%Z.

(** Byte-string equality (operator== on std::string). *)
Fixpoint beq (a b : list N) : bool :=
  match a, b with
  | [], [] => true
  | x :: a', y :: b' => (x =? y)%N && beq a' b'
  | _, _ => false
  end.

Lemma beq_eq a b : beq a b = true <-> a = b.
Proof.
  revert b; induction a as [|x a IH]; intros [|y b]; simpl; split; intros H; try congruence; try discriminate.
  - apply andb_true_iff in H as [H1 H2]. apply N.eqb_eq in H1. apply IH in H2. congruence.
  - injection H as -> ->. rewrite N.eqb_refl. simpl. now apply IH.
Qed.

Lemma beq_refl a : beq a a = true.
Proof. now apply beq_eq. Qed.

Lemma beq_neq a b : beq a b = false <-> a <> b.
Proof.
  destruct (beq a b) eqn:E; split; intros H; try discriminate; try congruence.
  - apply beq_eq in E. congruence.
  - intros ->. rewrite beq_refl in E. discriminate.
Qed.

Definition bytes_eq_dec (a b : list N) : {a = b} + {a <> b} := list_eq_dec N.eq_dec a b.

(** All 256 byte values, and lifting a finite check to every byte. *)
Definition all_bytes : list N := map N.of_nat (seq 0 256).

Lemma in_all_bytes b : (b < 256)%N -> In b all_bytes.
Proof.
  intros H. unfold all_bytes. apply in_map_iff. exists (N.to_nat b). split; [lia|].
  apply in_seq. lia.
Qed.

Lemma byte_sweep (P : N -> bool) : forallb P all_bytes = true -> forall b, (b < 256)%N -> P b = true.
Proof. intros H b Hb. rewrite forallb_forall in H. apply H, in_all_bytes, Hb. Qed.

Lemma byte_sweep2 (P : N -> N -> bool) :
  forallb (fun a => forallb (P a) all_bytes) all_bytes = true ->
  forall a b, (a < 256)%N -> (b < 256)%N -> P a b = true.
Proof.
  intros H a b Ha Hb. rewrite forallb_forall in H. specialize (H a (in_all_bytes a Ha)).
  rewrite forallb_forall in H. apply H, in_all_bytes, Hb.
Qed.

(** Position of the first byte satisfying p (std::find_if / find / find_first_of). *)
Fixpoint find_if (p : N -> bool) (s : list N) : option nat :=
  match s with
  | [] => None
  | c :: r => if p c then Some 0%nat else option_map S (find_if p r)
  end.

Definition find_char (d : N) (s : list N) : option nat := find_if (fun c => (c =? d)%N) s.

Lemma find_if_some p s i :
  find_if p s = Some i ->
  exists pre c post, s = pre ++ c :: post /\ length pre = i /\ p c = true /\ Forall (fun x => p x = false) pre.
Proof.
  revert i; induction s as [|c s IH]; simpl; intros i H; [discriminate|].
  destruct (p c) eqn:Hc.
  - injection H as <-. exists [], c, s. repeat split; auto.
  - destruct (find_if p s) as [j|] eqn:Hj; simpl in H; [|discriminate]. injection H as <-.
    destruct (IH j eq_refl) as (pre & d & post & -> & <- & Hd & Hpre).
    exists (c :: pre), d, post. repeat split; auto.
Qed.

Lemma find_if_none p s : find_if p s = None <-> Forall (fun x => p x = false) s.
Proof.
  induction s as [|c s IH]; simpl.
  - split; auto.
  - destruct (p c) eqn:Hc.
    + split; [discriminate|]. intros H. inversion H; congruence.
    + destruct (find_if p s); simpl.
      * split; [discriminate|]. intros H. inversion H; subst. apply IH in H3. discriminate.
      * split; auto. intros _. constructor; auto. now apply IH.
Qed.

Lemma find_if_app p pre c post :
  Forall (fun x => p x = false) pre -> p c = true -> find_if p (pre ++ c :: post) = Some (length pre).
Proof.
  induction 1 as [|x pre Hx Hpre IH]; intros Hc; simpl.
  - now rewrite Hc.
  - rewrite Hx, IH; auto.
Qed.

(** Prefix test and substring search (std::string_view::find). *)
Fixpoint is_prefix (p s : list N) : bool :=
  match p, s with
  | [], _ => true
  | x :: p', y :: s' => (x =? y)%N && is_prefix p' s'
  | _ :: _, [] => false
  end.

Lemma is_prefix_spec p s : is_prefix p s = true <-> exists t, s = p ++ t.
Proof.
  revert s; induction p as [|x p IH]; intros s; simpl.
  - split; eauto.
  - destruct s as [|y s].
    + split; [discriminate|]. intros [t H]. discriminate.
    + rewrite andb_true_iff, N.eqb_eq, IH. split.
      * intros [-> [t ->]]. eauto.
      * intros [t H]. injection H as -> ->. eauto.
Qed.

Fixpoint find_sub (p s : list N) : option nat :=
  if is_prefix p s then Some 0%nat
  else match s with
       | [] => None
       | _ :: r => option_map S (find_sub p r)
       end.

Lemma find_sub_some p s i :
  find_sub p s = Some i ->
  exists pre post, s = pre ++ p ++ post /\ length pre = i.
Proof.
  revert i; induction s as [|c s IH]; intros i H; simpl in H.
  - destruct (is_prefix p []) eqn:E; [|discriminate]. injection H as <-.
    apply is_prefix_spec in E as [t Ht]. exists [], t. auto.
  - destruct (is_prefix p (c :: s)) eqn:E.
    + injection H as <-. apply is_prefix_spec in E as [t Ht]. exists [], t. auto.
    + destruct (find_sub p s) as [j|] eqn:Hj; simpl in H; [|discriminate]. injection H as <-.
      destruct (IH j eq_refl) as (pre & post & -> & <-). exists (c :: pre), post. auto.
Qed.

(** The occurrence found is the first one. *)
Lemma find_sub_first p s i :
  find_sub p s = Some i ->
  forall a b, s = a ++ p ++ b -> (i <= length a)%nat.
Proof.
  revert i; induction s as [|c s IH]; intros i H a b Hs; simpl in H.
  - destruct (is_prefix p []); [|discriminate]. injection H as <-. lia.
  - destruct (is_prefix p (c :: s)) eqn:E.
    + injection H as <-. lia.
    + destruct (find_sub p s) as [j|] eqn:Hj; simpl in H; [|discriminate]. injection H as <-.
      destruct a as [|x a].
      * simpl in Hs. assert (is_prefix p (c :: s) = true) by (apply is_prefix_spec; eauto). congruence.
      * injection Hs as -> ->. simpl. specialize (IH j eq_refl a b eq_refl). lia.
Qed.

Lemma find_sub_none p s : find_sub p s = None <-> ~ (exists a b, s = a ++ p ++ b).
Proof.
  split.
  - induction s as [|c s IH]; simpl; intros H (a & b & Hs).
    + destruct a; simpl in Hs; [|discriminate]. destruct p; simpl in *; discriminate.
    + destruct (is_prefix p (c :: s)) eqn:E; [discriminate|].
      destruct (find_sub p s) eqn:Hf; [discriminate|].
      destruct a as [|x a].
      * simpl in Hs. assert (is_prefix p (c :: s) = true) by (apply is_prefix_spec; eauto). congruence.
      * injection Hs as -> ->. apply IH; auto. eauto.
  - intros H. destruct (find_sub p s) as [i|] eqn:E; auto.
    apply find_sub_some in E as (pre & post & -> & _). exfalso. eauto.
Qed.

Lemma firstn_length_app {A} (a b : list A) : firstn (length a) (a ++ b) = a.
Proof. rewrite firstn_app, Nat.sub_diag, firstn_all. simpl. apply app_nil_r. Qed.

Lemma skipn_length_app {A} (a b : list A) : skipn (length a) (a ++ b) = b.
Proof. rewrite skipn_app, Nat.sub_diag, skipn_all. reflexivity. Qed.

Lemma bytes_ok_app a b : bytes_ok (a ++ b) <-> bytes_ok a /\ bytes_ok b.
Proof. apply Forall_app. Qed.
