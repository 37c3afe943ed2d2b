(** Lists of header changes and what they do to the values sent under each name. *)
From Verif Require Import Base UtilModel UtilSpec UtilProofs StaticModel Http1Model Http1Spec Http1Proofs RecvModel RecvInv HdrProps.
Local Open Scope N_scope.

Inductive hop := OSet (k v : list N) | OAdd (k v : list N) | ODel (k : list N).
Definition hop1 (h : headers_map) (o : hop) : headers_map :=
  match o with
  | OSet k v => set_value k v h
  | OAdd k v => add_value k v h
  | ODel k => filter (fun e => negb (iequals (fst e) k)) h
  end.
Definition hops (l : list hop) (h : headers_map) : headers_map := fold_left hop1 l h.
Definition hop_ok (o : hop) : Prop := match o with OSet k v | OAdd k v => bytes_ok k /\ bytes_ok v | ODel k => bytes_ok k end.
Definition named (n k : list N) : bool := beq (map lower k) (map lower n).
Definition eff1 (n : list N) (vs : list (list N)) (o : hop) : list (list N) :=
  match o with
  | OSet k v => if named n k then [v] else vs
  | OAdd k v => if named n k then vs ++ [v] else vs
  | ODel k => if named n k then [] else vs
  end.
Definition eff (n : list N) (l : list hop) (vs : list (list N)) : list (list N) := fold_left (eff1 n) l vs.

Lemma hop1_map o h : hop_ok o -> HeaderMap h -> HeaderMap (hop1 h o).
Proof. destruct o as [k v|k v|k]; cbn [hop_ok hop1]; intros H HM; [destruct H; now apply set_map|destruct H; now apply add_map|now apply remove_map]. Qed.
Lemma hop1_values n o h : bytes_ok n -> hop_ok o -> HeaderMap h -> values_of n (fields_of (hop1 h o)) = eff1 n (values_of n (fields_of h)) o.
Proof.
  intros Hn H HM. destruct o as [k v|k v|k]; cbn [hop_ok hop1 eff1] in *; unfold named.
  - destruct H. now rewrite set_values.
  - destruct H. rewrite add_values by assumption. unfold values_of at 2. cbn [filter fst]. destruct (beq (map lower k) (map lower n)) eqn:E; cbn [map snd]; [reflexivity|apply app_nil_r].
  - now rewrite remove_values.
Qed.
Lemma hops_map l : forall h, Forall hop_ok l -> HeaderMap h -> HeaderMap (hops l h).
Proof. induction l as [|o l IH]; intros h HF HM; [exact HM|]. inversion HF; subst. unfold hops. cbn [fold_left]. apply IH; [assumption|]. now apply hop1_map. Qed.
Lemma hops_values n l : forall h, bytes_ok n -> Forall hop_ok l -> HeaderMap h -> values_of n (fields_of (hops l h)) = eff n l (values_of n (fields_of h)).
Proof.
  induction l as [|o l IH]; intros h Hn HF HM; [reflexivity|]. inversion HF; subst. unfold hops, eff. cbn [fold_left]. fold (hops l (hop1 h o)).
  rewrite IH; [|assumption..|now apply hop1_map]. rewrite hop1_values by assumption. reflexivity.
Qed.
Lemma hops_app a b h : hops (a ++ b) h = hops b (hops a h).
Proof. unfold hops. apply fold_left_app. Qed.
Lemma hops_cons a b h : hops (a :: b) h = hops b (hop1 h a).
Proof. reflexivity. Qed.
Lemma eff_app n a b vs : eff n (a ++ b) vs = eff n b (eff n a vs).
Proof. unfold eff. apply fold_left_app. Qed.
Definition hop_name (o : hop) : list N := match o with OSet k _ | OAdd k _ | ODel k => k end.
Lemma eff_other n l : forall vs, Forall (fun o => map lower (hop_name o) <> map lower n) l -> eff n l vs = vs.
Proof.
  induction l as [|o l IH]; intros vs HF; [reflexivity|]. inversion HF as [|? ? H1 H2]; subst. unfold eff. cbn [fold_left]. fold (eff n l (eff1 n vs o)). rewrite (IH _ H2).
  destruct o as [k v|k v|k]; cbn [eff1 hop_name] in *; unfold named; (destruct (beq (map lower k) (map lower n)) eqn:E; [apply beq_eq in E; contradiction|reflexivity]).
Qed.

Lemma digits_bytes fuel : forall n acc, bytes_ok acc -> bytes_ok (digits fuel n acc).
Proof.
  induction fuel as [|f IH]; intros n acc H; [exact H|]. cbn [digits]. assert (H1 : bytes_ok (48 + n mod 10 :: acc)).
  { constructor; [|exact H]. pose proof (N.mod_lt n 10 ltac:(discriminate)). lia. }
  destruct (n <? 10); [exact H1|]. now apply IH.
Qed.
Lemma to_string_bytes z : bytes_ok (to_string z).
Proof. unfold to_string. destruct (z <? 0)%Z; [constructor; [reflexivity|]|]; apply digits_bytes; constructor. Qed.
Lemma join_bytes l d : Forall bytes_ok l -> bytes_ok d -> bytes_ok (join l d).
Proof.
  intros H Hd. rewrite join_intercalate. induction H as [|x l Hx H IH]; [constructor|]. destruct l as [|y l]; [exact Hx|].
  rewrite intercalate_cons by discriminate. apply bytes_ok_app. split; [exact Hx|]. apply bytes_ok_app. now split.
Qed.
Lemma first_values n h : bytes_ok n -> HeaderMap h -> header n h = hd [] (values_of n (fields_of h)).
Proof.
  intros Hn HM. pose proof (find_header_values n h Hn HM) as HF. unfold header. destruct (find_header n h) as [vs|].
  - destruct HF as [-> HF]. destruct vs as [|v vs]; [congruence|reflexivity].
  - rewrite HF. reflexivity.
Qed.
Lemma first_bytes n h : bytes_ok n -> HeaderMap h -> bytes_ok (header n h).
Proof.
  intros Hn HM. rewrite first_values by assumption. pose proof (values_bytes n h HM) as HB. destruct (values_of n (fields_of h)) as [|v vs]; [constructor|]. inversion HB; assumption.
Qed.
