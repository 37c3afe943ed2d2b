(** Lemmas about the attribute parser. *)
From Verif Require Import Base UtilModel UtilSpec UtilProofs StaticModel DateModel CookieModel CookieSpec CookieProofs H2FieldSpec Http1Model Http1Spec
  Http1Proofs RecvModel HdrModel HdrSpec.
From Coq Require Import ZifyBool ZifyN.
Local Open Scope N_scope.

Lemma len_app_ : forall a b : list N, len (a ++ b) = len a + len b.
Proof. intros. unfold len. rewrite app_length. lia. Qed.

Lemma solid_app a b : solid (a ++ b) = solid a ++ solid b.
Proof. unfold solid. apply filter_app. Qed.
Lemma solid_ows s : Forall Ows s -> solid s = [].
Proof. unfold solid. induction 1 as [|c s H _ IH]; cbn [filter]; [reflexivity|]. unfold Ows in H. replace (negb ((c =? 32) || (c =? 9))) with false by lia. exact IH. Qed.
Lemma solid_nil s : solid s = [] -> Forall Ows s.
Proof.
  unfold solid. induction s as [|c s IH]; cbn [filter]; [constructor|]. destruct (negb ((c =? 32) || (c =? 9))) eqn:E; [discriminate|].
  intros H. constructor; [unfold Ows; lia|auto].
Qed.
Lemma solid_in c s : In c (solid s) -> ~ Ows c.
Proof. unfold solid. rewrite filter_In. unfold Ows. lia. Qed.
Lemma drop_ws_solid s : (forall c, In c s -> ~ Ows c) -> drop_ws s = s.
Proof.
  destruct s as [|c s]; cbn [drop_ws]; [reflexivity|]. intros H. destruct (is_http_whitespace c) eqn:E; [|reflexivity].
  exfalso. apply (H c); [now left|]. now apply is_ws_spec.
Qed.
Lemma trim_solid s : trim_http_whitespace (solid s) = solid s.
Proof.
  unfold trim_http_whitespace. rewrite (drop_ws_solid (solid s)) by (intros c H; exact (solid_in c s H)).
  rewrite drop_ws_solid by (intros c H; apply in_rev in H; exact (solid_in c s H)). apply rev_involutive.
Qed.
Lemma drop_ws_ows a s : Forall Ows a -> drop_ws (a ++ s) = drop_ws s.
Proof. induction 1 as [|c a H _ IH]; cbn [app drop_ws]; [reflexivity|]. apply is_ws_spec in H. now rewrite H. Qed.
Lemma drop_ws_snoc s c : drop_ws (s ++ [c]) = match drop_ws s with [] => if is_http_whitespace c then [] else [c] | t => t ++ [c] end.
Proof. induction s as [|x s IH]; cbn [app drop_ws]; [reflexivity|]. destruct (is_http_whitespace x); [exact IH|reflexivity]. Qed.
Lemma drop_ws_nil s : drop_ws s = [] -> Forall Ows s.
Proof. induction s as [|c s IH]; cbn [drop_ws]; [constructor|]. destruct (is_http_whitespace c) eqn:E; [|discriminate]. intros H. constructor; [now apply is_ws_spec|auto]. Qed.
Lemma drop_ws_idem s : drop_ws (drop_ws s) = drop_ws s.
Proof. induction s as [|c s IH]; cbn [drop_ws]; [reflexivity|]. destruct (is_http_whitespace c) eqn:E; [exact IH|]. cbn [drop_ws]. now rewrite E. Qed.
Lemma trim_drop s : trim_http_whitespace (drop_ws s) = trim_http_whitespace s.
Proof. unfold trim_http_whitespace. now rewrite drop_ws_idem. Qed.
Lemma trim_iff s t : Trimmed s t <-> t = trim_http_whitespace s.
Proof. split; [intros H; eapply Trimmed_det; [exact H|apply trim_spec]|intros ->; apply trim_spec]. Qed.
Lemma trim_snoc_solid s c : ~ Ows c -> trim_http_whitespace (s ++ [c]) = drop_ws (s ++ [c]).
Proof.
  intros H. unfold trim_http_whitespace. assert (E : is_http_whitespace c = false) by (apply not_true_is_false; rewrite is_ws_spec; exact H).
  assert (exists x, drop_ws (s ++ [c]) = x ++ [c]) as [x ->].
  { rewrite drop_ws_snoc, E. destruct (drop_ws s) as [|y t]; [exists []; reflexivity|exists (y :: t); reflexivity]. }
  rewrite rev_app_distr. cbn [rev app drop_ws]. rewrite E. cbn [rev]. rewrite rev_involutive. reflexivity.
Qed.
Lemma trim_snoc_ows s c : Ows c -> trim_http_whitespace (s ++ [c]) = trim_http_whitespace s.
Proof.
  intros H. apply (Trimmed_det (s ++ [c])); [apply trim_spec|].
  destruct (trim_spec s) as (a & b & E & H1 & H2 & H3 & H4).
  exists a, (b ++ [c]). rewrite E at 1. rewrite <- !app_assoc. refine (conj eq_refl (conj H1 (conj _ (conj H3 H4)))).
  apply Forall_app. split; [exact H2|constructor; [exact H|constructor]].
Qed.
Lemma drop_head s c r : drop_ws s = c :: r -> exists t, trim_http_whitespace s = c :: t.
Proof.
  intros H. unfold trim_http_whitespace. rewrite H.
  assert (Hc : is_http_whitespace c = false).
  { clear - H. induction s as [|x s IH]; cbn [drop_ws] in H; [discriminate|]. destruct (is_http_whitespace x) eqn:E; [auto|]. now injection H as -> ->. }
  destruct (drop_ws_spec (rev (c :: r))) as (a & E & _ & _). apply (f_equal (@rev N)) in E. rewrite rev_involutive, rev_app_distr in E.
  destruct (rev (drop_ws (rev (c :: r)))) as [|y t] eqn:EY; [|injection E as <- _; eauto]. exfalso.
  apply (f_equal (@rev N)) in EY. rewrite rev_involutive in EY. apply drop_ws_nil in EY. apply Forall_rev in EY. rewrite rev_involutive in EY.
  inversion EY as [|? ? HO _]; subst. apply is_ws_spec in HO. congruence.
Qed.
Lemma trim_len s : len (trim_http_whitespace s) <= len (drop_ws s).
Proof.
  unfold trim_http_whitespace. unfold len. rewrite rev_length. destruct (drop_ws_spec (rev (drop_ws s))) as (a & E & _ & _).
  apply (f_equal (@length N)) in E. rewrite rev_length, app_length in E. lia.
Qed.

Definition stored (d : list (list N * list N)) (fs : list field) : list (list N * list N) :=
  fold_left (fun d f => emplace d (fst f) (snd f)) fs d.
Definition fin (o : option ast) : option (list (list N * list N)) := match o with Some s => attr_finish s | None => None end.
Lemma stored_app d a b : stored d (a ++ b) = stored (stored d a) b.
Proof. unfold stored. apply fold_left_app. Qed.

Definition NameChars (n : list N) : Prop := Forall (fun c => Ows c \/ (~ Control c /\ c <> 61 /\ c <> 59 /\ c <> 44)) n.
Definition ValChars (w : list N) : Prop := Forall (fun c => c <> 59 /\ c <> 44 /\ Plain c) w.
Definition st0 (d : list (list N * list N)) : ast := mkA d PName [] [] 0 false.

Lemma name_attr n0 : NameChars n0 -> len (solid n0) <= 1024 ->
  Attr n0 (match solid n0 with [] => [] | _ => [(solid n0, [])] end).
Proof.
  intros H1 H2. destruct (solid n0) eqn:E; [apply at_blank; now apply solid_nil|].
  rewrite <- E in *. apply at_flag. split; [congruence|]. split; [exact H2|exact H1].
Qed.

Section Sound.
Definition Sound (s : list N) : Prop := forall d d',
  (forall n0, NameChars n0 -> len (solid n0) <= 1024 -> fin (attr_run (mkA d PName (solid n0) [] 0 false) s) = Some d' ->
     exists fs, Attrs (n0 ++ s) fs /\ d' = stored d fs) /\
  (forall n0 w0, NameText n0 -> ValChars w0 -> (forall c r, drop_ws w0 = c :: r -> c <> 39 /\ c <> 34) -> len (trim_http_whitespace w0) <= 8192 ->
     fin (attr_run (mkA d PValue (solid n0) (drop_ws w0) 0 false) s) = Some d' ->
     exists fs, Attrs (n0 ++ [61] ++ w0 ++ s) fs /\ d' = stored d fs) /\
  (forall n0 a q t0 v0 (esc : bool), NameText n0 -> Forall Ows a -> q = 34 \/ q = 39 ->
     (if esc then exists t1, t0 = t1 ++ [92] /\ forall t v, Quoted q t v -> Quoted q (t1 ++ t) (v0 ++ v)
      else forall t v, Quoted q t v -> Quoted q (t0 ++ t) (v0 ++ v)) -> len v0 <= 8192 ->
     fin (attr_run (mkA d PValue (solid n0) v0 q esc) s) = Some d' ->
     exists fs, Attrs (n0 ++ [61] ++ a ++ [q] ++ t0 ++ s) fs /\ d' = stored d fs) /\
  (forall seg fs0, (forall b, Forall Ows b -> Attr (seg ++ b) fs0) ->
     fin (attr_run (mkA d PAfterQuoted [] [] 0 false) s) = Some d' ->
     exists fs, Attrs (seg ++ s) (fs0 ++ fs) /\ d' = stored d fs).

Lemma sound : forall s, Sound s.
Proof.
  induction s as [|c s IH]; intros d d'; refine (conj _ (conj _ (conj _ _))).
  - intros n0 H1 H2 H. cbn [attr_run fin] in H. unfold attr_finish in H. cbn [a_name a_state a_value a_dict] in H.
    pose proof (name_attr n0 H1 H2) as HA. rewrite app_nil_r.
    destruct (solid n0) as [|x t] eqn:E; [injection H as <-; exists []; split; [now apply ats_one|reflexivity]|].
    rewrite <- E in *. rewrite trim_solid in H. injection H as <-. exists [(solid n0, [])]. split; [now apply ats_one|reflexivity].
  - intros n0 w0 HN HW HQ HL H. cbn [attr_run fin] in H. unfold attr_finish in H. cbn [a_name a_state a_value a_dict a_quote a_escape] in H.
    pose proof HN as (HN1 & _). destruct (solid n0) as [|x t] eqn:E; [congruence|]. rewrite <- E in *. cbn [N.eqb negb orb] in H.
    rewrite trim_solid, trim_drop in H. injection H as <-. exists [(solid n0, trim_http_whitespace w0)]. split; [|reflexivity].
    rewrite app_nil_r. apply ats_one. apply at_plain; auto using trim_spec.
    intros c r EC. destruct (drop_ws w0) as [|y u] eqn:ED.
    + exfalso. rewrite <- trim_drop, ED in EC. discriminate EC.
    + destruct (drop_head _ _ _ ED) as [t' ET]. rewrite ET in EC. injection EC as <- _. eapply HQ. reflexivity.
  - intros n0 a q t0 v0 esc HN Ha Hq HT HL H. exfalso. cbn [attr_run fin] in H. unfold attr_finish in H.
    cbn [a_name a_state a_value a_dict a_quote a_escape] in H. destruct HN as (HN & _). destruct (solid n0); [congruence|].
    replace (q =? 0) with false in H by (destruct Hq; subst; reflexivity). discriminate H.
  - intros seg fs0 HS H. cbn in H. injection H as <-. exists []. split; [|reflexivity]. rewrite !app_nil_r. apply ats_one.
    specialize (HS [] (Forall_nil _)). now rewrite app_nil_r in HS.
  - intros n0 H1 H2 H. cbn [attr_run] in H. unfold attr_step in H. cbn [a_state a_name a_dict a_value a_quote a_escape] in H.
    destruct (c =? 61) eqn:E61.
    + rewrite trim_solid in H. destruct (solid n0) as [|x t] eqn:E; [discriminate H|]. rewrite <- E in *.
      destruct (IH d d') as (_ & IV & _). assert (c = 61) as -> by lia.
      apply (IV n0 []) in H; auto.
      * split; [congruence|]. split; [exact H2|exact H1].
      * constructor.
      * intros; discriminate.
      * vm_compute; discriminate.
    + destruct ((c =? 59) || (c =? 44)) eqn:ES.
      * pose proof (name_attr n0 H1 H2) as HA. destruct (solid n0) as [|x t] eqn:E.
        -- destruct (IH d d') as (IN & _). specialize (IN [] ltac:(constructor) ltac:(vm_compute; discriminate)). cbn [solid filter app] in IN.
           apply IN in H as (fs & F1 & F2). exists ([] ++ fs). split; [apply ats_more; auto; lia|exact F2].
        -- rewrite <- E in *. rewrite trim_solid in H. destruct (IH (emplace d (solid n0) []) d') as (IN & _).
           specialize (IN [] ltac:(constructor) ltac:(vm_compute; discriminate)). cbn [solid filter app] in IN.
           apply IN in H as (fs & F1 & F2). exists ([(solid n0, [])] ++ fs). split; [apply ats_more; auto; lia|exact F2].
      * destruct (negb (is_http_whitespace c)) eqn:EW.
        -- destruct (is_control c || (ATTRIBUTE_NAME_MAX <=? len (solid n0))) eqn:EC; [discriminate H|].
           apply orb_false_iff in EC as [EC EL]. unfold ATTRIBUTE_NAME_MAX in EL.
           assert (HS : solid (n0 ++ [c]) = solid n0 ++ [c]).
           { rewrite solid_app. unfold solid at 2. cbn [filter]. unfold is_http_whitespace in EW. rewrite EW. reflexivity. }
           rewrite <- HS in H. destruct (IH d d') as (IN & _). apply IN in H.
           ++ rewrite <- app_assoc in H. exact H.
           ++ apply Forall_app. split; [exact H1|]. constructor; [|constructor]. right. apply control_false in EC. split; [exact EC|]. lia.
           ++ rewrite HS. unfold len in *. rewrite app_length. cbn [length]. lia.
        -- apply negb_false_iff in EW. apply is_ws_spec in EW.
           assert (HS : solid (n0 ++ [c]) = solid n0) by (rewrite solid_app, (solid_ows [c]) by (constructor; [exact EW|constructor]); apply app_nil_r).
           rewrite <- HS in H. destruct (IH d d') as (IN & _). apply IN in H.
           ++ rewrite <- app_assoc in H. exact H.
           ++ apply Forall_app. split; [exact H1|]. constructor; [|constructor]. now left.
           ++ rewrite HS. exact H2.
  - intros n0 w0 HN HW HQ HL H. cbn [attr_run] in H. unfold attr_step in H. cbn [a_state a_name a_dict a_value a_quote a_escape] in H.
    change (0 =? 0) with true in H. cbn iota in H.
    destruct ((c =? 59) || (c =? 44)) eqn:ES.
    + rewrite trim_solid, trim_drop in H. destruct (IH (emplace d (solid n0) (trim_http_whitespace w0)) d') as (IN & _).
      specialize (IN [] ltac:(constructor) ltac:(vm_compute; discriminate)). cbn [solid filter app] in IN. apply IN in H as (fs & F1 & F2).
      exists ([(solid n0, trim_http_whitespace w0)] ++ fs). split; [|exact F2].
      replace (n0 ++ [61] ++ w0 ++ c :: s) with ((n0 ++ [61] ++ w0) ++ c :: s) by (rewrite <- !app_assoc; reflexivity).
      apply ats_more; [|lia|exact F1]. apply at_plain; auto using trim_spec.
      intros x r EC. destruct (drop_ws w0) as [|y u] eqn:ED.
      * exfalso. rewrite <- trim_drop, ED in EC. discriminate EC.
      * destruct (drop_head _ _ _ ED) as [t' ET]. rewrite ET in EC. injection EC as <- _. eapply HQ. reflexivity.
    + destruct ((length (drop_ws w0) =? 0)%nat && ((c =? 39) || (c =? 34))) eqn:EQ.
      * apply andb_true_iff in EQ as [EQ1 EQ2]. destruct (drop_ws w0) eqn:ED; [|discriminate EQ1]. apply drop_ws_nil in ED.
        destruct (IH d d') as (_ & _ & IQ & _). apply (IQ n0 w0 c [] [] false) in H; auto.
        -- lia.
        -- vm_compute; discriminate.
      * assert (HPW : Ows c \/ (~ Ows c /\ is_control c = false /\ len (drop_ws w0) < 8192)).
        { destruct ((c =? 32) || (c =? 9)) eqn:EW; [left; unfold Ows; lia|]. right.
          destruct (is_control c || (ATTRIBUTE_VALUE_MAX <=? len (drop_ws w0))) eqn:EC; [discriminate H|].
          apply orb_false_iff in EC as [EC EL]. unfold ATTRIBUTE_VALUE_MAX in EL. unfold Ows. repeat split; lia. }
        assert (HST : fin (attr_run (mkA d PValue (solid n0) (drop_ws (w0 ++ [c])) 0 false) s) = Some d').
        { rewrite drop_ws_snoc. destruct ((c =? 32) || (c =? 9)) eqn:EW.
          - replace (is_http_whitespace c) with true by (symmetry; exact EW).
            destruct (drop_ws w0); cbn [length Nat.eqb negb] in H; exact H.
          - replace (is_http_whitespace c) with false by (symmetry; exact EW).
            destruct (is_control c || (ATTRIBUTE_VALUE_MAX <=? len (drop_ws w0))) eqn:EC; [discriminate H|].
            destruct (drop_ws w0); exact H. }
        destruct (IH d d') as (_ & IV & _). apply (IV n0 (w0 ++ [c])) in HST; auto.
        -- rewrite <- app_assoc in HST. exact HST.
        -- apply Forall_app. split; [exact HW|]. constructor; [|constructor].
           refine (conj _ (conj _ _)); [lia|lia|]. unfold Plain. destruct HPW as [HO|(_ & HC & _)].
           ++ unfold Ows in HO. unfold Control. destruct HO; subst; [left; lia|right; reflexivity].
           ++ left. now apply control_false.
        -- intros x r EX. rewrite drop_ws_snoc in EX. destruct (drop_ws w0) as [|y u] eqn:ED.
           ++ destruct (is_http_whitespace c); [discriminate EX|]. injection EX as <- _. cbn [length Nat.eqb andb] in EQ. lia.
           ++ injection EX as <- _. eapply HQ. reflexivity.
        -- destruct HPW as [HO|(HO & _ & HL2)].
           ++ rewrite trim_snoc_ows by exact HO. exact HL.
           ++ rewrite trim_snoc_solid by exact HO. rewrite drop_ws_snoc. destruct (drop_ws w0).
              ** destruct (is_http_whitespace c); vm_compute; discriminate.
              ** unfold len in *. rewrite app_length. cbn [length] in *. lia.
  - intros n0 a q t0 v0 esc HN Ha Hq HT HL H. cbn [attr_run] in H. unfold attr_step in H. cbn [a_state a_name a_dict a_value a_quote a_escape] in H.
    assert (Hq0 : q =? 0 = false) by (destruct Hq; subst; reflexivity). rewrite Hq0 in H.
    destruct (IH d d') as (_ & _ & IQ & _). unfold ATTRIBUTE_VALUE_MAX in H.
    destruct esc.
    + destruct HT as (t1 & -> & HT).
      destruct (is_control c && negb (c =? 9)) eqn:EC; [discriminate H|]. destruct (8192 <=? len v0) eqn:EL; [discriminate H|].
      apply (IQ n0 a q (t1 ++ [92; c]) (v0 ++ [c]) false) in H; auto.
      * rewrite <- !app_assoc in *. exact H.
      * intros t v HV. rewrite <- !app_assoc. cbn [app]. apply HT. apply qu_esc; [|exact HV].
        unfold Plain. pose proof (control_false c). destruct (is_control c) eqn:EE; [right; cbn in EC; lia|left; tauto].
      * unfold len in *. rewrite app_length. cbn [length]. lia.
    + destruct (c =? 92) eqn:E92.
      * apply (IQ n0 a q (t0 ++ [92]) v0 true) in H; auto.
        -- assert (c = 92) as -> by lia. rewrite <- !app_assoc in *. exact H.
        -- exists t0. auto.
      * destruct (c =? q) eqn:EQ.
        -- rewrite trim_solid in H. destruct (IH (emplace d (solid n0) v0) d') as (_ & _ & _ & IA).
           apply (IA (n0 ++ [61] ++ a ++ [q] ++ t0 ++ [q]) [(solid n0, v0)]) in H.
           ++ destruct H as (fs & F1 & F2). exists ([(solid n0, v0)] ++ fs). split; [|exact F2].
              assert (c = q) as -> by lia. rewrite <- !app_assoc in F1. exact F1.
           ++ intros b Hb. rewrite <- !app_assoc. apply at_quoted; auto.
              specialize (HT [] [] (qu_nil q)). now rewrite !app_nil_r in HT.
        -- destruct (8192 <=? len v0) eqn:EL; [discriminate H|]. destruct (is_control c && negb (c =? 9)) eqn:EC; [discriminate H|].
           apply (IQ n0 a q (t0 ++ [c]) (v0 ++ [c]) false) in H; auto.
           ++ rewrite <- !app_assoc in *. exact H.
           ++ intros t v HV. rewrite <- !app_assoc. cbn [app]. apply HT. apply qu_lit; [lia|lia| |exact HV].
              unfold Plain. pose proof (control_false c). destruct (is_control c) eqn:EE; [right; cbn in EC; lia|left; tauto].
           ++ unfold len in *. rewrite app_length. cbn [length]. lia.
  - intros seg fs0 HS H. cbn [attr_run] in H. unfold attr_step in H. cbn [a_state a_name a_dict a_value a_quote a_escape] in H.
    destruct ((c =? 59) || (c =? 44)) eqn:ES.
    + destruct (IH d d') as (IN & _). specialize (IN [] ltac:(constructor) ltac:(vm_compute; discriminate)). cbn [solid filter app] in IN.
      apply IN in H as (fs & F1 & F2). exists fs. split; [|exact F2]. apply ats_more; [|lia|exact F1].
      specialize (HS [] (Forall_nil _)). now rewrite app_nil_r in HS.
    + destruct (negb (c =? 32) && negb (c =? 9)) eqn:EW; [discriminate H|].
      destruct (IH d d') as (_ & _ & _ & IA). apply (IA (seg ++ [c]) fs0) in H.
      * rewrite <- app_assoc in H. exact H.
      * intros b Hb. rewrite <- app_assoc. cbn [app]. apply HS. constructor; [unfold Ows; lia|exact Hb].
Qed.
End Sound.

(** ** Completeness *)
Lemma trim_mono x y : len (trim_http_whitespace x) <= len (trim_http_whitespace (x ++ y)).
Proof.
  induction y as [|c y IH] using rev_ind; [rewrite app_nil_r; lia|]. rewrite app_assoc.
  destruct (is_http_whitespace c) eqn:E.
  - rewrite trim_snoc_ows by (now apply is_ws_spec). exact IH.
  - rewrite trim_snoc_solid by (rewrite <- is_ws_spec, E; discriminate). rewrite drop_ws_snoc, E.
    pose proof (trim_len (x ++ y)) as HL. destruct (drop_ws (x ++ y)) eqn:ED.
    + unfold len in *. cbn [length] in *. lia.
    + unfold len in *. rewrite app_length. cbn [length] in *. lia.
Qed.

Lemma run_name n0 : NameChars n0 -> forall d acc rest, len (acc ++ solid n0) <= 1024 ->
  attr_run (mkA d PName acc [] 0 false) (n0 ++ rest) = attr_run (mkA d PName (acc ++ solid n0) [] 0 false) rest.
Proof.
  induction 1 as [|c n0 Hc _ IH]; intros d acc rest HL.
  - cbn [app solid filter]. now rewrite app_nil_r.
  - cbn [app attr_run]. unfold attr_step. cbn [a_state a_name a_dict a_value a_quote a_escape].
    change (solid (c :: n0)) with (solid ([c] ++ n0)) in *. rewrite solid_app in *.
    destruct Hc as [Hc|(H1 & H2 & H3 & H4)].
    + rewrite (solid_ows [c]) in * by (constructor; [exact Hc|constructor]). cbn [app] in *.
      unfold Ows in Hc. replace (c =? 61) with false by lia. replace ((c =? 59) || (c =? 44)) with false by lia.
      replace (is_http_whitespace c) with true by (unfold is_http_whitespace; lia). cbn [negb]. apply IH. exact HL.
    + replace (c =? 61) with false by lia. replace ((c =? 59) || (c =? 44)) with false by lia.
      destruct (is_http_whitespace c) eqn:EW.
      * apply is_ws_spec in EW. rewrite (solid_ows [c]) in * by (constructor; [exact EW|constructor]). cbn [app negb] in *. apply IH. exact HL.
      * assert (HS : solid [c] = [c]) by (unfold solid; cbn [filter]; unfold is_http_whitespace in EW; rewrite EW; reflexivity).
        rewrite HS in *. cbn [negb]. apply control_false in H1. rewrite H1. unfold ATTRIBUTE_NAME_MAX.
        rewrite !len_app_ in HL. change (len [c]) with 1 in HL.
        replace (1024 <=? len acc) with false by lia. cbn [orb]. rewrite IH by (rewrite !len_app_; change (len [c]) with 1; lia).
        now rewrite <- app_assoc.
Qed.

Lemma run_val w : ValChars w -> forall d n w0 rest, (forall c r, drop_ws (w0 ++ w) = c :: r -> c <> 39 /\ c <> 34) ->
  len (trim_http_whitespace (w0 ++ w)) <= 8192 ->
  attr_run (mkA d PValue n (drop_ws w0) 0 false) (w ++ rest) = attr_run (mkA d PValue n (drop_ws (w0 ++ w)) 0 false) rest.
Proof.
  induction 1 as [|c w (H1 & H2 & H3) _ IH]; intros d n w0 rest HQ HL.
  - cbn [app]. now rewrite app_nil_r.
  - assert (EA : w0 ++ c :: w = (w0 ++ [c]) ++ w) by (rewrite <- app_assoc; reflexivity).
    rewrite EA in *. specialize (IH d n (w0 ++ [c]) rest HQ HL). rewrite <- IH. clear IH.
    cbn [app attr_run]. unfold attr_step. cbn [a_state a_name a_dict a_value a_quote a_escape].
    change (0 =? 0) with true. cbn iota. replace ((c =? 59) || (c =? 44)) with false by lia.
    rewrite drop_ws_snoc.
    destruct ((c =? 32) || (c =? 9)) eqn:EW.
    + replace ((length (drop_ws w0) =? 0)%nat && ((c =? 39) || (c =? 34))) with false by lia.
      replace (is_http_whitespace c) with true by (symmetry; exact EW).
      destruct (drop_ws w0); reflexivity.
    + replace (is_http_whitespace c) with false by (symmetry; exact EW).
      assert (HO : ~ Ows c) by (unfold Ows; lia).
      assert (HD : len (drop_ws (w0 ++ [c])) <= 8192).
      { rewrite <- trim_snoc_solid by exact HO. pose proof (trim_mono (w0 ++ [c]) w). lia. }
      rewrite drop_ws_snoc in HD. replace (is_http_whitespace c) with false in HD by (symmetry; exact EW).
      assert (HC : is_control c = false) by (apply control_false; destruct H3 as [H3|H3]; [exact H3|lia]).
      unfold ATTRIBUTE_VALUE_MAX. rewrite HC. destruct (drop_ws w0) as [|y u] eqn:ED.
      * cbn [length Nat.eqb andb orb].
        destruct (HQ c w) as [Q1 Q2].
        { rewrite <- app_assoc. apply drop_ws_nil in ED. rewrite drop_ws_ows by exact ED. cbn [app drop_ws].
          replace (is_http_whitespace c) with false by (symmetry; exact EW). reflexivity. }
        replace ((c =? 39) || (c =? 34)) with false by lia. change (8192 <=? len []) with false. reflexivity.
      * cbn [length Nat.eqb andb orb]. rewrite len_app_ in HD. change (len [c]) with 1 in HD.
        replace (8192 <=? len (y :: u)) with false by lia. reflexivity.
Qed.

Lemma run_quoted q t v : (q = 34 \/ q = 39) -> Quoted q t v -> forall d n v0 rest, len (v0 ++ v) <= 8192 ->
  attr_run (mkA d PValue n v0 q false) (t ++ rest) = attr_run (mkA d PValue n (v0 ++ v) q false) rest.
Proof.
  intros Hq. induction 1 as [|c t v H1 H2 H3 _ IH|c t v H3 _ IH]; intros d n v0 rest HL.
  - now rewrite app_nil_r.
  - cbn [app attr_run]. unfold attr_step. cbn [a_state a_name a_dict a_value a_quote a_escape].
    replace (q =? 0) with false by lia. replace (c =? 92) with false by lia. replace (c =? q) with false by lia.
    rewrite len_app_ in HL. unfold len in HL at 2. cbn [length] in HL. unfold ATTRIBUTE_VALUE_MAX.
    replace (8192 <=? len v0) with false by lia.
    replace (is_control c && negb (c =? 9)) with false by (destruct H3 as [H3|H3]; [apply control_false in H3; rewrite H3; reflexivity|subst; reflexivity]).
    rewrite IH by (rewrite !len_app_; change (len [c]) with 1; unfold len at 2; lia). now rewrite <- app_assoc.
  - cbn [app attr_run]. unfold attr_step at 1. cbn [a_state a_name a_dict a_value a_quote a_escape].
    replace (q =? 0) with false by lia. change (92 =? 92) with true. cbn iota.
    unfold attr_step at 1. cbn [a_state a_name a_dict a_value a_quote a_escape]. replace (q =? 0) with false by lia.
    rewrite len_app_ in HL. unfold len in HL at 2. cbn [length] in HL. unfold ATTRIBUTE_VALUE_MAX.
    replace (8192 <=? len v0) with false by lia.
    replace (is_control c && negb (c =? 9)) with false by (destruct H3 as [H3|H3]; [apply control_false in H3; rewrite H3; reflexivity|subst; reflexivity]).
    rewrite IH by (rewrite !len_app_; change (len [c]) with 1; unfold len at 2; lia). now rewrite <- app_assoc.
Qed.

Lemma run_blank a : Forall Ows a -> forall d n rest,
  attr_run (mkA d PValue n [] 0 false) (a ++ rest) = attr_run (mkA d PValue n [] 0 false) rest.
Proof.
  induction 1 as [|c a Hc _ IH]; intros d n rest; [reflexivity|]. cbn [app attr_run]. unfold attr_step.
  cbn [a_state a_name a_dict a_value a_quote a_escape length Nat.eqb negb]. change (0 =? 0) with true. cbn iota. unfold Ows in Hc.
  replace ((c =? 59) || (c =? 44)) with false by lia. replace (true && ((c =? 39) || (c =? 34))) with false by lia.
  replace ((c =? 32) || (c =? 9)) with true by lia. apply IH.
Qed.
Lemma run_after b : Forall Ows b -> forall d rest,
  attr_run (mkA d PAfterQuoted [] [] 0 false) (b ++ rest) = attr_run (mkA d PAfterQuoted [] [] 0 false) rest.
Proof.
  induction 1 as [|c a Hc _ IH]; intros d rest; [reflexivity|]. cbn [app attr_run]. unfold attr_step.
  cbn [a_state a_name a_dict a_value a_quote a_escape]. unfold Ows in Hc.
  replace ((c =? 59) || (c =? 44)) with false by lia. replace (negb (c =? 32) && negb (c =? 9)) with false by lia. apply IH.
Qed.

(** the state reached at the end of one attribute *)
Lemma attr_reach s fs : Attr s fs -> forall d rest, exists st, attr_run (st0 d) (s ++ rest) = attr_run st rest /\
  attr_finish st = Some (stored d fs) /\
  (forall c t, rest = c :: t -> c = 59 \/ c = 44 -> attr_run st rest = attr_run (st0 (stored d fs)) t).
Proof.
  assert (HNM : forall n, NameText n -> NameChars n /\ len (solid n) <= 1024 /\ solid n <> []) by (intros n (A & B & C); auto).
  assert (HEQ : forall n d rest, NameText n ->
            attr_run (st0 d) (n ++ [61] ++ rest) = attr_run (mkA d PValue (solid n) [] 0 false) rest).
  { intros n d rest HN. destruct (HNM n HN) as (A & B & C). unfold st0. rewrite run_name by (cbn [app]; assumption).
    cbn [app attr_run]. unfold attr_step. cbn [a_state a_name a_dict a_value a_quote a_escape]. change (61 =? 61) with true. cbn iota.
    rewrite trim_solid. destruct (solid n); [congruence|reflexivity]. }
  induction 1 as [s H|n H|n w v HN HT HW HQ HL|n a q t b v HN Ha Hq HQ HL Hb]; intros d rest.
  - exists (st0 d). split; [|split; [reflexivity|]].
    + unfold st0. rewrite run_name.
      * rewrite solid_ows by exact H. reflexivity.
      * revert H. apply Forall_impl. auto.
      * rewrite solid_ows by exact H. vm_compute. discriminate.
    + intros c t -> Hc. cbn [attr_run]. unfold attr_step, st0. cbn [a_state a_name]. replace (c =? 61) with false by lia.
      replace ((c =? 59) || (c =? 44)) with true by lia. reflexivity.
  - destruct (HNM n H) as (A & B & C). exists (mkA d PName (solid n) [] 0 false). split; [|split].
    + unfold st0. now rewrite run_name by (cbn [app]; assumption).
    + unfold attr_finish. cbn [a_name a_state a_value a_dict]. pose proof (trim_solid n) as HTS. destruct (solid n); [congruence|]. now rewrite HTS.
    + intros c t -> Hc. cbn [attr_run]. unfold attr_step. cbn [a_state a_name a_dict a_value a_quote a_escape]. replace (c =? 61) with false by lia.
      replace ((c =? 59) || (c =? 44)) with true by lia. pose proof (trim_solid n) as HTS. destruct (solid n); [congruence|]. now rewrite HTS.
  - destruct (HNM n HN) as (A & B & C). exists (mkA d PValue (solid n) (drop_ws w) 0 false).
    apply trim_iff in HT. subst v. split; [|split].
    + rewrite <- app_assoc. cbn [app]. change (61 :: w ++ rest) with ([61] ++ w ++ rest). rewrite HEQ by exact HN. apply (run_val w HW d (solid n) [] rest).
      * intros c r ED. cbn [app] in ED. destruct (drop_head _ _ _ ED) as [u EU]. eapply HQ. exact EU.
      * exact HL.
    + unfold attr_finish. cbn [a_name a_state a_value a_dict a_quote a_escape]. rewrite trim_drop. pose proof (trim_solid n) as HTS. destruct (solid n); [congruence|]. now rewrite HTS.
    + intros c t -> Hc. cbn [attr_run]. unfold attr_step. cbn [a_state a_name a_dict a_value a_quote a_escape]. change (0 =? 0) with true. cbn iota.
      replace ((c =? 59) || (c =? 44)) with true by lia. rewrite trim_solid, trim_drop. reflexivity.
  - destruct (HNM n HN) as (A & B & C). exists (mkA (stored d [(solid n, v)]) PAfterQuoted [] [] 0 false). split; [|split].
    + rewrite <- !app_assoc. rewrite HEQ by exact HN. rewrite run_blank by exact Ha.
      cbn [app attr_run]. unfold attr_step at 1. cbn [a_state a_name a_dict a_value a_quote a_escape length Nat.eqb]. change (0 =? 0) with true. cbn iota.
      replace ((q =? 59) || (q =? 44)) with false by lia. replace (true && ((q =? 39) || (q =? 34))) with true by lia.
      rewrite (run_quoted q t v Hq HQ d (solid n) []) by exact HL.
      cbn [app attr_run]. unfold attr_step at 1. cbn [a_state a_name a_dict a_value a_quote a_escape].
      replace (q =? 0) with false by lia. replace (q =? 92) with false by lia. rewrite N.eqb_refl. rewrite trim_solid.
      apply run_after. exact Hb.
    + reflexivity.
    + intros c u -> Hc. cbn [attr_run]. unfold attr_step. cbn [a_state a_name a_dict a_value a_quote a_escape].
      replace ((c =? 59) || (c =? 44)) with true by lia. reflexivity.
Qed.

Lemma complete s fs : Attrs s fs -> forall d, fin (attr_run (st0 d) s) = Some (stored d fs).
Proof.
  induction 1 as [s fs H|s fs c t gs H Hc _ IH]; intros d.
  - destruct (attr_reach s fs H d []) as (st & E1 & E2 & _). rewrite app_nil_r in E1. rewrite E1. exact E2.
  - destruct (attr_reach s fs H d (c :: t)) as (st & E1 & E2 & E3). rewrite E1, (E3 c t eq_refl Hc), IH, stored_app. reflexivity.
Qed.

Lemma parse_iff s d : parse_header_attributes s = Some d <-> exists fs, AttributeList s fs /\ d = stored [] fs.
Proof.
  unfold parse_header_attributes, MAX_HEADER_ATTRIBUTES_SIZE, AttributeList. fold (fin (attr_run (mkA [] PName [] [] 0 false) s)).
  change (mkA [] PName [] [] 0 false) with (st0 []). split.
  - destruct (65536 <? len s) eqn:E; [discriminate|]. intros H. destruct (sound s [] d) as (HN & _).
    destruct (HN [] ltac:(constructor) ltac:(vm_compute; discriminate) H) as (fs & F1 & F2). cbn [app] in F1.
    exists fs. unfold len in E. refine (conj (conj _ F1) F2). lia.
  - intros (fs & [HL HA] & ->). replace (65536 <? len s) with false by (unfold len; lia). apply complete. exact HA.
Qed.

(** the octets of the result are octets of the text *)
Lemma solid_bytes s : bytes_ok s -> bytes_ok (solid s).
Proof. unfold bytes_ok, solid. intros H. apply Forall_forall. intros c Hc. apply filter_In in Hc as [Hc _]. rewrite Forall_forall in H. auto. Qed.
Lemma quoted_bytes q t v : Quoted q t v -> bytes_ok t -> bytes_ok v.
Proof. unfold bytes_ok. induction 1; intros HB; repeat match goal with H : Forall _ (_ :: _) |- _ => inversion H; subst; clear H end; auto. Qed.
Lemma attr_bytes s fs : Attr s fs -> bytes_ok s -> Forall (fun f => bytes_ok (fst f) /\ bytes_ok (snd f)) fs.
Proof.
  unfold bytes_ok. intros H HB. inversion H as [|n HN|n w v HN HT|n a q t b v HN Ha Hq HQ]; subst; constructor; try constructor; cbn [fst snd].
  - now apply solid_bytes.
  - constructor.
  - apply Forall_app in HB as [HB _]. now apply solid_bytes.
  - apply Forall_app in HB as [_ HB]. apply Forall_app in HB as [_ HB]. destruct HT as (x & y & E & _). subst w. rewrite !Forall_app in HB. tauto.
  - apply Forall_app in HB as [HB _]. now apply solid_bytes.
  - rewrite !Forall_app in HB. apply (quoted_bytes q t v HQ). unfold bytes_ok. tauto.
Qed.
Lemma attrs_bytes s fs : Attrs s fs -> bytes_ok s -> Forall (fun f => bytes_ok (fst f) /\ bytes_ok (snd f)) fs.
Proof.
  induction 1 as [s fs H|s fs d t gs H Hd _ IH]; intros HB; [eapply attr_bytes; eauto|].
  unfold bytes_ok in HB. apply Forall_app in HB as [H1 H2]. inversion H2; subst. apply Forall_app. split; [eapply attr_bytes; eauto|auto].
Qed.

Lemma stored_get fs : forall d k, bytes_ok k -> Forall (fun f : field => bytes_ok (fst f) /\ bytes_ok (snd f)) fs -> Forall (fun e => bytes_ok (fst e)) d ->
  cookie_get (stored d fs) k = match cookie_get d k with Some x => Some x | None => option_map snd (find (fun f => iequals k (fst f)) fs) end.
Proof.
  induction fs as [|[n v] fs IH]; intros d k Hk HF HD; cbn [stored fold_left find option_map].
  - destruct (cookie_get d k); reflexivity.
  - inversion HF as [|? ? [F1 F2] F3]; subst. cbn [fst snd] in *. fold (stored (emplace d n v) fs).
    rewrite IH by (auto using emplace_keys). rewrite get_emplace by auto. destruct (cookie_get d k); [reflexivity|].
    destruct (iequals k n); reflexivity.
Qed.
Lemma first_iff fs k v : bytes_ok k -> Forall (fun f : field => bytes_ok (fst f) /\ bytes_ok (snd f)) fs ->
  (option_map snd (find (fun f => iequals k (fst f)) fs) = Some v <-> First fs k v).
Proof.
  intros Hk. induction fs as [|[n w] fs IH]; intros HF; cbn [find option_map].
  - split; [discriminate|]. intros (a & n & b & E & _). destruct a; discriminate.
  - inversion HF as [|? ? [F1 F2] F3]; subst. cbn [fst snd] in *. destruct (iequals k n) eqn:E.
    + apply (proj1 (iequals_spec _ _ Hk F1)) in E. cbn [option_map snd]. split.
      * intros H. injection H as ->. exists [], n, fs. refine (conj eq_refl (conj _ (Forall_nil _))). symmetry. exact E.
      * intros (a & m & b & E2 & E3 & E4). destruct a as [|f a]; [injection E2 as -> -> ->; reflexivity|].
        injection E2 as <- _. inversion E4 as [|? ? H4 _]; subst. exfalso. apply H4. symmetry. exact E.
    + rewrite IH by assumption. assert (HN : ~ SameName n k).
      { intros HS. symmetry in HS. apply (proj2 (iequals_spec _ _ Hk F1)) in HS. congruence. }
      split; intros (a & m & b & E2 & E3 & E4).
      * exists ((n, w) :: a), m, b. subst fs. refine (conj eq_refl (conj E3 _)). constructor; assumption.
      * destruct a as [|f a]; [injection E2 as -> -> ->; contradiction|]. injection E2 as <- ->. exists a, m, b.
        inversion E4; subst. auto.
Qed.
