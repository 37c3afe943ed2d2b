(** The stream contexts of the HTTP/2 client agree with the chronicle, step by step. *)
From Verif Require Import Base UtilModel HpackTables HpackModel HpackSpec DynTableProofs HpackCodecProofs HpackConnProofs
  H2Model H2Proofs H2FieldModel H2ClientModel H2ClientSpec H2ClientSteps.
From Verif Require H2ServerSteps.
Local Open Scope N_scope.

Lemma neutral_quiet f s k : quiet_in f s -> neutral k (LIn f).
Proof. unfold quiet_in, neutral, payload_octets. destruct (fr_pl f); tauto. Qed.
Lemma agree_same s s' l0 : agree s -> cl_log s' = l0 ++ cl_log s -> (forall k i, In i l0 -> neutral k i) -> cl_next s <= cl_next s' ->
  (forall k y, cget s' k = Some y -> cget s k = Some y) -> agree s'.
Proof. intros A EL HN HX HS. eapply agree_log; eauto. intros k y G R. exists y. split; [auto|]. repeat (split; [first [reflexivity|assumption]|]). auto. Qed.
Lemma agree_put s s' l0 sid x y : agree s -> cget s sid = Some x -> cl_log s' = l0 ++ cl_log s -> (forall k i, In i l0 -> neutral k i) -> cl_next s <= cl_next s' ->
  cl_streams s' = put_cs (cl_streams s) sid y ->
  (cs_rsts y = false -> cs_rsts x = false /\
     cs_app y = cs_app x /\ cs_method y = cs_method x /\ cs_body y = cs_body x /\ cs_hdrs y = cs_hdrs x /\ cs_main y = cs_main x /\
     cs_status y = cs_status x /\ cs_clen y = cs_clen x /\ (cs_endr y = true -> cs_endr x = true \/ ended sid (cl_log s'))) -> agree s'.
Proof.
  intros A G EL HN HX HS HY. eapply agree_log; eauto. intros k z GZ R. unfold cget in *. rewrite HS, find_put, G in GZ.
  destruct (N.eqb_spec k sid) as [->|NE].
  - injection GZ as <-. exists x. split; [exact G|]. exact (HY R).
  - exists z. split; [exact GZ|]. repeat (split; [first [reflexivity|assumption]|]). auto.
Qed.
Lemma neutral_one j : (forall k, neutral k j) -> forall k i, In i [j] -> neutral k i.
Proof. intros H k i [<-|[]]. apply H. Qed.
Ltac one := apply neutral_one; let k := fresh "k" in intros k.
Ltac dead := intros A; exfalso; unfold calive in A; fields; cbn [andb] in A; rewrite ?andb_false_r in A; congruence.

Lemma mv_agreed s s' : wf s -> agreed s -> mv s s' -> agreed s'.
Proof.
  intros W AG H. unfold agreed in AG. destruct H.
  - intros A. specialize (AG A). eapply (agree_same s _ []); auto; try reflexivity; intros ? ? [].
  - intros A. specialize (AG A). eapply (agree_same s _ [_]); auto; try reflexivity; one; exact I.
  - intros A. specialize (AG A). eapply (agree_same s _ [_]); auto; try reflexivity; one; exact I.
  - intros A. specialize (AG A). eapply (agree_same s _ [_]); auto; try reflexivity; one. eapply neutral_quiet; eauto.
  - intros A. specialize (AG A). eapply (agree_same s _ [_]); auto; try reflexivity; one. intros _. unfold payload_octets. rewrite H. reflexivity.
  - intros A. unfold calive in A. rewrite H3, andb_false_r in A. discriminate A.
  - intros A. unfold calive in A, H. rewrite H1, H2 in A. congruence.
  - intros A. unfold calive in A. fields. clh A. rewrite H in A. discriminate A.
  - intros A. unfold calive in A. fields. clh A. rewrite H in A. discriminate A.
  - (* mark *) intros A. specialize (AG H). constructor.
    + intros k y G R. fields. findst G; [csh R; discriminate R|]. destruct AG as [A1 A2]. apply resp_ok_notes; [|apply A1; auto].
      intros i Hi. apply in_app_iff in Hi as [Hi|[<-|Hi]]; [destruct (cs_disp x); [destruct Hi|destruct Hi as [<-|[]]; exact I]|exact I|].
      destruct H2 as [->|(f & -> & ES & _)]; [destruct Hi|]. destruct Hi as [<-|[]]. intros E. congruence.
    + intros k L O. fields. destruct AG as [A1 A2]. pose proof (w_key _ W _ _ H0) as [_ K]. destruct (w_next _ W) as (_ & L1 & _). clh L.
      assert (NS : forall i, In i ((if cs_disp x then [] else [LErr sid code]) ++ LOut (crst_frame sid code) :: pre) -> neutral k i).
      { intros i Hi. apply in_app_iff in Hi as [Hi|[<-|Hi]]; [destruct (cs_disp x); [destruct Hi|destruct Hi as [<-|[]]; exact I]|exact I|].
        destruct H2 as [->|(f & -> & ES & _)]; [destruct Hi|]. destruct Hi as [<-|[]]. intros E. lia. }
      rewrite body_neutrals, blocks_neutrals by exact NS. apply A2; auto.
  - intros A. specialize (AG H). eapply (agree_same s _ [_]); auto; try reflexivity; one; exact I.
  - intros A. specialize (AG A). destruct H2 as (B1 & B2 & B3 & B4 & B5 & B6 & B7 & B8 & B9 & B10 & B11 & B12 & B13 & B14 & B15 & B16 & B17).
    eapply (agree_put s _ [_]); [exact AG|exact H|reflexivity|one; exact I|reflexivity|reflexivity|]. intros R. split; [congruence|]. repeat (split; [assumption|]). intros E.
    destruct (B17 E); [auto|right; apply ended_cons; assumption].
  - (* data *) intros A. specialize (AG H0). destruct AG as [A1 A2]. constructor.
    + intros k y G R. fields. findst G.
      * subst k. csh R. unfold got_data. destruct (A1 _ _ H1 R) as ((q & Q1 & Q2) & B & HH & M1 & M2 & C & E). unfold resp_ok. cs. cbn [body_received blocks].
        rewrite N.eqb_refl, <- B. unfold payload_octets. rewrite H.
        split; [exists q; split; [right; exact Q1|exact Q2]|]. split; [reflexivity|]. do 4 (split; [assumption|]). intros E1. apply ended_cons, E, E1.
      * apply resp_ok_note; [|apply A1; auto]. intros E. congruence.
    + intros k L O. fields. clh L. pose proof (w_key _ W _ _ H1) as [_ K]. destruct (w_next _ W) as (_ & L1 & _).
      rewrite body_neutral, blocks_neutral; [apply A2; auto|intros E; lia|intros E; lia].
  - (* unknown data: even *) intros A. specialize (AG H0). destruct AG as [A1 A2].
    assert (NS : forall k, N.odd k = true -> forall i, In i (out ++ [LIn f]) -> neutral k i).
    { intros k O i Hi. apply in_app_iff in Hi as [Hi|[<-|[]]]; [|intros E; congruence]. destruct H3 as [-> | ->]; [destruct Hi|destruct Hi as [<-|[]]; exact I]. }
    constructor.
    + intros k y G R. fields. apply resp_ok_notes; [|apply A1; auto]. apply NS. apply (w_key _ W _ _ G).
    + intros k L O. fields. rewrite body_neutrals, blocks_neutrals by (apply NS, O). apply A2; auto.
  - intros A. specialize (AG H). destruct (csend_wu_cases 0 (cl_cproc s) s) as [->|[-> _]];
      [eapply (agree_same s _ []); auto; try reflexivity; intros ? ? []|eapply (agree_same s _ [_]); auto; try reflexivity; one; exact I].
  - intros A. specialize (AG H). eapply (agree_put s _ [_]); [exact AG|exact H0|reflexivity|one; exact I|reflexivity|reflexivity|]. cs. intros R. repeat (split; [first [reflexivity|assumption]|]). auto.
  - intros A. specialize (AG H0). eapply (agree_same s _ [_]); auto; try reflexivity; one. intros _. unfold payload_octets. rewrite H. reflexivity.
  - intros A. specialize (AG H0). eapply (agree_put s _ [_]); [exact AG|exact H2|reflexivity| |reflexivity|reflexivity|].
    + one. intros _. unfold payload_octets. rewrite H. reflexivity.
    + cs. intros R. repeat (split; [first [reflexivity|assumption]|]). auto.
  - intros A. specialize (AG A). destruct H0 as (B1 & B2 & B3 & B4 & B5 & B6 & B7 & B8 & B9 & B10 & B11 & B12 & B13 & B14 & B15 & B16 & B17).
    eapply (agree_put s _ []); [exact AG|exact H|reflexivity|intros ? ? []|reflexivity|reflexivity|]. intros R. split; [congruence|]. repeat (split; [assumption|]). exact B17.
  - intros A. specialize (AG A). eapply (agree_put s _ [_]); [exact AG|exact H|reflexivity|one; exact I|reflexivity|reflexivity|]. cs. intros R. repeat (split; [first [reflexivity|assumption]|]). auto.
  - intros A. specialize (AG A). eapply (agree_same s _ []); auto; try reflexivity; [intros ? ? []|]. intros k y G. unfold cerase in G. findst G. exact G.
  - intros A. specialize (AG H). eapply (agree_same s _ []); auto; try reflexivity; [intros ? ? []|]. cl. lia.
  - (* open *) intros A. specialize (AG H). destruct AG as [A1 A2]. destruct (w_next _ W) as (O & L & D).
    set (new := rev (map LOut (send_headers (cl_next s) (open_flags r) (cl_pmax s) block)) ++ [LReq (cl_next s) app r]) in *.
    assert (NS : forall k i, In i new -> neutral k i).
    { intros k i Hi. unfold new in Hi. apply in_app_iff in Hi as [Hi|[<-|[]]]; [|exact I]. rewrite <- in_rev in Hi. apply in_map_iff in Hi as (f & <- & _). exact I. }
    constructor.
    + intros k y G R. unfold addlog in *. findst G.
      * subst k. cl. destruct (A2 (cl_next s)) as [B1 B2]; [lia|exact O|]. unfold resp_ok. rewrite body_neutrals, blocks_neutrals, B1, B2 by apply NS.
        assert (OP : cs_app (opened r app s) = app /\ cs_method (opened r app s) = q_method r /\ cs_body (opened r app s) = [] /\ cs_hdrs (opened r app s) = [] /\
                     cs_main (opened r app s) = false /\ cs_endr (opened r app s) = false) by (unfold opened; destruct (_ || _); cs; repeat split).
        destruct OP as (O1 & O2 & O3 & O4 & O5 & O6). rewrite O1, O2, O3, O4, O5, O6.
        split; [exists r; split; [apply in_app_iff; left; unfold new; apply in_app_iff; right; left; reflexivity|reflexivity]|].
        do 2 (split; [reflexivity|]). split; [discriminate|]. split; [reflexivity|]. split; [intros v []|discriminate].
      * cl. apply resp_ok_notes; [apply NS|]. apply A1; auto.
    + unfold addlog. cl. intros k LK OK. rewrite body_neutrals, blocks_neutrals by apply NS. apply A2; [lia|exact OK].
  - intros A. specialize (AG H). eapply (agree_put s _ [_]); [exact AG|exact H0|reflexivity|one; exact I|reflexivity|reflexivity|]. unfold sent_chunk. destruct fin; cs; intros R; repeat (split; [first [reflexivity|assumption]|]); auto.
  - intros A. specialize (AG H). eapply (agree_put s _ [_]); [exact AG|exact H0|reflexivity|one; exact I|reflexivity|reflexivity|]. cs; intros R; repeat (split; [first [reflexivity|assumption]|]); auto.
  - intros A. specialize (AG H). assert (P : cl_streams s' = cl_streams s /\ cl_log s' = cl_log s /\ cl_next s' = cl_next s).
    { subst s'. destruct (id =? 1); [destruct (enc_set_peer_max _ _); auto|]. destruct (id =? 3); [auto|]. destruct (id =? 5); auto. }
    destruct P as (P1 & P2 & P3). eapply (agree_same s _ [_]); auto; fields; rewrite ?P2, ?P3; try reflexivity; [one; exact I|]. intros k y G. unfold cget in *. clh G. rewrite P1 in G. exact G.
  - intros A. specialize (AG H). eapply (agree_log s _ [_]); auto; try reflexivity; [one; exact I|]. intros k y G R. unfold cget in *. clh G. rewrite find_shift in G.
    destruct (find_cs (cl_streams s) k) as [x|] eqn:E; [|discriminate]. cbn [option_map] in G. injection G as <-. exists x. split; [reflexivity|].
    unfold cshift in *. cbn [fst snd] in *. destruct (N.odd k); cbn [snd] in *; csh R; cs; repeat (split; [first [reflexivity|assumption]|]); auto.
  - intros A. specialize (AG H). eapply (agree_same s _ [_]); auto; try reflexivity; one; exact I.
  - intros A. specialize (AG H). eapply (agree_same s _ []); auto; try reflexivity; intros ? ? [].
  - intros A. specialize (AG H0). eapply (agree_same s _ [_]); auto; try reflexivity; one. intros _. unfold payload_octets. rewrite H. reflexivity.
  - (* block *) intros A. specialize (AG H). destruct AG as [A1 A2].
    destruct (parse_same _ _ _ _ H2) as (B1 & B2 & B3 & B4 & B5 & B6 & B7 & B8 & B9 & B10 & B11 & B12 & B13 & B14 & _).
    destruct (parse_head_spec _ _ _ _ H2) as (P1 & P2 & P3 & P4).
    constructor.
    + intros k z G R. fields. findst G.
      * subst k. csh R. destruct (A1 _ _ H0 H1) as ((q & Q1 & Q2) & B & HH & M1 & M2 & C & E). unfold resp_ok. cs. cbn [body_received blocks]. rewrite N.eqb_refl.
        rewrite B4, B5, B11, B13, P1, HH. rewrite flat_map_app. cbn [flat_map]. rewrite app_nil_r.
        split; [exists q; split; [right; exact Q1|exact Q2]|]. split; [exact B|]. split; [reflexivity|].
        split; [intros _|].
        -- destruct (cs_main x) eqn:MX.
           ++ destruct (M1 eq_refl) as ((fs0 & rest & E1 & E2) & E3). rewrite P4. split; [|exact E3]. exists fs0, (rest ++ [fs]). rewrite E1. auto.
           ++ destruct P4 as [P4 P5]. rewrite (M2 eq_refl). split; [|exact P5]. exists fs, []. auto.
        -- split; [discriminate|]. split.
           ++ intros v Hv. rewrite <- HH in Hv. apply in_app_iff in Hv as [Hv|Hv]; [|auto]. destruct (C v Hv) as (n & N1 & N2). exists n. auto.
           ++ intros E1. apply ended_cons, E, E1.
      * apply resp_ok_note; [|apply A1; auto]. cbn [neutral]. congruence.
    + intros k L O. fields. clh L. pose proof (w_key _ W _ _ H0) as [_ K]. destruct (w_next _ W) as (_ & L1 & _).
      assert (KS : sid <> k) by (clear - K L1 L; lia).
      rewrite body_neutral, blocks_neutral; [apply (A2 k L O)|exact KS|exact KS].
  - intros A. unfold calive in A. clh A. discriminate A.
  - intros A. specialize (AG A). eapply (agree_same s _ []); auto; try reflexivity; intros ? ? [].
Qed.
Lemma mvs_agreed s s' : wf s -> agreed s -> mvs s s' -> agreed s'.
Proof. intros W AG H. induction H; auto. apply IHmvs; [eapply mv_wf; eauto|]. eapply mv_agreed; eauto. Qed.

Definition good (s : client) : Prop := wf s /\ agreed s.
Lemma mvs_good s s' : good s -> mvs s s' -> good s'.
Proof. intros [W AG] H. split; [eapply mvs_wf; eauto|eapply mvs_agreed; eauto]. Qed.
