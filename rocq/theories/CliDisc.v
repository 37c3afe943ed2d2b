(** disconnect() called from outside any callback. *)
From Verif Require Import Base UtilModel CliModel CliSpec CliProofs CliMoves CliInv CliBatch2 CliConn CliCorr.
Local Open Scope nat_scope.

Definition Suf (b l : list frame) : Prop := exists k, l = k ++ b.
Lemma suf_cons b f l : Suf b l -> Suf b (f :: l). Proof. intros (k & ->). exists (f :: k). reflexivity. Qed.
Lemma suf_app b k : Suf b (k ++ b). Proof. now exists k. Qed.
Definition Off (b : list frame) (s : st) : Prop := s_connected s = false /\ s_active s = None /\ Suf b (s_stack s).
Ltac suf := repeat first [ assumption | apply suf_app | (exists []; reflexivity) | apply suf_cons ].
Lemma off_api b s a k : s_connected s = false -> s_active s = None -> s_stack s = FUser :: k ++ b -> Off b (api s a).
Proof.
  ds s. sg. intros -> -> ->. destruct a; unf; sg; cbn zeta; sg; explode1; unfold Off; sg; (refine (conj _ (conj _ _)); [reflexivity|reflexivity|suf]).
Qed.
Lemma off_exec b s f k ch : s_connected s = false -> s_active s = None -> s_stack s = f :: k ++ b -> later s (LRun ch) -> Off b (exec (set_stack s (k ++ b)) f ch).
Proof.
  intros H1 H2 H3 HL. unfold later in HL. rewrite H3 in HL. revert H1 H2 HL. clear H3. ds s. sg. intros -> -> HL.
  destruct f; unf; sg; cbn zeta; sg; explode1; unfold Off; sg; try (refine (conj _ (conj _ _)); [reflexivity|reflexivity|suf]).
  all: try (exfalso; now apply (HL eq_refl (k ++ b))).
  all: discriminate.
Qed.
Definition Stage (s : st) : Prop :=
  s_connected s = false /\
  (s_stack s = [FFailActive 503; FFailAll 503; FClose; FReset] \/
   (s_active s = None /\
    (Suf [FFailAll 503; FClose; FReset] (s_stack s) \/
     (s_pending s = [] /\ (s_stack s = [FClose; FReset] \/ s_stack s = [FReset] \/ (s_stack s = [] /\ s_conn s = None)))))).
Lemma suf_inv b f k l : Suf b l -> l = f :: k -> (l = b) \/ exists k', k = k' ++ b.
Proof. intros ([|g k'] & ->) E; [now left|]. injection E as -> <-. right. eauto. Qed.
Lemma stage_step s l s' : Depth s -> Stage s -> later s l -> s_stack s <> [] -> step s l = Some s' -> Stage s'.
Proof.
  intros HD (HC & HS) HL HQ E. destruct HS as [HS|(HA & HS)].
  - (* the active request *)
    unfold step in E. rewrite HS in E. destruct l; try discriminate E. injection E as <-. cbn [exec]. unfold fail_active. sg.
    destruct (s_active s) as [x|] eqn:EA; (split; [exact HC|]); right; sg; (split; [try reflexivity; exact EA|]); left ; suf.
  - destruct HS as [HS|(HP & HS)].
    + (* a callback, or the next request *)
      destruct (s_stack s) as [|f k] eqn:EK; [contradiction|]. destruct (suf_inv _ f k _ HS eq_refl) as [HB|(k' & ->)].
      * injection HB as -> ->. unfold step in E. rewrite EK in E. destruct l; try discriminate E. injection E as <-. cbn [exec]. sg.
        destruct (s_pending s) as [|x r] eqn:EP; sg; (split; [exact HC|]); right; sg; (split; [exact HA|]).
        -- right. split; [exact EP|]. now left.
        -- left. suf.
      * assert (HO : Off [FFailAll 503; FClose; FReset] s').
        { unfold step in E. rewrite EK in E. destruct l as [a| |ch|e].
          - destruct f; try discriminate E. injection E as <-. eapply off_api; eauto.
          - destruct f; try discriminate E. injection E as <-. unfold Off. sg. refine (conj HC (conj HA _)). apply suf_app.
          - assert (E' : Some (exec (set_stack s (k' ++ [FFailAll 503; FClose; FReset])) f ch) = Some s') by (destruct f; auto; discriminate E). injection E' as <-.
            now apply off_exec.
          - destruct f; discriminate E. }
        destruct HO as (H1 & H2 & H3). split; [exact H1|]. right. split; [exact H2|]. now left.
    + unfold step in E. destruct HS as [HS|[HS|[HS _]]]; [| |contradiction]; rewrite HS in E; destruct l; try discriminate E; injection E as <-.
      * cbn [exec]. sg. unfold Stage. destruct ch; [|destruct (s_conn s)|destruct (s_conn s)]; sg; (split; [exact HC|]); right; (split; [exact HA|]); right; (split; [exact HP|]); right; now left.
      * unfold Depth in HD. rewrite HS in HD. cbn [exec]. sg. rewrite HD. cbn [tot map list_sum fold_right scoped Nat.add Nat.eqb]. unfold Stage, destroy. sg.
        destruct (s_conn s); sg; (split; [exact HC|]); right; (split; [exact HA|]); right; (split; [exact HP|]); right; right; auto.
Qed.
Lemma stage_returns ls : forall s s', Depth s -> Stage s -> obeys later s ls -> returns s ls s' -> Stage s' /\ quiet s'.
Proof.
  induction ls as [|l ls IH]; cbn [returns obeys]; intros s s' HD HS HO HR; [destruct HR as [HQ <-]; auto|].
  destruct HR as (HQ & s1 & E & HR). destruct HO as [HL HO]. rewrite E in HO. apply (IH s1); auto; [eapply depth_step; eauto|eapply stage_step; eauto].
Qed.
