(** Every event of the HTTP/2 client is a sequence of elementary steps, so an invariant of the steps is one of every run. *)
From Verif Require Import Base UtilModel HpackTables HpackModel HpackSpec DynTableProofs HpackCodecProofs HpackConnProofs
  H2Model H2Proofs H2FieldModel H2ClientModel H2ClientSpec H2ClientSteps H2ClientAgree H2ClientHandlers H2ClientFrames.
From Verif Require H2ServerSteps.
Local Open Scope N_scope.

Lemma with_script_fine script g s : Forall (Forall is_send) script -> good s -> clean s ->
  (forall K s1, KH K -> good s1 -> clean s1 -> cl_ok s1 = cl_ok s -> fine s1 (g K s1)) -> fine s (with_script script g s).
Proof.
  intros FS G C H. unfold with_script.
  assert (M : mv s (set_cl_script script s)) by (apply m_script; auto).
  apply (fine_after _ _ _ (ms_one _ _ M)). destruct (H (callback (length script)) (set_cl_script script s) (callback_KH _) (mvs_good _ _ G (ms_one _ _ M)) C eq_refl) as [M1 C1].
  split; [|exact C1]. eapply ms_app; [exact M1|]. apply ms_one, m_script. intros _. apply Forall_nil.
Qed.
Lemma cstep_fine s e : good s -> clean s -> event_ok e -> fine s (cstep s e).
Proof.
  intros G C E. destruct e as [f script ord|c script|]; cbn [cstep event_ok] in *.
  - destruct E as [E1 E2]. destruct (cl_ok s) eqn:O; [|apply fine_refl, C]. apply with_script_fine; auto.
    intros K s1 HK G1 C1 O1. apply frame_fine; auto; congruence.
  - destruct E as [E1 E2]. apply with_script_fine; auto. intros K s1 HK G1 C1 _. destruct c as [r app|]; [|destruct E1]. cbn [run_ccmd].
    destruct (send_request_steps K HK r app s1 G1) as [M A]. split; [exact M|]. exact (aft_clean _ _ _ C1 A).
  - split; [apply ms_one, m_notok|]. apply (clean_dead_same s); auto.
Qed.
Lemma good_start : good client_start.
Proof.
  split.
  - constructor; try discriminate.
    + exists []. apply dwf_init.
    + split; [exists []; apply dwf_init|reflexivity].
    + apply Forall_nil.
    + reflexivity.
    + split; [reflexivity|split; [reflexivity|right; reflexivity]].
    + intros k _. reflexivity.
    + apply Forall_nil.
  - intros _. constructor; [discriminate|]. intros k _ _. split; reflexivity.
Qed.
Lemma clean_start : clean client_start.
Proof. split; [discriminate|reflexivity]. Qed.

Lemma run_fine es : Forall event_ok es -> forall s, good s -> clean s -> fine s (fold_left cstep es s).
Proof.
  induction 1 as [|e es E F IH]; intros s G C; [apply fine_refl, C|]. cbn [fold_left]. destruct (cstep_fine s e G C E) as [M C1].
  apply (fine_after _ _ _ M). apply IH; auto. exact (mvs_good _ _ G M).
Qed.
Theorem crun_steps es : Forall event_ok es -> mvs client_start (crun es) /\ good (crun es) /\ clean (crun es).
Proof.
  intros F. destruct (run_fine es F client_start good_start clean_start) as [M C]. split; [exact M|]. split; [|exact C]. exact (mvs_good _ _ good_start M).
Qed.
(** An invariant of the elementary steps holds after every run. *)
Lemma mvs_inv (I : client -> Prop) : (forall s s', good s -> I s -> mv s s' -> I s') -> forall s s', mvs s s' -> good s -> I s -> I s'.
Proof.
  intros ST s s' M. induction M as [s|s s1 s2 M1 M2 IH]; auto. intros G HI. apply IH; [exact (mvs_good _ _ G (ms_one _ _ M1))|]. eapply ST; eauto.
Qed.
Lemma crun_inv (I : client -> Prop) es : Forall event_ok es -> I client_start -> (forall s s', good s -> I s -> mv s s' -> I s') -> I (crun es).
Proof. intros F I0 ST. destruct (crun_steps es F) as (M & _). exact (mvs_inv I ST _ _ M good_start I0). Qed.
