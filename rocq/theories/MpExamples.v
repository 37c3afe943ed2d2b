(** Concrete cases of C105-C110, and what does not hold. *)
From Verif Require Import Base UtilModel Http1Model UtilSpec CookieSpec H2FieldSpec Http1Spec Http1Proofs UtilProofs RecvModel RecvSpec RecvInv RecvFrame CookieModel HdrModel HdrSpec HdrProofs HdrProps MpModel MpSpec MpAuto MpRefine MpRefine2 MpDoc MpSafe MpReader MpProps MpProps2.
Local Open Scope nat_scope.

Definition ex_bd : list N := str "b".
Lemma ex_boundary : BoundaryText ex_bd. Proof. split; [cbn; lia|repeat constructor; discriminate]. Qed.
Lemma absent_delimiter (s : list N) : (existsb (N.eqb 13) s = false) -> ~ Contains (delimiter ex_bd) s.
Proof.
  intros H (x & y & E). assert (HI : In 13%N s) by (rewrite E; apply in_or_app; right; now left). assert (HX : existsb (N.eqb 13) s = true) by (apply existsb_exists; exists 13%N; auto). congruence.
Qed.
Definition ex_parts : list part := [mkP [(str "Content-Disposition", [str "form-data; name=a"]); (str "Content-Type", [str "text/plain"])] (str "--b"); mkP [] (str "x")].
Definition ex_text : list N := match put_multipart ex_bd ex_parts with Some t => t | None => [] end.
Lemma ex_document : Document ex_bd (map dpart_of ex_parts) ex_text.
Proof.
  destruct (put_parts ex_bd ex_parts ltac:(discriminate)) as (r & E & HP).
  { repeat constructor; try reflexivity; try (cbn; discriminate); apply absent_delimiter; reflexivity. }
  exists r. split; [|exact HP]. rewrite <- E. reflexivity.
Qed.
Example ex_read : exists s, feeds (stored_boundary ex_bd) (set_boundary ex_bd) [firstn 7 ex_text; firstn 60 (skipn 7 ex_text); skipn 67 ex_text] = Some s /\ m_state s = MEnd /\ flat (m_evs s) = document_tokens (map dpart_of ex_parts).
Proof. apply (document_read ex_bd (map dpart_of ex_parts) ex_text); [apply ex_boundary|apply ex_document|]. cbn [concat]. rewrite app_nil_r. now rewrite <- (firstn_skipn 7 ex_text) at 4. Qed.
Example ex_roundtrip : exists qs, as_multipart ex_text = Some (ex_bd, qs) /\ Forall2 SamePart ex_parts qs.
Proof.
  apply put_then_read; [reflexivity|discriminate| |cbv; discriminate|cbv; discriminate]. constructor; [|constructor; [|constructor]]; unfold PlainPart.
  - split; [|split; [|split; [vm_compute; auto|apply absent_delimiter; reflexivity]]].
    + split; [repeat constructor; discriminate|]. cbn. repeat constructor; cbn; intros H; repeat destruct H as [H|H]; try discriminate H; auto.
    + repeat constructor; cbn; discriminate.
  - split; [|split; [|split; [vm_compute; auto|apply absent_delimiter; reflexivity]]].
    + split; constructor.
    + constructor.
Qed.
Example ex_length : length ex_text = content_length_of ex_bd ex_parts. Proof. apply (length_announced ex_bd ex_parts). reflexivity. Qed.
Example ex_wrong_first : exists s, feeds (stored_boundary ex_bd) (set_boundary ex_bd) [str "--bX"; str "more"] = Some s /\ m_state s = MError.
Proof. apply (wrong_first_line ex_bd (str "--bXmore")); [apply ex_boundary|reflexivity| |]; intros r; discriminate. Qed.
Example ex_limits : exists bd ps, as_multipart ex_text = Some (bd, ps) /\ length ps = 2.
Proof. destruct ex_roundtrip as (qs & E & HF). exists ex_bd, qs. split; [exact E|]. inversion HF as [|? ? ? ? _ HF2]; inversion HF2 as [|? ? ? ? _ HF3]; inversion HF3; subst; reflexivity. Qed.
Example ex_feeding : exists s, Feeding ex_bd s /\ ~ In EEnd (m_evs s) /\ m_state s = MField.
Proof. eexists. split; [eapply (feeding_more ex_bd _ (firstn 20 ex_text)); [constructor|intros []|vm_compute; reflexivity]|]. split; [|reflexivity]. cbn [m_evs]. intros H. repeat destruct H as [H|H]; try discriminate H; exact H. Qed.
Example ex_boundary_found : parse_boundary (str "Multipart/Form-Data; boundary=""a b"" ; x=1") = BOk (str "a b"). Proof. vm_compute. reflexivity. Qed.
Example ex_boundary_none : parse_boundary (str "text/plain; boundary=a") = BNone /\ parse_boundary (str "multipart/form-data; x=1") = BNone /\ parse_boundary (str "multipart/form-data; boundary=a#") = BThrow. Proof. vm_compute. auto. Qed.

(** bytes after the end, in the same call, make the parser forget that it has finished *)
Definition EndIsKept : Prop := forall bd ps text more, BoundaryText bd -> Document bd ps text -> exists s, feed (stored_boundary bd) (set_boundary bd) (text ++ more) = Fed s /\ m_state s = MEnd.
Theorem end_is_kept_refuted : ~ EndIsKept.
Proof. intros H. destruct (H ex_bd _ ex_text crlf ex_boundary ex_document) as (s & E & HS). vm_compute in E. injection E as <-. discriminate HS. Qed.
(** with a header line without a colon the events depend on how the input is cut *)
Definition CuttingNeverVisible : Prop := forall bd p1 p2 s1 s2, BoundaryText bd -> concat p1 = concat p2 ->
  feeds (stored_boundary bd) (set_boundary bd) p1 = Some s1 -> feeds (stored_boundary bd) (set_boundary bd) p2 = Some s2 -> flat (m_evs s1) = flat (m_evs s2).
Theorem cutting_never_visible_refuted : ~ CuttingNeverVisible.
Proof.
  intros H. destruct (feeds (stored_boundary ex_bd) (set_boundary ex_bd) [str "--b" ++ crlf ++ str "ab" ++ crlf]) as [s1|] eqn:E1; [|vm_compute in E1; discriminate E1].
  destruct (feeds (stored_boundary ex_bd) (set_boundary ex_bd) [str "--b" ++ crlf ++ str "a"; str "b" ++ crlf]) as [s2|] eqn:E2; [|vm_compute in E2; discriminate E2].
  specialize (fun e => H ex_bd _ _ s1 s2 ex_boundary e E1 E2) as H1; specialize (H1 eq_refl). vm_compute in E1, E2. injection E1 as <-. injection E2 as <-. discriminate H1.
Qed.
(** delimiter text followed by a lone CR hides the closing delimiter *)
Definition CloseIsSeen : Prop := forall bd body, BoundaryText bd -> ~ Contains (delimiter bd ++ str "--") body -> ~ Contains (delimiter bd ++ crlf) body ->
  exists s, feed (stored_boundary bd) (set_boundary bd) (str "--" ++ bd ++ crlf ++ crlf ++ body ++ delimiter bd ++ str "--") = Fed s /\ m_state s = MEnd.
Theorem close_is_seen_refuted : ~ CloseIsSeen.
Proof.
  intros H. destruct (H ex_bd (delimiter ex_bd ++ [13; 88]%N) ex_boundary) as (s & E & HS).
  - intros (x & y & E). do 7 (destruct x as [|? x]; [discriminate E|injection E as _ E]). destruct x; discriminate E.
  - intros (x & y & E). do 7 (destruct x as [|? x]; [discriminate E|injection E as _ E]). destruct x; discriminate E.
  - vm_compute in E. injection E as <-. discriminate HS.
Qed.
(** a body that stops in the middle of a part is accepted *)
Definition TruncatedIsRefused : Prop := forall bd ps text t rest, BoundaryText bd -> Document bd ps text -> text = t ++ rest -> rest <> [] -> as_multipart t = None.
Theorem truncated_is_refused_refuted : ~ TruncatedIsRefused.
Proof.
  intros H. assert (HX : as_multipart (firstn 90 ex_text) = None) by (apply (H ex_bd _ ex_text _ (skipn 90 ex_text) ex_boundary ex_document); [now rewrite firstn_skipn|vm_compute; discriminate]). vm_compute in HX. discriminate HX.
Qed.
(** a multipart without parts is written as something that is not read back *)
Definition EmptyReadsBack : Prop := forall bd text, put_multipart bd [] = Some text -> as_multipart text = Some (bd, []).
Theorem empty_reads_back_refuted : ~ EmptyReadsBack.
Proof. intros H. specialize (H ex_bd _ eq_refl). vm_compute in H. discriminate H. Qed.
(** several Content-Type values of a part do not survive *)
Definition ValuesReadBack : Prop := forall bd ps text, put_multipart bd ps = Some text -> ps <> [] -> Forall (fun p => HeaderMap (p_headers p) /\ p_body p = []) ps ->
  exists qs, as_multipart text = Some (bd, qs) /\ Forall2 SamePart ps qs.
Theorem values_read_back_refuted : ~ ValuesReadBack.
Proof.
  intros H. destruct (H ex_bd [mkP [(str "Content-Type", [str "a"; str "b"])] []] _ eq_refl ltac:(discriminate)) as (qs & E & HF).
  { constructor; [|constructor]. split; [|reflexivity]. split; [repeat constructor; discriminate|]. cbn. repeat constructor. intros []. }
  vm_compute in E. injection E as <-. inversion HF as [|? ? ? ? (_ & HV) _]; subst. specialize (HV (str "Content-Type")). vm_compute in HV. discriminate HV.
Qed.
