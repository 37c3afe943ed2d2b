(** Invariants of the elementary steps of the HTTP/2 client. *)
From Verif Require Import Base UtilModel HpackTables HpackModel HpackSpec DynTableProofs HpackCodecProofs HpackConnProofs
  H2Model H2Proofs H2FieldModel H2ClientModel H2ClientSpec H2ClientSteps H2ClientAgree.
From Verif Require H2ServerSteps H2Props H2FieldProps.
Local Open Scope N_scope.

Lemma always_nil (P : list citem -> Prop) : P [] -> always P [].
Proof. intros H l1 l2 E. symmetry in E. apply app_eq_nil in E as [_ ->]. exact H. Qed.
Lemma always_cons (P : list citem -> Prop) i l : always P l -> P (i :: l) -> always P (i :: l).
Proof. intros H H1 l1 l2 E. destruct l1 as [|j l1]; cbn [app] in E; [subst; exact H1|]. injection E as _ E. eapply H; eauto. Qed.
Lemma always_now (P : list citem -> Prop) l : always P l -> P l.
Proof. intros H. apply (H [] l). reflexivity. Qed.
Lemma always_app (P : list citem -> Prop) l0 l : (forall a b, l0 = a ++ b -> P (b ++ l)) -> always P l -> always P (l0 ++ l).
Proof.
  induction l0 as [|i l0 IH]; intros H A; [exact A|]. cbn [app]. apply always_cons.
  - apply IH; [|exact A]. intros a b E. apply (H (i :: a) b). rewrite E. reflexivity.
  - apply (H [] (i :: l0) eq_refl).
Qed.
Lemma total_app g l1 l2 : total g (l1 ++ l2) = total g l1 + total g l2.
Proof. induction l1; cbn [app total]; [reflexivity|]. rewrite IHl1. lia. Qed.

(** The frames that open a request: HEADERS, then CONTINUATIONs. *)
Lemma open_frames sid flags pmax block f : In f (send_headers sid flags pmax block) ->
  stream_of f = stream_of (mk_frame (mk_h 0 0 sid) (PCont [])) /\
  ((exists b, fr_pl f = PHeaders b None /\ clen b <= N.max 1 pmax) \/ (exists b, fr_pl f = PCont b /\ clen b <= N.max 1 pmax)).
Proof.
  unfold send_headers. generalize true as first. generalize (S (length block)) as n. intros n first H. revert first flags block H.
  induction n as [|n IH]; intros first flags block H; [destruct H|]. cbn [header_frames] in H.
  cbv zeta in H. destruct H as [H|H].
  - subst f. split; [destruct first; reflexivity|].
    assert (L : clen (firstn (N.to_nat (N.max 1 pmax)) block) <= N.max 1 pmax) by (unfold clen; rewrite firstn_length; lia).
    destruct first; cbn [fr_pl]; eauto.
  - destruct (match skipn _ _ with [] => true | _ => false end); [destruct H|]. eapply IH; eauto.
Qed.
Lemma open_item sid flags pmax block i : In i (rev (map LOut (send_headers sid flags pmax block))) -> exists f, i = LOut f /\ stream_of f = stream_of (mk_frame (mk_h 0 0 sid) (PCont [])) /\
  ((exists b, fr_pl f = PHeaders b None /\ clen b <= N.max 1 pmax) \/ (exists b, fr_pl f = PCont b /\ clen b <= N.max 1 pmax)).
Proof. intros H. apply in_rev, in_map_iff in H as (f & <- & Hf). exists f. split; [reflexivity|]. eapply open_frames; eauto. Qed.

(** Case analysis on a step: [steps H] leaves one goal per kind of step. *)
Definition plain (i : citem) : Prop :=
  match i with LOut f => match fr_pl f with PHeaders _ _ | PCont _ => True | _ => False end | _ => False end.
Lemma open_plain sid flags pmax block i : In i (rev (map LOut (send_headers sid flags pmax block))) -> plain i.
Proof. intros H. destruct (open_item _ _ _ _ _ H) as (f & -> & _ & [(b & B & _)|(b & B & _)]); unfold plain; rewrite B; exact I. Qed.
(** A measure of the chronicle that HEADERS and CONTINUATION frames sent do not change. *)
Lemma skip_plain {A} (g : list citem -> A) l0 l : (forall i r, plain i -> g (i :: r) = g r) -> (forall i, In i l0 -> plain i) -> g (l0 ++ l) = g l.
Proof. intros HG. induction l0 as [|i l0 IH]; intros H; [reflexivity|]. cbn [app]. rewrite HG by (apply H; left; reflexivity). apply IH. intros j Hj. apply H. right. exact Hj. Qed.
Lemma always_plain (P : list citem -> Prop) l0 l : (forall i r, plain i -> P r -> P (i :: r)) -> (forall i, In i l0 -> plain i) -> always P l -> always P (l0 ++ l).
Proof.
  intros HG. induction l0 as [|i l0 IH]; intros H A; [exact A|]. cbn [app].
  assert (B : always P (l0 ++ l)) by (apply IH; [intros j Hj; apply H; right; exact Hj|exact A]).
  apply always_cons; [exact B|]. apply HG; [apply H; left; reflexivity|apply always_now, B].
Qed.

Lemma always_plain2 (P Q : list citem -> Prop) l0 l : (forall i r, In i l0 -> Q r -> Q (i :: r) /\ P (i :: r)) -> Q l -> always P l -> always P (l0 ++ l).
Proof.
  intros HG HQ A. assert (B : always P (l0 ++ l) /\ Q (l0 ++ l)); [|apply B].
  revert HG. induction l0 as [|i l0 IH]; intros HG; [split; assumption|]. cbn [app]. destruct IH as [B1 B2]; [intros j r Hj; apply HG; right; exact Hj|].
  destruct (HG i _ (or_introl eq_refl) B2) as [C1 C2]. split; [apply always_cons; assumption|exact C1].
Qed.

(** ** Replies to PING and SETTINGS *)
Lemma replies_plain i r : plain i -> replies_since_progress (i :: r) = replies_since_progress r.
Proof. unfold plain. destruct i; try tauto. cbn [replies_since_progress]. unfold is_ack_reply. destruct (fr_pl f); try tauto; rewrite andb_false_r; reflexivity. Qed.
Definition replies_inv (s : client) : Prop :=
  replies_since_progress (cl_log s) <= cl_ctl s /\ always (fun l => replies_since_progress l <= 1000) (cl_log s).
Lemma set_same id v s s' : s' = (if id =? 1 then match enc_set_peer_max (cl_enc s) v with None => s | Some e => set_cl_enc e s end
          else if id =? 3 then set_cl_pmcs v s else if id =? 5 then set_cl_pmax (clamp_peer_max_frame_size v) s else s) ->
  cl_log s' = cl_log s /\ cl_ctl s' = cl_ctl s /\ cl_streams s' = cl_streams s /\ cl_ok s' = cl_ok s /\ cl_active s' = cl_active s /\ cl_rga s' = cl_rga s /\
  cl_next s' = cl_next s /\ cl_last s' = cl_last s /\ cl_hsid s' = cl_hsid s /\ cl_frag s' = cl_frag s /\ cl_contn s' = cl_contn s /\ cl_csend s' = cl_csend s /\
  cl_crecv s' = cl_crecv s /\ cl_cproc s' = cl_cproc s /\ cl_ipeer s' = cl_ipeer s /\
  cl_pmcs s' = (if id =? 3 then v else cl_pmcs s) /\ cl_pmax s' = (if id =? 5 then clamp_peer_max_frame_size v else cl_pmax s).
Proof.
  intros ->. destruct (N.eqb_spec id 1) as [->|N1]; [destruct (enc_set_peer_max _ _); cl; repeat split|].
  destruct (N.eqb_spec id 3) as [->|N3]; [cl; repeat split|]. destruct (N.eqb_spec id 5); cl; repeat split.
Qed.
Ltac setc := match goal with E : ?s' = (if ?id =? 1 then _ else _) |- _ =>
  destruct (set_same _ _ _ _ E) as (EL & ECT & EST & EOK & EAC & ERG & ENX & ELA & EHS & EFR & ECN & ECS & ECR & ECP & EIP & EMC & EMX); clear E end.

Ltac norm H := destruct H;
  try setc;
  try match goal with P : pre_ok ?pre |- _ => let f := fresh "f" in let v := fresh "v" in let NG := fresh "NG" in destruct P as [P|[(f & P & NG)|(v & P)]]; rewrite ?P in *; clear P end;
  try match goal with P : ?pre = [] \/ (exists f, ?pre = [LIn f] /\ _) |- _ =>
    let f := fresh "f" in let ES := fresh "ES" in let EK := fresh "EK" in destruct P as [P|(f & P & ES & EK)]; rewrite ?P in *; clear P end;
  try match goal with P : ?out = [] \/ ?out = [LOut _] |- _ => destruct P as [P|P]; rewrite ?P in *; clear P end;
  try match goal with |- context [csend_wu ?a ?b ?s] => let E := fresh "EW" in destruct (csend_wu_cases a b s) as [E|(E & ? & ?)]; rewrite !E; clear E end;
  try match goal with |- context [if cs_disp ?x then [] else [LErr _ _]] => let E := fresh "ED" in destruct (cs_disp x) eqn:E end;
  fields;
  repeat match goal with R : cl_log ?x = _ |- context [cl_log ?x] => rewrite R end; cbn [Datatypes.app].
Ltac dctl := try match goal with D : dext _ _ |- _ => pose proof (dx_ctl _ _ D) end.
(** Proves [always P] of the new chronicle, item by item. *)
Ltac alw := repeat first [assumption|apply always_cons].
(** The connection is over. *)
Ltac over := let AL := fresh "AL" in intros AL; repeat match goal with R : cl_ok _ = _ |- _ => rewrite R in AL; clear R | R : cl_active _ = _ |- _ => rewrite R in AL; clear R end;
  rewrite ?andb_false_r in AL; cbn [andb] in AL; congruence.
Ltac plains := let i := fresh "i" in let Hi := fresh "Hi" in intros i Hi; eapply open_plain; exact Hi.

Lemma nack_goaway a b : is_ack_reply (cgoaway_frame a b) = false. Proof. reflexivity. Qed.
Lemma nack_rst a b : is_ack_reply (crst_frame a b) = false. Proof. reflexivity. Qed.
Lemma nack_wu a b : is_ack_reply (cwu_frame a b) = false. Proof. reflexivity. Qed.
Lemma nack_data a b c d e : is_ack_reply (cdata_frame a b c d e) = false. Proof. unfold is_ack_reply, cdata_frame. apply andb_false_r. Qed.
Lemma nack_trailer a b : is_ack_reply (ctrailer_frame a b) = false. Proof. reflexivity. Qed.
Lemma ack_set : is_ack_reply csettings_ack = true. Proof. reflexivity. Qed.
Ltac frs := cbn [cgoaway_frame crst_frame cwu_frame csettings_ack ctrailer_frame cdata_frame fr_hdr fr_pl Datatypes.app];
  repeat match goal with R : fr_pl ?f = _ |- context [fr_pl ?f] => rewrite R end.
Lemma mv_replies s s' : replies_inv s -> mv s s' -> replies_inv s'.
Proof.
  intros [R1 R2] H. pose proof (always_now _ _ R2) as R3. cbv beta in R3. unfold replies_inv. norm H; dctl; try (split; assumption); rewrite ?ECT.
  all: rewrite <- ?app_assoc; cbn [Datatypes.app]; rewrite ?(skip_plain replies_since_progress _ _ replies_plain) by plains.
  all: split; [|repeat first [assumption|apply always_plain; [intros i0 r0 Hp Hr; cbv beta; rewrite (replies_plain _ _ Hp); exact Hr|plains|]|apply always_cons]].
  all: cbn [replies_since_progress]; rewrite ?nack_goaway, ?nack_rst, ?nack_wu, ?nack_data, ?nack_trailer, ?ack_set.
  all: repeat match goal with R : is_ack_reply ?f = _ |- _ => rewrite R end.
  all: frs; try lia.
  all: try match goal with |- context [fr_pl ?f] => destruct (fr_pl f); lia end.
Qed.

(** ** Header blocks *)
Lemma conts_plain i r : plain i -> continuations (i :: r) = continuations r.
Proof. unfold plain. destruct i; tauto. Qed.
Lemma coct_plain i r : plain i -> continuation_octets (i :: r) = continuation_octets r.
Proof. unfold plain. destruct i; tauto. Qed.
Definition block_inv (s : client) : Prop :=
  calive s = true -> (continuations (cl_log s) <= 512 /\ continuation_octets (cl_log s) <= 1048576) /\ (cl_hsid s <> 0 -> continuations (cl_log s) <= cl_contn s /\ continuation_octets (cl_log s) <= clen (cl_frag s)).
Lemma mv_block s s' : wf s -> block_inv s -> mv s s' -> block_inv s'.
Proof.
  intros W BI H. pose proof (w_frag_len _ W) as FL. unfold block_inv, calive in *. norm H; intros AL.
  all: try solve [cbn [continuations continuation_octets]; auto].
  all: unfold calive in *.
  all: try (repeat match goal with R : cl_ok _ = _ |- _ => rewrite R in AL; clear R | R : cl_active _ = _ |- _ => rewrite R in AL; clear R end; rewrite ?andb_false_r in AL; congruence).
  all: try rewrite EHS, ECN, EFR; try (rewrite EOK, EAC in AL).
  all: try (specialize (BI AL); destruct BI as [BA BB]).
  all: try match goal with Q : quiet_in _ _ |- _ => unfold quiet_in in Q end.
  all: rewrite <- ?app_assoc; cbn [Datatypes.app]; rewrite ?(skip_plain continuations _ _ conts_plain), ?(skip_plain continuation_octets _ _ coct_plain) by plains.
  all: cbn [continuations continuation_octets]; frs; auto.
  all: try match goal with |- context [fr_pl ?f] => destruct (fr_pl f); first [exact (conj BA BB)|tauto|split; [split; lia|]; intros NZ; destruct (BB NZ); split; lia] end.
  - cbn [cl_ok set_cl_ok andb] in AL. clear - BA BB H3. destruct H3 as [->|[[C O]|(-> & -> & ->)]]; (split; [assumption|]); intros NZ; [congruence| |auto]. rewrite C. split; [apply N.le_0_l|exact O].
  - unfold C_MAX_CONT in H2. destruct (BB H1) as [B1 B2]. unfold C_MAX_HEADER_BLOCK in *. unfold clen in *. rewrite app_length in *. split; [split; lia|]. intros _. split; lia.
  - discriminate AL.
Qed.

(** ** After GOAWAY *)
Lemma sent_plain i r : plain i -> sent_goaway (i :: r) = sent_goaway r.
Proof. unfold plain, sent_goaway. destruct i; try tauto. cbn [existsb is_goaway_out]. destruct (fr_pl f); tauto. Qed.
Definition bye_inv (s : client) : Prop := (calive s = true -> sent_goaway (cl_log s) = false) /\ always quiet_after_goaway (cl_log s).
Lemma mv_bye s s' : bye_inv s -> mv s s' -> bye_inv s'.
Proof.
  intros [SG QA] H. unfold bye_inv, calive in *. norm H; unfold calive in *; rewrite ?EOK, ?EAC; rewrite <- ?app_assoc; cbn [Datatypes.app].
  all: try solve [split; assumption].
  all: try (match goal with R : cl_ok _ && cl_active _ = true |- _ => pose proof (SG R) as SG0 end).
  all: split; [intros AL; try (repeat match goal with R : cl_ok _ = _ |- _ => rewrite R in AL; clear R | R : cl_active _ = _ |- _ => rewrite R in AL; clear R end; rewrite ?andb_false_r in AL; congruence)|].
  all: rewrite ?(skip_plain sent_goaway _ _ sent_plain) by plains.
  all: try solve [apply SG; assumption].
  all: try solve [unfold sent_goaway in *; cbn [existsb is_goaway_out]; frs; rewrite SG0; reflexivity].
  all: try solve [repeat first [assumption|apply always_cons]; unfold quiet_after_goaway, sent_goaway in *; cbn [existsb is_goaway_out]; try exact I; intros; congruence].
  all: try solve [repeat first [assumption|apply always_cons]; unfold quiet_after_goaway, sent_goaway in *; cbn [existsb is_goaway_out orb]; try exact I; try (split; reflexivity); intros; congruence].
  - apply (always_plain2 _ (fun l => sent_goaway l = false)); [|exact SG0|apply always_cons; [assumption|exact SG0]].
    intros i0 r0 Hi HR. apply open_plain in Hi. rewrite (sent_plain _ _ Hi). split; [exact HR|]. unfold plain in Hi. destruct i0; try tauto. unfold quiet_after_goaway. intros; congruence.
  - unfold sent_goaway in *. cbn [existsb is_goaway_out]. destruct H1 as [->|(o & ->)]; exact SG0.
  - discriminate AL.
Qed.

(** ** GOAWAY received, and new requests *)
Definition goaway_in (i : citem) : bool := match i with LIn f => (match fr_pl f with PGoaway _ _ _ => true | _ => false end) | _ => false end.
Lemma goaway_received_iff l : goaway_received l <-> existsb goaway_in l = true.
Proof.
  split.
  - intros (f & a & b & c & Hf & E). apply existsb_exists. exists (LIn f). split; [exact Hf|]. cbn [goaway_in]. rewrite E. reflexivity.
  - intros H. apply existsb_exists in H as (i & Hi & E). destruct i; try discriminate. cbn [goaway_in] in E. destruct (fr_pl f) eqn:EF; try discriminate. exists f, last, code, debug. auto.
Qed.
Lemma ga_plain i r : plain i -> existsb goaway_in (i :: r) = existsb goaway_in r.
Proof. unfold plain. destruct i; tauto. Qed.
Lemma rs_plain i r : plain i -> request_streams (i :: r) = request_streams r.
Proof. unfold plain. destruct i; tauto. Qed.
Definition new_inv (s : client) : Prop :=
  (cl_rga s = true -> existsb goaway_in (cl_log s) = true) /\ (calive s = true -> cl_rga s = false -> existsb goaway_in (cl_log s) = false) /\
  Forall (fun k => k < cl_next s) (request_streams (cl_log s)) /\ always fresh_request (cl_log s).
Lemma mv_new s s' : wf s -> new_inv s -> mv s s' -> new_inv s'.
Proof.
  intros W (RG & RN & RS & FR) H. unfold new_inv, calive in *. norm H; unfold calive in *; rewrite ?EOK, ?EAC, ?ERG, ?ENX; rewrite <- ?app_assoc; cbn [Datatypes.app].
  all: try solve [repeat (split; [assumption|]); assumption].
  all: try match goal with D : dext _ _ |- _ => rewrite (dx_rga _ _ D), (dx_next _ _ D) end.
  all: rewrite ?(skip_plain (existsb goaway_in) _ _ ga_plain), ?(skip_plain request_streams _ _ rs_plain) by plains.
  all: cbn [existsb goaway_in request_streams orb]; frs.
  all: refine (conj _ (conj _ (conj _ _))).
  all: try exact RG; try exact RN; try exact RS; try solve [repeat first [assumption|apply always_cons]; exact I].
  all: try solve [intros RR; try rewrite (RG RR); rewrite ?orb_true_r; reflexivity].
  all: try solve [over].
  - intros AL RF. rewrite (RN AL RF), orb_false_r. unfold quiet_in in H0. destruct (fr_pl f); tauto.
  - intros AL RF. rewrite (RN AL RF), orb_false_r. destruct (fr_pl f0); tauto.
  - intros AL RF. rewrite (RN AL RF), orb_false_r. destruct (fr_pl f0); tauto.
  - eapply Forall_impl; [|exact RS]. cbv beta. intros. lia.
  - constructor; [lia|]. eapply Forall_impl; [|exact RS]. cbv beta. intros. lia.
  - apply always_plain; [intros i0 r0 Hp _; unfold plain in Hp; destruct i0; try tauto; exact I|plains|]. apply always_cons; [exact FR|]. unfold fresh_request.
    split; [apply (w_next _ W)|]. split; [exact RS|]. rewrite goaway_received_iff. specialize (RN H H0). congruence.
Qed.

(** ** What the application is told *)
Lemma notif_plain k i r : plain i -> notifications k (i :: r) = notifications k r.
Proof. unfold plain. destruct i; try tauto. Qed.
Definition asked (k : N) (l : list citem) : Prop := exists app q, In (LReq k app q) l.
Definition told_inv (s : client) : Prop :=
  (forall k, (notifications k (cl_log s) <= 1)%nat) /\ (forall k x, cget s k = Some x -> asked k (cl_log s)) /\
  (forall k, notifications k (cl_log s) <> 0%nat -> asked k (cl_log s)).
Lemma asked_app k l0 l : asked k l -> asked k (l0 ++ l).
Proof. intros (a & q & H). exists a, q. apply in_or_app. right. exact H. Qed.
Lemma asked_cons k i l : asked k l -> asked k (i :: l).
Proof. intros (a & q & H). exists a, q. right. exact H. Qed.
Lemma mv_told s s' : told_inv s -> mv s s' -> told_inv s'.
Proof.
  intros (N1 & N2 & N3) H. unfold told_inv. norm H; rewrite <- ?app_assoc; cbn [Datatypes.app].
  all: try solve [repeat (split; [assumption|]); assumption].
  all: refine (conj _ (conj _ _)).
  all: try match goal with
  | |- forall k x, _ -> asked _ _ => let G := fresh "G" in let k := fresh "k" in let z := fresh "z" in intros k z G;
      first [repeat first [apply asked_cons|apply asked_app]; exact (N2 _ _ G)
            |repeat first [apply asked_cons|apply asked_app]; match goal with D : dext _ _ |- _ => let DX := fresh "DX" in pose proof (dx_streams _ _ D k) as DX; rewrite G in DX; destruct (cget s k) eqn:GE; [exact (N2 _ _ GE)|destruct DX] end
            |unfold cget in *; clh G; rewrite ?EST in G; autorewrite with clf in G; repeat match type of G with context [?a =? ?b] => let E := fresh "EK" in destruct (N.eqb_spec a b) as [E|E]; [try subst a|] end;
               first [discriminate G|repeat first [apply asked_cons|apply asked_app]; solve [eapply N2; first [eassumption|exact G]]|apply asked_app; solve [exists app, r; left; reflexivity]]
            |idtac]
  | |- forall k, _ -> asked _ _ => let NN := fresh "NN" in let k := fresh "k" in intros k NN; repeat first [apply asked_cons|apply asked_app];
      rewrite ?(skip_plain (notifications k) _ _ (notif_plain k)) in NN by plains; repeat rewrite notif_cons in NN; cbn [tells] in NN;
      first [apply N3; exact NN|match type of NN with context [?a =? k] => let E := fresh "EK" in destruct (N.eqb_spec a k) as [E|E]; [rewrite <- E; solve [eapply N2; eassumption]|apply N3; exact NN] end|idtac]
  | |- forall k, (_ <= 1)%nat => let k := fresh "k" in intros k; rewrite ?(skip_plain (notifications k) _ _ (notif_plain k)) by plains; repeat rewrite notif_cons; cbn [tells];
      first [exact (N1 k)|match goal with |- context [?a =? k] => let E := fresh "EK" in destruct (N.eqb_spec a k) as [E|E];
        [rewrite <- E; match goal with R : notifications _ _ = 0%nat |- _ => rewrite R | R : ?b = false -> notifications _ _ = 0%nat |- _ => rewrite R by first [assumption|reflexivity] end; apply Nat.le_refl|exact (N1 k)] end|idtac]
  end.
  unfold cget in *. clh G. autorewrite with clf in G. apply asked_cons. destruct (find_cs (cl_streams s) k0) eqn:E; [exact (N2 _ _ E)|discriminate G].
Qed.

(** ** Responses *)
Lemma faithful_plain i r : plain i -> faithful_response (i :: r).
Proof. unfold plain. destruct i; intros H; first [exact I|destruct H]. Qed.
Lemma length_ok x : length_mismatch x = false ->
  bodiless (cs_method x) (cs_status x) \/ forall n, cs_clen x = Some n -> n = N.of_nat (length (cs_body x)).
Proof.
  unfold length_mismatch, enforce_length, bodiless. intros H. destruct (beq (cs_method x) (str "HEAD")) eqn:EB; [left; left; apply beq_eq, EB|].
  destruct ((100 <=? cs_status x) && (cs_status x <? 200)) eqn:E1; [apply andb_true_iff in E1 as [A B]; apply N.leb_le in A; apply N.ltb_lt in B; left; right; left; split; assumption|].
  destruct (N.eqb_spec (cs_status x) 204); [left; right; right; left; assumption|]. destruct (N.eqb_spec (cs_status x) 304); [left; right; right; right; assumption|].
  cbn [orb negb andb] in H. right. intros m E. rewrite E in H. apply negb_false_iff, N.eqb_eq in H. unfold clen in H. symmetry. exact H.
Qed.
Lemma mv_faithful s s' : new_inv s -> always faithful_response (cl_log s) -> mv s s' -> always faithful_response (cl_log s').
Proof.
  intros (RG & _) FR H. norm H; rewrite <- ?app_assoc; cbn [Datatypes.app].
  all: try exact FR.
  all: try solve [repeat first [assumption|apply always_cons]; exact I].
  - apply always_cons; [exact FR|]. unfold faithful_response. cbn [p_status p_headers p_body].
    destruct H3 as ((q & Q1 & Q2) & B & HH & M1 & _ & CL & EN). destruct (M1 H1) as (BL & ST). split; [|split; [exact B|split; [exact H4|split; [exact BL|split; [exact ST|split; [exact HH|]]]]]].
    + exists q. split; [exact Q1|]. rewrite <- Q2. destruct (length_ok _ H5) as [BO|LO]; [left; exact BO|right]. intros v Hv. destruct (CL v Hv) as (n & P1 & P2).
      apply H2FieldProps.content_length_exact in P1 as (t & T1 & T2 & T3 & T4 & _). exists t. do 3 (split; [assumption|]). rewrite T4. apply LO, P2.
    + destruct H6 as [E|E]; [left; apply EN, E|right; apply goaway_received_iff, RG, E].
  - apply always_plain; [intros i0 r0 Hp _; apply faithful_plain, Hp|plains|]. apply always_cons; [exact FR|exact I].
Qed.
