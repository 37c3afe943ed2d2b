(** Step-by-step invariants of the HTTP/2 server, over the elementary steps of H2ServerSteps. *)
From Coq Require Import Permutation.
From Verif Require Import Base UtilModel HpackTables HpackModel HpackSpec DynTableProofs HpackCodecProofs HpackConnProofs
  H2Model H2Spec H2Proofs H2FramerProofs H2Props H2FieldModel H2ServerModel H2ServerSpec H2ServerSteps H2ServerRefine H2ServerHandlers.
Local Open Scope N_scope.

(** ** Reading the fields of an updated state *)
Section FIELDS.
Variables (sid : N) (g : stream -> stream) (s : server).
Ltac go := unfold upd; destruct (get s sid); reflexivity.
Lemma upd_log : sv_log (upd sid g s) = sv_log s. Proof. go. Qed.
Lemma upd_last : sv_last (upd sid g s) = sv_last s. Proof. go. Qed.
Lemma upd_rstc : sv_rstc (upd sid g s) = sv_rstc s. Proof. go. Qed.
Lemma upd_ctl : sv_ctl (upd sid g s) = sv_ctl s. Proof. go. Qed.
Lemma upd_contn : sv_contn (upd sid g s) = sv_contn s. Proof. go. Qed.
Lemma upd_frag : sv_frag (upd sid g s) = sv_frag s. Proof. go. Qed.
Lemma upd_cursid : sv_cursid (upd sid g s) = sv_cursid s. Proof. go. Qed.
Lemma upd_csend : sv_csend (upd sid g s) = sv_csend s. Proof. go. Qed.
Lemma upd_crecv : sv_crecv (upd sid g s) = sv_crecv s. Proof. go. Qed.
Lemma upd_ipeer : sv_ipeer (upd sid g s) = sv_ipeer s. Proof. go. Qed.
Lemma upd_pmcs : sv_pmcs (upd sid g s) = sv_pmcs s. Proof. go. Qed.
Lemma upd_ppush : sv_ppush (upd sid g s) = sv_ppush s. Proof. go. Qed.
Lemma upd_active : sv_active (upd sid g s) = sv_active s. Proof. go. Qed.
Lemma upd_grace : sv_grace (upd sid g s) = sv_grace s. Proof. go. Qed.
Lemma upd_gal : sv_gal (upd sid g s) = sv_gal s. Proof. go. Qed.
Lemma upd_pmax : sv_pmax (upd sid g s) = sv_pmax s. Proof. go. Qed.
Lemma upd_ok : sv_ok (upd sid g s) = sv_ok s. Proof. go. Qed.
Lemma upd_now : sv_now (upd sid g s) = sv_now s. Proof. go. Qed.
Lemma upd_pmhls : sv_pmhls (upd sid g s) = sv_pmhls s. Proof. go. Qed.
End FIELDS.
Lemma upd_alive sid g s : alive (upd sid g s) = alive s.
Proof. unfold alive. rewrite upd_ok, upd_active. reflexivity. Qed.
Global Hint Rewrite upd_log upd_last upd_rstc upd_ctl upd_contn upd_frag upd_cursid upd_csend upd_crecv upd_ipeer upd_pmcs upd_ppush upd_active
  upd_grace upd_gal upd_pmax upd_ok upd_now upd_pmhls upd_alive emits_fields : svx.

Ltac fields := repeat (progress (unfold started, emit, note, erase, debit, hdr_base, clear_assembly; sv; autorewrite with svx)).

Lemma goaway_eq code s : sv_active s = true ->
  goaway code s = set_sv_ok false (set_sv_active false (set_sv_grace true
    (set_sv_log (LBye code (sv_last s) :: LOut (goaway_frame (sv_last s) code) :: sv_log s) s))).
Proof. intros A. unfold goaway. rewrite A. cbn [negb]. destruct s. reflexivity. Qed.
Lemma started_eq sid r e s : started sid r e s = set_sv_enc e (upd sid (fun x => set_st_sent (map fst (rs_headers r) ++ st_sent x) x)
    (upd sid (fun x => set_st_off 0%nat (set_st_resp r x)) (note (LCmd (CRespond sid r)) s))).
Proof. reflexivity. Qed.

Lemma always_nil (P : list item -> Prop) : P [] -> always P [].
Proof. intros H l1 l2 E. destruct l1; [|discriminate]. destruct l2; [exact H|discriminate]. Qed.
Lemma always_cons (P : list item -> Prop) i l : always P l -> P (i :: l) -> always P (i :: l).
Proof. intros H H1 l1 l2 E. destruct l1 as [|j l1]; cbn [app] in E; [subst; exact H1|]. injection E as _ E. eapply H; eauto. Qed.
Lemma always_now (P : list item -> Prop) l : always P l -> P l.
Proof. intros H. apply (H [] l). reflexivity. Qed.
Lemma always_weaken (P Q : list item -> Prop) l : (forall l, P l -> Q l) -> always P l -> always Q l.
Proof. intros H A l1 l2 E. apply H. eapply A, E. Qed.
Lemma always_app (P : list item -> Prop) l0 l : (forall a b, l0 = a ++ b -> P (b ++ l)) -> always P l -> always P (l0 ++ l).
Proof.
  induction l0 as [|i l0 IH]; intros H A; [exact A|]. cbn [app]. apply always_cons.
  - apply IH; [|exact A]. intros a b E. apply (H (i :: a) b). rewrite E. reflexivity.
  - apply (H [] (i :: l0) eq_refl).
Qed.

Lemma total_app g l1 l2 : total g (l1 ++ l2) = total g l1 + total g l2.
Proof. induction l1; cbn [app total]; [reflexivity|]. rewrite IHl1. lia. Qed.

(** The frames of a header block. *)
Lemma send_headers_frames sid flags pmax block f : In f (send_headers sid flags pmax block) ->
  stream_of f = stream_of (mk_frame (mk_h 0 0 sid) (PCont [])) /\
  ((exists b, fr_pl f = PHeaders b None /\ len b <= N.max 1 pmax) \/ (exists b, fr_pl f = PCont b /\ len b <= N.max 1 pmax)).
Proof.
  unfold send_headers. generalize true as first. generalize (S (length block)) as n. intros n first H. revert first flags block H.
  induction n as [|n IH]; intros first flags block H; [destruct H|]. cbn [header_frames] in H.
  cbv zeta in H. destruct H as [H|H].
  - subst f. split; [destruct first; reflexivity|].
    assert (L : len (firstn (N.to_nat (N.max 1 pmax)) block) <= N.max 1 pmax) by (unfold len; rewrite firstn_length; lia).
    destruct first; cbn [fr_pl]; eauto.
  - match type of H with In _ (if ?c then _ else _) => destruct c end; [destruct H|]. eapply IH; eauto.
Qed.

Lemma total_headers g sid flags pmax block : (forall f, (exists b p, fr_pl f = PHeaders b p) \/ (exists b, fr_pl f = PCont b) -> g (LOut f) = 0) ->
  total g (rev (map LOut (send_headers sid flags pmax block))) = 0.
Proof.
  intros H. assert (F : forall f, In f (send_headers sid flags pmax block) -> g (LOut f) = 0).
  { intros f Hf. apply H. destruct (send_headers_frames _ _ _ _ _ Hf) as [_ [(b & B & _)|(b & B & _)]]; [left|right]; eauto. }
  revert F. generalize (send_headers sid flags pmax block). induction l as [|f l IH]; intros F; [reflexivity|].
  cbn [map rev]. rewrite total_app. cbn [total]. rewrite IH by (intros; apply F; right; auto). rewrite (F f) by (left; auto). reflexivity.
Qed.


Lemma always_quiet (P : list item -> Prop) l0 l : (forall i r, In i l0 -> P r -> P (i :: r)) -> always P l -> always P (l0 ++ l).
Proof.
  induction l0 as [|i l0 IH]; intros H A; [exact A|]. cbn [app].
  assert (B : always P (l0 ++ l)) by (apply IH; [intros j r Hj; apply H; right; exact Hj|exact A]).
  apply always_cons; [exact B|]. apply H; [left; reflexivity|]. apply always_now, B.
Qed.
Lemma always_headers (P : list item -> Prop) sid flags pmax block l :
  (forall f r, (exists b, fr_pl f = PHeaders b None /\ len b <= N.max 1 pmax) \/ (exists b, fr_pl f = PCont b /\ len b <= N.max 1 pmax) -> P r -> P (LOut f :: r)) ->
  always P l -> always P (rev (map LOut (send_headers sid flags pmax block)) ++ l).
Proof.
  intros H. apply always_quiet. intros i r Hi HP. rewrite <- in_rev in Hi. apply in_map_iff in Hi as (f & <- & Hf).
  apply H; [|exact HP]. destruct (send_headers_frames _ _ _ _ _ Hf) as [_ X]; exact X.
Qed.
Lemma headers_head sid flags pmax block f rest : send_headers sid flags pmax block = f :: rest ->
  (exists b, fr_pl f = PHeaders b None /\ len b <= N.max 1 pmax) \/ (exists b, fr_pl f = PCont b /\ len b <= N.max 1 pmax).
Proof. intros H. apply (send_headers_frames sid flags pmax block f). rewrite H. left; reflexivity. Qed.
Lemma ack_reply_pl f : is_ack_reply f = true -> (exists l, fr_pl f = PSettings l) \/ (exists b, fr_pl f = PPing b).
Proof. unfold is_ack_reply. intros H. apply andb_true_iff in H as [_ H]. destruct (fr_pl f); try discriminate; eauto. Qed.
Lemma goaway_off code s : sv_active s = false -> goaway code s = s.
Proof. intros A. unfold goaway. rewrite A. reflexivity. Qed.

(** Case analysis on a step, with the frames it writes made explicit. *)
Ltac norm_goaway :=
  match goal with
  | |- context [goaway ?c ?t] =>
    first [rewrite (goaway_eq c t) by (fields; assumption)
          |let A := fresh "ACT" in destruct (sv_active t) eqn:A;
             [rewrite (goaway_eq c t) by exact A|rewrite (goaway_off c t) by exact A]]
  | _ => idtac
  end.
Ltac norm_in H := destruct H; norm_goaway.
Ltac norm_q H := destruct H; norm_goaway;
  try match goal with R : is_ack_reply ?f = true |- _ => let a := fresh in let b := fresh "APL" in destruct (ack_reply_pl f R) as [(a & b)|(a & b)] end;
  try match goal with R : send_headers _ _ _ _ = ?f :: _ |- _ => let a := fresh in let b := fresh "APL" in destruct (headers_head _ _ _ _ _ _ R) as [(a & b & _)|(a & b & _)] end.

Ltac frs := cbn [total weigh_in weigh_out flow_size credit fr_pl fr_hdr rst_frame wu_frame goaway_frame data_frame app].

(** ** Sending ledger: the connection send window *)
Definition within_send (l : list item) : Prop := data_sent l <= 65535 + credit_received_on 0 l.
Definition send_ledger (s : server) : Prop :=
  (0 <= sv_csend s)%Z /\ (Z.of_N (data_sent (sv_log s)) + sv_csend s <= 65535 + Z.of_N (credit_received_on 0 (sv_log s)))%Z /\ always within_send (sv_log s).
Lemma data_len sid b off n fin d pad : fr_pl (data_frame sid b off n fin) = PData d pad -> (off + n <= length b)%nat -> len d + pad = N.of_nat n.
Proof. cbn [data_frame fr_pl]. intros H L. injection H as <- <-. unfold len. rewrite firstn_length, skipn_length. lia. Qed.
Ltac quiet := intros; unfold within_send, data_sent, credit_received_on, on_stream, flow_size, credit in *; frs;
  repeat match goal with R : fr_pl ?f = _ |- _ => rewrite R in * end; try lia; try (destruct (_ =? _); lia).
Ltac alw := repeat (first [apply always_cons|apply always_headers]); [first [assumption|idtac]|..].
Lemma send_ledger_in f s s' : send_ledger s -> instep f s s' -> send_ledger s'.
Proof.
  intros (I1 & I2 & I3) H. pose proof (always_now _ _ I3) as I4. norm_in H; unfold send_ledger; fields.
  all: unfold within_send, data_sent, credit_received_on, on_stream, flow_size, credit in *; frs.
  all: repeat match goal with R : fr_pl ?f = _ |- _ => rewrite R in * end; frs.
  all: try match goal with R : stream_of ?f = 0 |- _ => rewrite R in *; rewrite N.eqb_refl in * end.
  all: repeat split; try assumption; try lia; repeat apply always_cons; try assumption; frs.
  all: repeat match goal with R : fr_pl ?f = _ |- _ => rewrite R in * end; try lia.
  all: try match goal with R : stream_of ?f = 0 |- _ => rewrite R in *; rewrite N.eqb_refl in * end; try lia.
Qed.
Lemma total_in_outs g l : total (weigh_in g) (rev (map LOut l)) = 0.
Proof. induction l as [|f l IH]; [reflexivity|]. cbn [map rev]. rewrite total_app, IH. reflexivity. Qed.
Lemma total_out_headers sid flags pmax block : total (weigh_out flow_size) (rev (map LOut (send_headers sid flags pmax block))) = 0.
Proof. apply total_headers. intros f [(b & p & B)|(b & B)]; cbn [weigh_out]; unfold flow_size; rewrite B; reflexivity. Qed.
Ltac zero_flow := try match goal with R : fr_pl ?f = _ |- context [flow_size ?f] => assert (flow_size f = 0) by (unfold flow_size; rewrite R; reflexivity) end.
Lemma send_ledger_q E th sh s s' : wf s -> send_ledger s -> qstep E th sh s s' -> send_ledger s'.
Proof.
  intros W (I1 & I2 & I3) H. pose proof (always_now _ _ I3) as I4. norm_q H; unfold send_ledger; fields.
  all: try solve [repeat split; assumption].
  all: unfold data_sent, credit_received_on in *; rewrite ?total_app, ?total_in_outs, ?total_out_headers; frs; zero_flow.
  all: try match goal with |- context [firstn ?n (skipn ?k ?b)] =>
    assert (LN : length (firstn n (skipn k b)) = n) by (rewrite firstn_length, skipn_length; lia) end.
  all: split; [lia|split; [lia|]].
  all: repeat (first [apply always_cons|apply always_headers]); try assumption; frs.
  all: try (intros ff rr [(bb & BB & _)|(bb & BB & _)] HR); unfold within_send, data_sent, credit_received_on in *; frs; zero_flow; try assumption; try lia.
Qed.

(** ** Receiving ledger: the connection receive window *)
Lemma stream_of_mk t fl sid p : sid < 2 ^ 31 -> stream_of (mk_frame (mk_h t fl sid) p) = sid.
Proof. intros H. apply get_set_stream_id, H. Qed.
Lemma stream_of_wu sid v : sid < 2 ^ 31 -> stream_of (wu_frame sid v) = sid.
Proof. apply stream_of_mk. Qed.
Lemma stream_of_rst sid v : sid < 2 ^ 31 -> stream_of (rst_frame sid v) = sid.
Proof. apply stream_of_mk. Qed.
Lemma total_out_headers0 g sid flags pmax block : (forall f, (exists b p, fr_pl f = PHeaders b p) \/ (exists b, fr_pl f = PCont b) -> g f = 0) ->
  total (weigh_out g) (rev (map LOut (send_headers sid flags pmax block))) = 0.
Proof. intros H. apply total_headers. intros f F. exact (H f F). Qed.

Definition recv_ledger (s : server) : Prop := alive s = true ->
  (sv_crecv s + Z.of_N (data_received (sv_log s)) = 65535 + Z.of_N (credit_sent_on 0 (sv_log s)))%Z.
Ltac abs_totals := repeat match goal with
  | |- context [total ?g (sv_log ?s)] => let D := fresh "D" in set (D := total g (sv_log s)) in *; clearbody D end.
Ltac rew_pl := repeat match goal with R : fr_pl ?f = _ |- _ => rewrite R in * end.
Lemma recv_ledger_in f s s' : wf s -> stream_id_ok f -> recv_ledger s -> instep f s s' -> recv_ledger s'.
Proof.
  intros W SO I H. unfold recv_ledger, data_received, credit_sent_on in *; norm_in H; fields; try solve [unfold alive; sv; discriminate].
  all: frs; abs_totals; unfold alive in *; fields; intros A; specialize (I A).
  all: unfold on_stream, flow_size, credit, len in *; frs; rew_pl; try rewrite stream_of_mk by exact SO.
  all: repeat match goal with R : get _ _ = Some _, W : wf _ |- _ => apply (w_key _ W) in R as [? ?] end.
  all: try (match goal with |- context [?a =? 0] => destruct (N.eqb_spec a 0) end); try lia.
  all: try solve [exfalso; unfold ignorable in *; rew_pl; unfold alive in *; congruence].
  - unfold ignorable in H. destruct (fr_pl f); try lia. unfold alive in H. congruence.
  - rewrite stream_of_wu in e by assumption. congruence.
Qed.
Lemma recv_ledger_q E th sh s s' : wf s -> recv_ledger s -> qstep E th sh s s' -> recv_ledger s'.
Proof.
  intros W I H. unfold recv_ledger, data_received, credit_sent_on in *; norm_q H; fields; try solve [unfold alive; sv; discriminate]; try solve [exact I].
  all: frs; rewrite ?total_app, ?total_in_outs, ?total_out_headers0
    by (intros ff [(b1 & p1 & B1)|(b1 & B1)]; unfold on_stream, credit; rewrite B1; destruct (_ =? _); reflexivity).
  all: frs; abs_totals; unfold alive in *; fields; intros A; try specialize (I A).
  all: unfold on_stream, credit; frs; rew_pl; try rewrite stream_of_mk by lia; try change (0 =? 0) with true; cbn [andb]; try (match goal with |- context [?a =? 0] => destruct (N.eqb_spec a 0) end); try lia.
  exfalso. apply n. reflexivity.
Qed.

(** ** The stream map of an updated state *)
Definition updl (sid : N) (g : stream -> stream) (l : list (N * stream)) : list (N * stream) :=
  match find_st l sid with Some x => put_st l sid (g x) | None => l end.
Lemma upd_streams sid g s : sv_streams (upd sid g s) = updl sid g (sv_streams s).
Proof. unfold upd, updl, get. destruct (find_st (sv_streams s) sid); reflexivity. Qed.
Lemma find_updl sid g l k : find_st (updl sid g l) k = if k =? sid then option_map g (find_st l k) else find_st l k.
Proof.
  unfold updl. destruct (N.eqb_spec k sid) as [->|NE].
  - destruct (find_st l sid) as [x|] eqn:F; [|rewrite F; reflexivity]. rewrite (find_put_same _ _ _ _ F). reflexivity.
  - destruct (find_st l sid); [apply find_put_other, NE|reflexivity].
Qed.
Lemma find_del l sid k : find_st (del_st l sid) k = if k =? sid then None else find_st l k.
Proof. destruct (N.eqb_spec k sid) as [->|NE]; [apply find_del_same|apply find_del_other, NE]. Qed.
Lemma find_cons j x l k : find_st ((j, x) :: l) k = if k =? j then Some x else find_st l k.
Proof. cbn [find_st]. rewrite N.eqb_sym. reflexivity. Qed.
Global Hint Rewrite upd_streams : svx.
Global Hint Rewrite find_updl find_del find_cons : svf.

(** Splits a hypothesis [find_st (streams of the next state) k = Some y] by the stream concerned. *)
Ltac streams G := unfold get in *; autorewrite with svf in G;
  try match type of G with context [?k =? ?j] =>
    let NE := fresh "NE" in destruct (N.eqb_spec k j) as [?Ek|NE];
    [first [discriminate G
           |match goal with F : find_st _ j = Some _ |- _ => rewrite Ek, F in G; cbn [option_map] in G; injection G as <- end
           |injection G as <-
           |idtac]
    |] end.

(** After the peer is gone nothing is left; an idle shutdown leaves no stream. *)
Definition idle_inv (s : server) : Prop := sv_ok s = true -> sv_active s = false -> sv_streams s = [].
Lemma idle_inv_in f s s' : idle_inv s -> instep f s s' -> idle_inv s'.
Proof.
  unfold idle_inv. intros I H. norm_in H; fields; try discriminate; try assumption.
  all: intros O A; try (unfold alive in *; rewrite O, A in *; discriminate); rewrite (I O A); reflexivity.
Qed.
Lemma idle_inv_q E th sh s s' : idle_inv s -> qstep E th sh s s' -> idle_inv s'.
Proof.
  unfold idle_inv. intros I H. norm_q H; fields; try discriminate; try assumption.
  all: intros O A; try (unfold alive in *; rewrite O, A in *; discriminate); rewrite ?(I O A); try reflexivity; try assumption.
Qed.

(** ** Settings in force *)
Definition settings_inv (s : server) : Prop :=
  sv_pmax s = setting 5 16384 (sv_log s) /\ 16384 <= sv_pmax s /\ sv_ppush s = (setting 2 1 (sv_log s) =? 1) /\
  sv_pmcs s = setting 3 4294967295 (sv_log s) /\ sv_ipeer s = setting 4 65535 (sv_log s).
Lemma setting_outs id d fs l : setting id d (rev (map LOut fs) ++ l) = setting id d l.
Proof. induction fs as [|f fs IH] in l |- *; [reflexivity|]. cbn [map rev]. rewrite <- app_assoc. rewrite IH. reflexivity. Qed.
Lemma settings_in f s s' : settings_inv s -> instep f s s' -> settings_inv s'.
Proof. unfold settings_inv. intros I H. norm_in H; fields; cbn [setting]; exact I. Qed.
Lemma settings_q E th sh s s' : settings_inv s -> qstep E th sh s s' -> settings_inv s'.
Proof.
  unfold settings_inv. intros I H. norm_q H; fields; rewrite ?setting_outs; cbn [setting]; try exact I.
  all: destruct I as (I1 & I2 & I3 & I4 & I5); try solve [vm_compute (_ =? _); cbv iota; repeat split; assumption].
  repeat match goal with |- context [id =? ?c] => destruct (N.eqb_spec id c); [exfalso; apply H; lia|] end. auto.
Qed.

(** ** Replies to PING and SETTINGS *)
Definition replies_ok (l : list item) : Prop := replies_since_progress l <= 1000.
Definition replies_inv (s : server) : Prop := replies_since_progress (sv_log s) <= sv_ctl s /\ always replies_ok (sv_log s).
Ltac prog f := try (assert (PG : is_progress f = true) by (unfold is_progress; rew_pl; reflexivity); rewrite PG in *);
  try (destruct (is_progress f) eqn:PG).
Lemma replies_in f s s' : replies_inv s -> instep f s s' -> replies_inv s'.
Proof.
  unfold replies_inv. intros (I1 & I2) H. pose proof (always_now _ _ I2) as I3. unfold replies_ok in I3.
  norm_in H; fields; cbn [replies_since_progress]; try change (is_ack_reply _) with false; cbv iota.
  all: match goal with H : instep _ _ _ |- _ => idtac | |- context [is_progress ?f] => prog f end.
  all: split; [try lia|repeat apply always_cons; try assumption; unfold replies_ok; cbn [replies_since_progress]; rewrite ?PG; try change (is_ack_reply _) with false; cbv iota; try lia].
Qed.
Lemma replies_outs fs l : (forall f, In f fs -> is_ack_reply f = false) -> replies_since_progress (rev (map LOut fs) ++ l) = replies_since_progress l.
Proof.
  induction fs as [|f fs IH] in l |- *; intros H; [reflexivity|]. cbn [map rev]. rewrite <- app_assoc. rewrite IH by (intros; apply H; right; assumption).
  cbn [app replies_since_progress]. rewrite (H f) by (left; reflexivity). reflexivity.
Qed.
Lemma headers_not_ack sid flags pmax block f : In f (send_headers sid flags pmax block) -> is_ack_reply f = false.
Proof. intros H. unfold is_ack_reply. destruct (send_headers_frames _ _ _ _ _ H) as [_ [(b & -> & _)|(b & -> & _)]]; apply andb_false_r. Qed.
Lemma not_ack_headers f b p : fr_pl f = PHeaders b p -> is_ack_reply f = false.
Proof. intros H. unfold is_ack_reply. rewrite H. apply andb_false_r. Qed.
Lemma not_ack_cont f b : fr_pl f = PCont b -> is_ack_reply f = false.
Proof. intros H. unfold is_ack_reply. rewrite H. apply andb_false_r. Qed.
Lemma not_ack_data sid b o n fin : is_ack_reply (data_frame sid b o n fin) = false.
Proof. unfold is_ack_reply. cbn [data_frame fr_pl]. apply andb_false_r. Qed.
Ltac noack := rewrite ?not_ack_data; repeat match goal with
  | R : is_ack_reply ?f = true |- _ => rewrite R
  | R : fr_pl ?f = PHeaders _ _ |- context [is_ack_reply ?f] => rewrite (not_ack_headers _ _ _ R)
  | R : fr_pl ?f = PCont _ |- context [is_ack_reply ?f] => rewrite (not_ack_cont _ _ R)
  | |- context [is_ack_reply ?f] => change (is_ack_reply f) with false end.
Lemma replies_q E th sh s s' : replies_inv s -> qstep E th sh s s' -> replies_inv s'.
Proof.
  unfold replies_inv. intros (I1 & I2) H. pose proof (always_now _ _ I2) as I3. unfold replies_ok in I3.
  norm_q H; fields; rewrite ?replies_outs by (apply headers_not_ack); cbn [replies_since_progress]; try solve [split; assumption].
  all: noack; cbv iota; (split; [try lia|]).
  all: repeat (first [apply always_cons|apply always_headers]); try assumption.
  all: try (intros ff rr [(bb & BB & _)|(bb & BB & _)] HR); unfold replies_ok, MAX_QUEUED_CONTROL_REPLIES in *; cbn [replies_since_progress]; noack; try lia.
Qed.

(** ** Header block assembly *)
Definition block_inv (s : server) : Prop := alive s = true ->
  continuations (sv_log s) <= 512 /\ len (sv_frag s) <= 1048576 /\ (sv_cursid s <> 0 -> continuations (sv_log s) <= sv_contn s).
Lemma cont_outs fs l : continuations (rev (map LOut fs) ++ l) = continuations l.
Proof. induction fs as [|f fs IH] in l |- *; [reflexivity|]. cbn [map rev]. rewrite <- app_assoc. rewrite IH. reflexivity. Qed.
Lemma block_in f s s' : block_inv s -> instep f s s' -> block_inv s'.
Proof.
  unfold block_inv. intros I H. norm_in H; fields; try solve [unfold alive; sv; discriminate].
  all: cbn [continuations]; rew_pl.
  all: unfold alive in *; fields; intros A; specialize (I A); destruct I as (I1 & I2 & I3); try solve [auto].
  all: unfold MAX_HEADER_BLOCK_SIZE, MAX_CONTINUATION_FRAMES in *; try (split; [lia|split; [lia|]]); try lia.
  all: try solve [intros C; specialize (I3 C); lia].
  unfold ignorable in H. unfold alive in H. destruct (fr_pl f); try solve [auto]; try congruence. repeat split; lia.
Qed.
Lemma block_q E th sh s s' : block_inv s -> qstep E th sh s s' -> block_inv s'.
Proof.
  unfold block_inv. intros I H. norm_q H; fields; try solve [unfold alive; sv; discriminate]; try exact I.
  all: rewrite ?cont_outs; cbn [continuations]; try exact I.
  all: unfold alive in *; fields; intros A.
  all: try solve [rewrite ?andb_false_r in A; discriminate].
  all: specialize (I A); destruct I as (I1 & I2 & I3); change (len []) with 0; repeat split; try lia; auto.
Qed.

(** ** Resets by the peer *)
Lemma count_cons p i l : count p (i :: l) = ((if p i then 1 else 0) + count p l)%nat.
Proof. unfold count. cbn [filter]. destruct (p i); reflexivity. Qed.
Lemma count_app p l1 l2 : count p (l1 ++ l2) = (count p l1 + count p l2)%nat.
Proof. unfold count. rewrite filter_app, app_length. reflexivity. Qed.
Definition resets_inv (s : server) : Prop := sv_last s <= highest_stream (sv_log s) /\ (alive s = true ->
  N.of_nat (count is_client_reset (sv_log s)) <= sv_rstc s /\
  (sv_rstc s <= 100 \/ sv_rstc s * 2 <= (sv_last s + 1) / 2)).
Lemma high_outs fs l : highest_stream (rev (map LOut fs) ++ l) = highest_stream l.
Proof. induction fs as [|f fs IH] in l |- *; [reflexivity|]. cbn [map rev]. rewrite <- app_assoc. rewrite IH. reflexivity. Qed.
Lemma count_outs p fs l : (forall f, p (LOut f) = false) -> count p (rev (map LOut fs) ++ l) = count p l.
Proof.
  intros H. induction fs as [|f fs IH] in l |- *; [reflexivity|]. cbn [map rev]. rewrite <- app_assoc. rewrite IH. cbn [app].
  rewrite count_cons, H. reflexivity.
Qed.
Lemma resets_in f s s' : resets_inv s -> instep f s s' -> resets_inv s'.
Proof.
  unfold resets_inv. intros (I0 & I) H. norm_in H; fields; rewrite ?count_cons; cbn [highest_stream is_client_reset]; rew_pl.
  all: split; [try lia; try (destruct (fr_pl f); lia)|]; try solve [unfold alive; sv; discriminate].
  all: unfold alive in *; fields; intros A; specialize (I A); destruct I as (I1 & I2); try (split; [lia|]); try lia.
  - unfold ignorable, alive in H. destruct (fr_pl f); try solve [split; [lia|exact I2]]; congruence.
  - unfold MAX_RAPID_RESETS in *. destruct H1 as [(-> & ->)|H1]; [split; [lia|exact I2]|]. destruct (N.odd (stream_of f)); split; lia.
Qed.
Lemma resets_q E th sh s s' : resets_inv s -> qstep E th sh s s' -> resets_inv s'.
Proof.
  unfold resets_inv. intros (I0 & I) H. norm_q H; fields; rewrite ?high_outs, ?count_outs, ?count_cons by reflexivity; cbn [highest_stream is_client_reset]; try solve [split; [exact I0|exact I]].
  all: split; [assumption|]; unfold alive in *; fields; intros A; try specialize (I A); try assumption; try discriminate.
  all: rewrite ?andb_false_r in A; discriminate.
Qed.

(** ** GOAWAY *)
Definition no_request_after_goaway (l : list item) : Prop :=
  match l with LReq _ _ :: r => count is_goaway_out r = 0%nat | _ => True end.
Definition goaway_inv (s : server) : Prop :=
  (count is_goaway_out (sv_log s) <= 1)%nat /\ (sv_active s = true -> count is_goaway_out (sv_log s) = 0%nat) /\ always no_request_after_goaway (sv_log s).
Lemma count_headers p sid flags pmax block l : (forall f, In f (send_headers sid flags pmax block) -> p (LOut f) = false) ->
  count p (rev (map LOut (send_headers sid flags pmax block)) ++ l) = count p l.
Proof.
  generalize (send_headers sid flags pmax block). intros fs. induction fs as [|f fs IH] in l |- *; intros H; [reflexivity|]. cbn [map rev]. rewrite <- app_assoc.
  rewrite IH by (intros; apply H; right; assumption). cbn [app]. rewrite count_cons, H by (left; reflexivity). reflexivity.
Qed.
Lemma headers_not_goaway sid flags pmax block f : In f (send_headers sid flags pmax block) -> is_goaway_out (LOut f) = false.
Proof. intros H. cbn [is_goaway_out]. destruct (send_headers_frames _ _ _ _ _ H) as [_ [(b & -> & _)|(b & -> & _)]]; reflexivity. Qed.
Lemma goaway_in f s s' : goaway_inv s -> instep f s s' -> goaway_inv s'.
Proof.
  unfold goaway_inv. intros (I1 & I2 & I3) H. norm_in H; fields; rewrite ?count_cons; cbn [is_goaway_out]; frs.
  all: repeat split; try discriminate; try assumption; try (intros A; specialize (I2 A); lia); try lia.
  all: try (match goal with A : sv_active _ = true |- _ => specialize (I2 A); lia end).
  all: repeat apply always_cons; try assumption; exact I.
Qed.
Lemma goaway_q E th sh s s' : goaway_inv s -> qstep E th sh s s' -> goaway_inv s'.
Proof.
  unfold goaway_inv. intros (I1 & I2 & I3) H. norm_q H; fields; rewrite ?count_headers by apply headers_not_goaway; rewrite ?count_cons; cbn [is_goaway_out]; frs; rew_pl.
  all: repeat split; try discriminate; try assumption; try (intros A; specialize (I2 A); lia); try lia.
  all: try (fields; match goal with A : sv_active _ = true |- _ => autorewrite with svx in A; fields; specialize (I2 A); lia end).
  all: repeat (first [apply always_cons|apply always_headers]); try assumption; try exact I.
  all: try (intros ff rr _ _; exact I).
  - apply alive_ok in H4 as [_ A]. exact (I2 A).
  - assert (A : sv_active s = true) by (rewrite <- ACT; fields; reflexivity). specialize (I2 A). lia.
Qed.

(** ** Frames sent respect the peer's settings *)
Definition unfinished (x : stream) : Prop := st_state x <> CLOSED /\ st_state x <> HALF_CLOSED_LOCAL.
Definition trail_inv (s : server) : Prop := sv_ok s = true -> forall k x, find_st (sv_streams s) k = Some x -> unfinished x -> st_trail x = true ->
  incl (map fst (rs_headers (st_resp x))) (st_sent x).
Lemma recv_state_unf es eh x : unfinished (hdr_stream es eh x) -> unfinished x.
Proof. unfold unfinished, hdr_stream, recv_state. st. destruct (es && eh), (st_state x); intros [C D]; split; congruence. Qed.
Lemma can_unf x : can_send x -> unfinished x.
Proof. intros [C|C]; split; congruence. Qed.
Lemma trail_in f s s' : wf s -> trail_inv s -> instep f s s' -> trail_inv s'.
Proof.
  unfold trail_inv. intros W I H. norm_in H; fields; try discriminate; try exact I.
  all: intros O k y G C T; specialize (I O); streams G; try solve [eapply I; eauto].
  - apply recv_state_unf in C. exact (I _ _ H0 C T).
  - discriminate T.
  - exact (I _ _ H0 C T).
  - exact (I _ _ H2 C T).
  - exact (I _ _ H2 C T).
  - exact (I _ _ H0 C T).
Qed.
Lemma trail_q E th sh s s' : wf s -> idle_inv s -> trail_inv s -> qstep E th sh s s' -> trail_inv s'.
Proof.
  unfold trail_inv. intros W J I H. norm_q H; fields; try discriminate; try exact I.
  all: intros O k y G C T; specialize (I O); streams G; try solve [eapply I; eauto].
  all: try solve [match goal with F : find_st _ _ = Some _ |- _ => exact (I _ _ F C T) end].
  all: try solve [discriminate T]; try congruence.
  all: try solve [destruct C as [C1 C2]; cbn in C1, C2; congruence].
  - refine (I _ _ H _ T). split; [exact H2|]. intros F. pose proof (ws_hcl _ (w_st _ W _ _ H) F). congruence.
  - refine (I _ _ H _ T). split; congruence.
  - exfalso. destruct C as [C1 C2]. cbn in C1, C2. destruct H0 as [H0|[H0|[H0|H0]]]; try congruence.
    rewrite (J O H0) in H. discriminate.
  - intros a Ha. apply in_or_app. right. exact (I _ _ H C T a Ha).
  - intros a Ha. apply in_or_app. left. exact Ha.
  - exfalso. destruct C as [C1 C2]. unfold response_ends in C1, C2. sth C1. sth C2. destruct H0 as [E0|E0]; rewrite E0 in *; congruence.
  - exfalso. assert (A : sv_active s = false) by (rewrite <- ACT; fields; reflexivity). rewrite (J O A) in H. discriminate.
  - unfold data_stream in *. destruct fin; [destruct C as [C1 C2]; cbn in C1, C2; congruence|]. exact (I _ _ H C T).
  - refine (I _ _ H0 _ T). split; [exact H5|]. intros F. pose proof (ws_hcl _ (w_st _ W _ _ H0) F). congruence.
Qed.
Lemma trailer_fields_nil x : incl (map fst (rs_headers (st_resp x))) (st_sent x) -> trailer_fields x = [].
Proof.
  unfold trailer_fields. generalize (rs_headers (st_resp x)). induction l as [|[n vals] l IH]; intros H; [reflexivity|]. cbn [flat_map].
  rewrite IH by (intros a Ha; apply H; right; exact Ha).
  replace (existsb (beq n) (st_sent x)) with true; [reflexivity|]. symmetry. apply existsb_exists. exists n. split; [apply H; left; reflexivity|apply beq_refl].
Qed.
Definition limits_inv (s : server) : Prop := always respects_peer_settings (sv_log s).
Lemma limits_in f s s' : limits_inv s -> instep f s s' -> limits_inv s'.
Proof. unfold limits_inv. intros I H. norm_in H; fields; repeat apply always_cons; try assumption; exact Logic.I. Qed.
Lemma limits_frames fs l pm : (forall f, In f fs -> (exists b, fr_pl f = PHeaders b None /\ len b <= pm) \/ (exists b, fr_pl f = PCont b /\ len b <= pm)) ->
  setting 5 16384 l = pm -> always respects_peer_settings l -> always respects_peer_settings (rev (map LOut fs) ++ l).
Proof.
  revert l. induction fs as [|f fs IH]; intros l HF HS HA; [exact HA|]. cbn [map rev]. rewrite <- app_assoc. cbn [app].
  apply IH; [intros; apply HF; right; assumption|exact HS|]. apply always_cons; [exact HA|]. unfold respects_peer_settings. rewrite HS.
  unfold len in HF. destruct (HF f (or_introl eq_refl)) as [(b & -> & B)|(b & -> & B)]; exact B.
Qed.
Lemma limits_q E th sh s s' : wf s -> settings_inv s -> trail_inv s -> limits_inv s -> qstep E th sh s s' -> limits_inv s'.
Proof.
  unfold limits_inv. intros W SI TI I H. pose proof SI as (S1 & S2 & S3 & _).
  assert (MX : N.max 1 (sv_pmax s) = sv_pmax s) by lia.
  norm_q H; fields; repeat (first [apply always_cons]); try assumption; try exact Logic.I.
  all: unfold respects_peer_settings; frs; rew_pl; try exact Logic.I.
  all: try match goal with R : send_headers _ _ _ _ = _ :: _, F : fr_pl ?f = _ |- _ => destruct (headers_head _ _ _ _ _ _ R) as [(b1 & B1 & B2)|(b1 & B1 & B2)]; rewrite B1 in F;
     try discriminate F; injection F as <-; cbn [setting]; rewrite <- S1; unfold len in B2; lia end.
  1,2: refine (limits_frames _ _ (sv_pmax s) _ _ _); [intros f Hf; destruct (send_headers_frames _ _ _ _ _ Hf) as [_ X]; rewrite MX in X; exact X|cbn [setting]; rewrite S1; reflexivity|].
  1,2: apply always_cons; [exact I|exact Logic.I].
  - rewrite firstn_length, <- S1. lia.
  - rewrite H4; [rewrite <- S1; cbn; lia|]. apply trailer_fields_nil. exact (TI H1 _ _ H (can_unf _ H0) H3).
  - rewrite S3 in H6. apply N.eqb_eq. exact H6.
Qed.

(** ** Concurrent client streams *)
Definition busy (p : N * stream) : bool := N.odd (fst p) && in_progress (snd p).
Definition opened (s : server) : Prop := forall k x, find_st (sv_streams s) k = Some x -> N.odd k = true ->
  (st_endr x = true -> st_state x <> IDLE) /\ st_state x <> RESERVED_LOCAL.
Lemma busy_put l sid x y : find_st l sid = Some x -> (busy (sid, y) = true -> busy (sid, x) = true) ->
  (length (filter busy (put_st l sid y)) <= length (filter busy l))%nat.
Proof.
  intros F M. revert F. induction l as [|[k z] l IH]; cbn [find_st put_st]; [discriminate|].
  destruct (k =? sid) eqn:E.
  - intros H. injection H as ->. apply N.eqb_eq in E. subst k. cbn [filter]. destruct (busy (sid, y)); [rewrite M by reflexivity; cbn [length]; lia|].
    destruct (busy (sid, x)); cbn [length]; lia.
  - intros H. specialize (IH H). cbn [filter]. destruct (busy (k, z)); cbn [length]; lia.
Qed.
Lemma busy_updl l sid g : (forall x, find_st l sid = Some x -> busy (sid, g x) = true -> busy (sid, x) = true) ->
  (length (filter busy (updl sid g l)) <= length (filter busy l))%nat.
Proof. intros M. unfold updl. destruct (find_st l sid) as [x|] eqn:F; [|lia]. eapply busy_put; eauto. Qed.
Lemma busy_del l sid : (length (filter busy (del_st l sid)) <= length (filter busy l))%nat.
Proof.
  unfold del_st. induction l as [|[k z] l IH]; [reflexivity|]. cbn [filter fst]. destruct (k =? sid); cbn [negb filter]; destruct (busy (k, z)); cbn [length]; lia.
Qed.
Lemma busy_active s : (length (filter busy (sv_streams s)) <= N.to_nat (active_client_streams s))%nat.
Proof.
  unfold active_client_streams. rewrite Nat2N.id. induction (sv_streams s) as [|[k z] l IH]; [reflexivity|]. cbn [filter]. unfold busy at 1. cbn [fst snd].
  unfold in_progress. change (odd_id k) with (N.odd k). destruct (N.odd k); cbn [andb]; [|exact IH].
  destruct (st_state z); cbn [is_state orb]; try exact IH; destruct (negb (st_rsts z) && negb (st_rstr z)); cbn [length]; lia.
Qed.
Lemma opened_in f s s' : wf s -> opened s -> instep f s s' -> opened s'.
Proof.
  unfold opened. intros W I H. norm_in H; fields; try exact I.
  all: intros k y G O; streams G; try solve [eapply I; eauto].
  all: try solve [match goal with F : find_st _ _ = Some _ |- _ => subst k; exact (I _ _ F O) end].
  all: try solve [split; discriminate].
  - unfold hdr_stream, recv_state. st. subst k. pose proof (I _ _ H0 O) as [_ I2]. destruct (_ && _), (st_state x); split; congruence.
  - unfold hdr_stream, recv_state, new_stream. st. destruct (_ && _); split; discriminate.
  - subst k. pose proof (I _ _ H2 O) as [_ I2]. unfold acc_stream. st. split; [|exact I2]. intros _. eapply (w_idle _ W H0); eauto.
  - subst k. pose proof (I _ _ H2 O) as [_ I2]. unfold grant, acc_stream. st. split; [|exact I2]. intros _. eapply (w_idle _ W H0); eauto.
Qed.
Lemma opened_q E th sh s s' : opened s -> qstep E th sh s s' -> opened s'.
Proof.
  unfold opened. intros I H. norm_q H; fields; try exact I.
  all: intros k y G O; streams G; try solve [eapply I; eauto].
  all: try solve [match goal with F : find_st _ _ = Some _ |- _ => subst k; exact (I _ _ F O) end].
  all: try solve [split; discriminate].
  - unfold response_ends. st. subst k. destruct H0 as [C|C]; rewrite C; split; discriminate.
  - unfold data_stream. subst k. destruct fin; [st; split; discriminate|exact (I _ _ H O)].
  - subst k. congruence.
Qed.
Definition conc_inv (s : server) : Prop := (length (filter busy (sv_streams s)) <= 50)%nat.
Ltac bz := match goal with M : _ |- (length (filter busy ?l) <= 50)%nat => eapply Nat.le_trans; [|exact M] end;
  repeat first [eapply Nat.le_trans; [apply busy_del|]|eapply Nat.le_trans; [apply busy_updl|]]; [..|reflexivity]; try solve [intros ? ? B; exact B].
Lemma busy_hdr es eh sid x : st_state x <> IDLE -> st_state x <> RESERVED_LOCAL -> busy (sid, hdr_stream es eh x) = true -> busy (sid, x) = true.
Proof.
  unfold busy, in_progress, hdr_stream, recv_state. cbn [fst snd]. st. intros A B.
  destruct (es && eh), (st_state x); try congruence; auto; rewrite ?andb_false_r; discriminate.
Qed.
Lemma conc_in f s s' : wf s -> opened s -> conc_inv s -> instep f s s' -> conc_inv s'.
Proof.
  unfold conc_inv. intros W OP I H. norm_in H; fields; try exact I; try solve [bz].
  - cbn [filter]. unfold busy at 1. cbn [fst snd in_progress new_stream st_state]. rewrite andb_false_r. exact I.
  - bz. intros y F. unfold get in H0. rewrite H0 in F. injection F as <-. apply busy_hdr; [exact H8|]. eapply OP; eauto.
  - pose proof (busy_active s). unfold OUR_MAX_CONCURRENT in H5. cbn [filter]. destruct (busy _); cbn [length]; lia.
Qed.
Lemma conc_q E th sh s s' : wf s -> opened s -> conc_inv s -> qstep E th sh s s' -> conc_inv s'.
Proof.
  unfold conc_inv. intros W OP I H. norm_q H; fields; try exact I; try solve [bz].
  - bz. intros y F B. unfold get in H. rewrite H in F. injection F as <-. pose proof (ws_hcl _ (w_st _ W _ _ H)) as WH.
    unfold busy in *. cbn [fst snd] in *. destruct (N.odd sid) eqn:OD; [|discriminate]. destruct (OP _ _ H OD) as [O1 O2]. pose proof (ws_rr _ (w_st _ W _ _ H)).
    unfold in_progress in *. sth B. destruct (st_state x); try congruence; try exact B. specialize (O1 H0). congruence.
  - bz. intros y F B. unfold busy, in_progress in B. cbn in B. rewrite andb_false_r in B. discriminate.
  - bz. intros y F B. unfold get in H. rewrite H in F. injection F as <-. unfold busy, in_progress in *. cbn [fst snd] in *. rewrite H1. exact B.
  - bz. intros y F B. unfold busy, in_progress, response_ends in *. cbn [fst snd] in *. sth B. destruct (st_state y); rewrite ?andb_false_r in B; try discriminate B; exact B.
  - bz. intros y F B. unfold get in H. rewrite H in F. injection F as <-. unfold busy, in_progress, data_stream in *. cbn [fst snd] in *.
    destruct fin; [|exact B]. sth B. destruct H0 as [E0|E0]; rewrite E0; exact B.
  - bz. intros y F B. unfold get in H. rewrite H in F. injection F as <-. unfold busy, in_progress in *. cbn [fst snd] in *.
    sth B. destruct H0 as [E0|E0]; rewrite E0; exact B.
  - cbn [filter]. unfold busy at 1. cbn [fst snd]. rewrite H2. exact I.
  - bz. intros y F B. unfold busy, in_progress in B. cbn in B. rewrite andb_false_r in B. discriminate.
Qed.
