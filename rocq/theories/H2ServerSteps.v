(** Decomposition of the server of H2ServerModel into elementary steps.  Every handler is shown to be a
    sequence of these; invariants are then proved step by step.  Nothing here is part of a theorem's
    statement. *)
From Coq Require Import Permutation.
From Verif Require Import Base UtilModel HpackTables HpackModel HpackSpec DynTableProofs HpackCodecProofs HpackConnProofs
  H2Model H2Proofs H2FramerProofs H2FieldModel H2ServerModel H2ServerSpec.
Local Open Scope N_scope.

Ltac sv := cbn [sv_streams sv_last sv_rstc sv_ctl sv_contn sv_frag sv_cursid sv_csend sv_crecv sv_ipeer sv_pmcs sv_pmhls sv_ppush sv_setsent sv_active sv_grace sv_gal sv_dec sv_enc sv_pmax sv_ok sv_now sv_log sv_ub set_sv_streams set_sv_last set_sv_rstc set_sv_ctl set_sv_contn set_sv_frag set_sv_cursid set_sv_csend set_sv_crecv set_sv_ipeer set_sv_pmcs set_sv_pmhls set_sv_ppush set_sv_setsent set_sv_active set_sv_grace set_sv_gal set_sv_dec set_sv_enc set_sv_pmax set_sv_ok set_sv_now set_sv_log set_sv_ub note emit erase debit get].
Ltac svh H := cbn [sv_streams sv_last sv_rstc sv_ctl sv_contn sv_frag sv_cursid sv_csend sv_crecv sv_ipeer sv_pmcs sv_pmhls sv_ppush sv_setsent sv_active sv_grace sv_gal sv_dec sv_enc sv_pmax sv_ok sv_now sv_log sv_ub set_sv_streams set_sv_last set_sv_rstc set_sv_ctl set_sv_contn set_sv_frag set_sv_cursid set_sv_csend set_sv_crecv set_sv_ipeer set_sv_pmcs set_sv_pmhls set_sv_ppush set_sv_setsent set_sv_active set_sv_grace set_sv_gal set_sv_dec set_sv_enc set_sv_pmax set_sv_ok set_sv_now set_sv_log set_sv_ub note emit erase debit get] in H.
Ltac st := cbn [st_state st_local st_peer st_proc st_endr st_ends st_rstr st_rsts st_main st_cont st_clen st_req st_disp st_off st_resp st_sent st_pend st_trail st_parent st_act st_err set_st_state set_st_local set_st_peer set_st_proc set_st_endr set_st_ends set_st_rstr set_st_rsts set_st_main set_st_cont set_st_clen set_st_req set_st_disp set_st_off set_st_resp set_st_sent set_st_pend set_st_trail set_st_parent set_st_act set_st_err].
Ltac sth H := cbn [st_state st_local st_peer st_proc st_endr st_ends st_rstr st_rsts st_main st_cont st_clen st_req st_disp st_off st_resp st_sent st_pend st_trail st_parent st_act st_err set_st_state set_st_local set_st_peer set_st_proc set_st_endr set_st_ends set_st_rstr set_st_rsts set_st_main set_st_cont set_st_clen set_st_req set_st_disp set_st_off set_st_resp set_st_sent set_st_pend set_st_trail set_st_parent set_st_act set_st_err] in H.

(** ** The stream map *)
Lemma find_put_same l sid x y : find_st l sid = Some x -> find_st (put_st l sid y) sid = Some y.
Proof.
  induction l as [|[k z] l IH]; cbn [find_st put_st]; [discriminate|].
  destruct (k =? sid) eqn:E; cbn [find_st]; rewrite E; auto.
Qed.
Lemma find_put_other l sid k y : k <> sid -> find_st (put_st l sid y) k = find_st l k.
Proof.
  intros N. induction l as [|[j z] l IH]; cbn [find_st put_st]; [reflexivity|].
  destruct (j =? sid) eqn:E; cbn [find_st].
  - apply N.eqb_eq in E. subst. destruct (sid =? k) eqn:E2; [apply N.eqb_eq in E2; congruence|reflexivity].
  - rewrite IH. reflexivity.
Qed.
Lemma find_put_none l sid k y : find_st l k = None -> find_st (put_st l sid y) k = None.
Proof.
  intros H. induction l as [|[j z] l IH]; cbn [find_st put_st] in *; [reflexivity|].
  destruct (j =? k) eqn:E; [discriminate|]. destruct (j =? sid); cbn [find_st]; rewrite E; auto.
Qed.
Lemma find_del_same l sid : find_st (del_st l sid) sid = None.
Proof.
  unfold del_st. induction l as [|[k x] l IH]; [reflexivity|]. cbn [filter fst].
  destruct (k =? sid) eqn:E; cbn [negb]; [exact IH|]. cbn [find_st]. rewrite E. exact IH.
Qed.
Lemma find_del_other l sid k : k <> sid -> find_st (del_st l sid) k = find_st l k.
Proof.
  intros N. unfold del_st. induction l as [|[j x] l IH]; [reflexivity|]. cbn [filter fst find_st].
  destruct (j =? sid) eqn:E; cbn [negb find_st].
  - rewrite IH. destruct (j =? k) eqn:E2; [apply N.eqb_eq in E, E2; congruence|reflexivity].
  - rewrite IH. reflexivity.
Qed.
Lemma put_put l sid x y : put_st (put_st l sid x) sid y = put_st l sid y.
Proof.
  induction l as [|[k z] l IH]; [reflexivity|]. cbn [put_st]. destruct (k =? sid) eqn:E; cbn [put_st]; rewrite E; congruence.
Qed.
Lemma del_put l sid x : del_st (put_st l sid x) sid = del_st l sid.
Proof.
  unfold del_st. induction l as [|[k z] l IH]; [reflexivity|]. cbn [put_st]. destruct (k =? sid) eqn:E; cbn [filter fst]; rewrite E; cbn [negb].
  - reflexivity.
  - rewrite IH. reflexivity.
Qed.
Lemma del_absent l sid : find_st l sid = None -> del_st l sid = l.
Proof.
  unfold del_st. induction l as [|[k z] l IH]; [reflexivity|]. cbn [find_st filter fst]. destruct (k =? sid); cbn [negb]; [discriminate|].
  intros H. rewrite IH; auto.
Qed.
Lemma del_cons_same l sid x : find_st l sid = None -> del_st ((sid, x) :: l) sid = l.
Proof. intros H. unfold del_st. cbn [filter fst]. rewrite N.eqb_refl. cbn [negb]. apply del_absent, H. Qed.
Lemma keys_put l sid x : map fst (put_st l sid x) = map fst l.
Proof. induction l as [|[k z] l IH]; [reflexivity|]. cbn [put_st]. destruct (k =? sid); cbn [map fst]; congruence. Qed.
Lemma keys_del_in l sid k : In k (map fst (del_st l sid)) -> In k (map fst l).
Proof.
  unfold del_st. intros H. apply in_map_iff in H as ((a & b) & <- & H). apply filter_In in H as [H _].
  apply in_map_iff. exists (a, b). auto.
Qed.
Lemma keys_del_nodup l sid : NoDup (map fst l) -> NoDup (map fst (del_st l sid)).
Proof.
  induction l as [|[k z] l IH]; intros H; [constructor|]. cbn [map fst] in H. inversion H; subst.
  unfold del_st. cbn [filter fst]. destruct (k =? sid); cbn [negb]; [apply IH; auto|]. cbn [map fst]. constructor; [|apply IH; auto].
  intros C. apply keys_del_in in C. auto.
Qed.
Lemma find_in l k x : find_st l k = Some x -> In (k, x) l.
Proof.
  induction l as [|[j z] l IH]; cbn [find_st]; [discriminate|]. destruct (j =? k) eqn:E; intros H.
  - injection H as ->. apply N.eqb_eq in E. subst. left; auto.
  - right; auto.
Qed.
Lemma find_none_keys l k : find_st l k = None -> ~ In k (map fst l).
Proof.
  induction l as [|[j z] l IH]; cbn [find_st map fst]; intros H; [tauto|]. destruct (j =? k) eqn:E; [discriminate|].
  apply N.eqb_neq in E. simpl. intros [C|C]; [congruence|]. apply IH; auto.
Qed.
Lemma in_find l k x : NoDup (map fst l) -> In (k, x) l -> find_st l k = Some x.
Proof.
  induction l as [|[j z] l IH]; cbn [map fst]; intros ND H; [destruct H|]. inversion ND; subst. cbn [find_st].
  destruct H as [H|H].
  - injection H as -> ->. rewrite N.eqb_refl. reflexivity.
  - destruct (j =? k) eqn:E; [|apply IH; auto]. apply N.eqb_eq in E. subst. exfalso. apply H2. apply in_map_iff. exists (k, x). auto.
Qed.

Lemma upd_some s sid x g : get s sid = Some x -> upd sid g s = set_sv_streams (put_st (sv_streams s) sid (g x)) s.
Proof. intros H. unfold upd. rewrite H. reflexivity. Qed.
Lemma get_upd_same s sid x g : get s sid = Some x -> get (upd sid g s) sid = Some (g x).
Proof. intros H. rewrite (upd_some _ _ _ _ H). unfold get. cbn. eapply find_put_same, H. Qed.
Lemma get_upd_other s sid k g : k <> sid -> get (upd sid g s) k = get s k.
Proof.
  intros H. unfold upd. destruct (get s sid) eqn:E; [|reflexivity]. unfold get. cbn. apply find_put_other, H.
Qed.
Lemma upd_upd s sid x f g : get s sid = Some x -> upd sid f (upd sid g s) = upd sid (fun x => f (g x)) s.
Proof.
  intros H. rewrite (upd_some _ _ _ f (get_upd_same s sid x g H)), !(upd_some _ _ _ _ H). unfold set_sv_streams. cbn. rewrite put_put. reflexivity.
Qed.
Lemma upd_ext s sid x f g : get s sid = Some x -> f x = g x -> upd sid f s = upd sid g s.
Proof. intros H E. rewrite !(upd_some _ _ _ _ H), E. reflexivity. Qed.
Lemma get_erase_same s sid : get (erase sid s) sid = None.
Proof. unfold get, erase. cbn. apply find_del_same. Qed.
Lemma get_erase_other s sid k : k <> sid -> get (erase sid s) k = get s k.
Proof. intros H. unfold get, erase. cbn. apply find_del_other, H. Qed.
Lemma erase_upd s sid g : get s sid <> None -> erase sid (upd sid g s) = erase sid s.
Proof.
  intros H. destruct (get s sid) as [x|] eqn:E; [|congruence]. rewrite (upd_some _ _ _ _ E). unfold erase. sv. rewrite del_put. reflexivity.
Qed.
Lemma erase_absent s sid : get s sid = None -> erase sid s = s.
Proof. intros H. unfold erase. rewrite del_absent by exact H. destruct s; reflexivity. Qed.

(** ** HPACK calls never leave the tables *)
Lemma encode_fields_total : forall fs d t, dwf d t -> exists d' out ok t', encode_fields d fs = Some (d', out, ok) /\ dwf d' t'.
Proof.
  induction fs as [|f fs IH]; intros d t W; cbn [encode_fields].
  - exists d, [], true, t. auto.
  - destruct (negb (hv_is_valid_field f)); [exists d, [], false, t; auto|].
    assert (H : exists bytes d1 t1, encode_field d f = Some (bytes, d1) /\ dwf d1 t1).
    { unfold encode_field. destruct (find_exact_match (f_name f) (f_value f)); [eauto|].
      destruct (scan_dynamic_spec d t (f_name f) (f_value f) W (N.to_nat (dt_count d)) 0 None) as (res & Er & _);
        [pose proof W as ((C & _) & _); lia|discriminate|].
      change (N.of_nat 0) with 0 in Er. rewrite Er. destruct res as [j|dyn]; [eauto|].
      destruct (f_sensitive f || is_sensitive_by_default f || is_pseudo_header f); [eauto|].
      match goal with |- context [if ?b then _ else _] => destruct b end; [|eauto].
      destruct (dt_add_spec d t (f_name f) (f_value f) W) as (d1 & t1 & EA & W1 & _). rewrite EA. eauto. }
    destruct H as (bytes & d1 & t1 & -> & W1). destruct (IH d1 t1 W1) as (d2 & out & ok & t2 & -> & W2). eauto 10.
Qed.
Lemma encode_total e fs : (exists t, dwf (enc_table e) t) ->
  exists e' out ok, encode e fs = Some (e', out, ok) /\ exists t, dwf (enc_table e') t.
Proof.
  intros [t W]. unfold encode. destruct (encode_fields_total fs _ _ W) as (d & out & ok & t' & -> & W').
  do 3 eexists. split; [reflexivity|]. exists t'. exact W'.
Qed.
Lemma enc_peer_total e m : (exists t, dwf (enc_table e) t) ->
  exists e', enc_set_peer_max e m = Some e' /\ exists t, dwf (enc_table e') t.
Proof.
  intros [t W]. unfold enc_set_peer_max. destruct (m <? dt_max (enc_table e)) eqn:E.
  - apply N.ltb_lt in E. pose proof W as (_ & _ & HM).
    destruct (dt_set_max_spec _ t m W) as (d1 & t1 & -> & W1 & _); [lia|]. cbn. eexists. split; [reflexivity|]. exists t1. exact W1.
  - eexists. split; [reflexivity|]. exists t. exact W.
Qed.
Definition dec_ok (d : decoder) : Prop := (exists t, dwf (dec_table d) t) /\ dec_limit d < 2 ^ 64.
Lemma decode_total d block d' res : dec_ok d -> bytes_ok block -> decode d block = (d', res) -> dec_ok d' /\ res <> OUndef.
Proof.
  intros [[t W] HL] Hb. unfold decode. destruct (decode_loop _ _ _ _ _ _ _) as [d1 r1] eqn:E. intros H. injection H as <- <-.
  destruct (decode_loop_sound _ _ _ _ _ _ _ _ _ _ W Hb HL (Nat.le_refl _) E) as (U & W1 & _). split; [split; [exact W1|exact HL]|exact U].
Qed.

(** ** Well-formed states *)
Definition hdr_ok (h : list N * list N) : Prop := is_valid_header_field (fst h) (snd h) = true /\ is_forbidden_header (fst h) = false.
Definition clen_ok (r : request) (c : option N) : Prop :=
  (forall v, In (str "content-length", v) (rq_headers r) -> exists n, parse_content_length v = Some n /\ c = Some n) /\ Forall hdr_ok (rq_headers r).

Record wf_st (x : stream) : Prop := mk_wf_st {
  ws_ends : st_ends x = true -> st_state x = HALF_CLOSED_LOCAL \/ st_state x = CLOSED;
  ws_hcl : st_state x = HALF_CLOSED_LOCAL -> st_ends x = true;
  ws_closed : st_state x = CLOSED -> st_rsts x = true \/ st_rstr x = true \/ (st_ends x = true /\ st_endr x = true);
  ws_hcr : st_state x = HALF_CLOSED_REMOTE -> st_endr x = true;
  ws_rr : st_state x <> RESERVED_REMOTE;
  ws_clen : clen_ok (st_req x) (st_clen x);
  ws_off : (st_off x <= length (rs_body (st_resp x)))%nat
}.

Record wf (s : server) : Prop := mk_wf {
  w_enc : exists t, dwf (enc_table (sv_enc s)) t;
  w_dec : dec_ok (sv_dec s);
  w_frag : bytes_ok (sv_frag s);
  w_ub : sv_ub s = false;
  w_nodup : NoDup (map fst (sv_streams s));
  w_odd : forall k x, get s k = Some x -> N.odd k = true -> k <= sv_last s;
  w_last : sv_last s < 2 ^ 31;
  w_st : forall k x, get s k = Some x -> wf_st x;
  w_idle : alive s = true -> forall k x, get s k = Some x -> st_state x <> IDLE;
  w_crecv : sv_ok s = true -> (0 <= sv_crecv s <= 65535)%Z;
  w_key : forall k x, get s k = Some x -> k < 2 ^ 31 /\ k <> 0
}.

Lemma wf_ext s s' : wf s -> sv_streams s' = sv_streams s -> sv_enc s' = sv_enc s -> sv_dec s' = sv_dec s ->
  bytes_ok (sv_frag s') -> sv_ub s' = false -> sv_last s' = sv_last s -> (alive s' = true -> alive s = true) ->
  (sv_ok s' = true -> (0 <= sv_crecv s' <= 65535)%Z) -> wf s'.
Proof.
  intros W ES EE ED HF HU HL HA HC. destruct W as [we wd wfr wu wn wo wl ws wi wc wk].
  assert (EG : forall k, get s' k = get s k) by (intros; unfold get; rewrite ES; reflexivity).
  constructor; rewrite ?EE, ?ED, ?ES, ?HL; auto.
  - intros k x. rewrite EG. eauto.
  - intros k x. rewrite EG. eauto.
  - intros A k x. rewrite EG. eauto.
  - intros k x. rewrite EG. eauto.
Qed.
Lemma wf_enc s e : wf s -> (exists t, dwf (enc_table e) t) -> wf (set_sv_enc e s).
Proof. intros [we wd wfr wu wn wo wl ws wi wc wk] H. constructor; auto. Qed.
Lemma wf_dec s d : wf s -> dec_ok d -> wf (set_sv_dec d s).
Proof. intros [we wd wfr wu wn wo wl ws wi wc wk] H. constructor; auto. Qed.
Lemma wf_upd s sid x g : wf s -> get s sid = Some x -> wf_st (g x) -> (alive s = true -> st_state (g x) <> IDLE) -> wf (upd sid g s).
Proof.
  intros [we wd wfr wu wn wo wl ws wi wc wk] HG HX HI.
  assert (P : forall k y, get (upd sid g s) k = Some y -> (k = sid /\ y = g x) \/ (k <> sid /\ get s k = Some y)).
  { intros k y. destruct (N.eq_dec k sid) as [->|N].
    - rewrite (get_upd_same _ _ _ _ HG). intros E; injection E as <-. auto.
    - rewrite get_upd_other by exact N. auto. }
  rewrite (upd_some _ _ _ _ HG) in *. constructor; sv; auto.
  - rewrite keys_put. exact wn.
  - intros k y Hk Ho. destruct (P k y Hk) as [[-> _]|[_ H]]; eauto.
  - intros k y Hk. destruct (P k y Hk) as [[-> ->]|[_ H]]; eauto.
  - intros A k y Hk. destruct (P k y Hk) as [[-> ->]|[_ H]]; auto. eapply wi; eauto.
  - intros k y Hk. destruct (P k y Hk) as [[-> _]|[_ H]]; eauto.
Qed.
Lemma wf_erase s sid : wf s -> wf (erase sid s).
Proof.
  intros [we wd wfr wu wn wo wl ws wi wc wk].
  assert (P : forall k y, get (erase sid s) k = Some y -> get s k = Some y).
  { intros k y. destruct (N.eq_dec k sid) as [->|N]; [rewrite get_erase_same; discriminate|]. rewrite get_erase_other by exact N. auto. }
  constructor; auto.
  - apply keys_del_nodup. exact wn.
  - intros k x Hk Ho. eapply wo; eauto.
  - intros k x Hk. eauto.
  - intros A k x Hk. apply (wi A k x). auto.
  - intros k x Hk. eauto.
Qed.
Lemma wf_add s sid x last : wf s -> get s sid = None -> (sid < 2 ^ 31 /\ sid <> 0) -> (N.odd sid = true -> sid <= last) -> sv_last s <= last -> last < 2 ^ 31 -> wf_st x ->
  (alive s = true -> st_state x <> IDLE) -> wf (set_sv_last last (set_sv_streams ((sid, x) :: sv_streams s) s)).
Proof.
  intros [we wd wfr wu wn wo wl ws wi wc wk] HG HK HS HL1 HL2 HX HI.
  assert (P : forall k y, get (set_sv_last last (set_sv_streams ((sid, x) :: sv_streams s) s)) k = Some y -> (k = sid /\ y = x) \/ get s k = Some y).
  { intros k y. unfold get. sv. cbn [find_st]. destruct (sid =? k) eqn:E; [|auto]. apply N.eqb_eq in E. intros H; injection H as <-. auto. }
  constructor; auto.
  - cbn [sv_streams set_sv_last set_sv_streams map fst]. constructor; [|exact wn]. apply find_none_keys, HG.
  - intros k y Hk Ho. destruct (P k y Hk) as [[-> _]|H]; [cbn; auto|]. etransitivity; [eapply wo; eauto|exact HL1].
  - intros k y Hk. destruct (P k y Hk) as [[-> ->]|H]; eauto.
  - intros A k y Hk. destruct (P k y Hk) as [[-> ->]|H]; [auto|]. eapply wi; eauto.
  - intros k y Hk. destruct (P k y Hk) as [[-> _]|H]; [exact HK|eauto].
Qed.

(** ** Elementary steps *)
Definition can_send (x : stream) : Prop := st_state x = OPEN \/ st_state x = HALF_CLOSED_REMOTE.
Definition rst_frame (sid code : N) : frame := mk_frame (mk_h T_RST_STREAM 0 sid) (PRst code).
Definition wu_frame (sid inc : N) : frame := mk_frame (mk_h T_WINDOW_UPDATE 0 sid) (PWindow inc).
Definition end_stream_of (f : frame) : bool := has_flag (h_flags (fr_hdr f)) FLAG_END_STREAM.
Definition end_headers_of (f : frame) : bool := has_flag (h_flags (fr_hdr f)) FLAG_END_HEADERS.

Definition recv_state (es eh : bool) (st0 : sstate) : sstate :=
  let st1 := match st0 with IDLE => OPEN | _ => st0 end in
  if es && eh then match st1 with OPEN => HALF_CLOSED_REMOTE | HALF_CLOSED_LOCAL => CLOSED | _ => st1 end else st1.
Definition hdr_stream (es eh : bool) (x : stream) : stream :=
  set_st_cont (negb eh) (set_st_state (recv_state es eh (st_state x)) (set_st_endr (st_endr x || es) x)).
Definition hdr_base (f : frame) (sid : N) (b : list N) (s : server) : server :=
  set_sv_frag (sv_frag s ++ b) (set_sv_cursid sid (set_sv_contn 0 (set_sv_ctl 0 (note (LIn f) s)))).
Definition acc_stream (d : list N) (z : N) (fin : bool) (x : stream) : stream :=
  set_st_proc (st_proc x + z) (set_st_endr (st_endr x || fin)
    (set_st_req (mk_req (rq_method (st_req x)) (rq_uri (st_req x)) (rq_headers (st_req x)) (rq_body (st_req x) ++ d))
      (set_st_local (st_local x - Z.of_N z)%Z x))).

Definition grant (x : stream) : stream := set_st_proc 0 (set_st_local (st_local x + Z.of_N (st_proc x))%Z x).

Definition ignorable (f : frame) (s : server) : Prop :=
  match fr_pl f with
  | PData _ _ | PCont _ | PRst _ => alive s = false
  | PHeaders _ _ => alive s = false \/
      exists x, get s (stream_of f) = Some x /\
                (st_state x = CLOSED \/ st_rsts x = true \/ st_rstr x = true \/ st_state x = HALF_CLOSED_REMOTE)
  | _ => True
  end.

(** Receiving one frame, up to the point where its content has been accounted for. *)
Inductive instep (f : frame) (s : server) : server -> Prop :=
| in_ignore : ignorable f s -> instep f s (note (LIn f) s)
| in_dead code rstc ctl contn cursid frag : sv_active s = true -> bytes_ok frag -> (ctl = sv_ctl s \/ (ctl = 0 /\ is_progress f = true)) ->
    instep f s (goaway code (set_sv_rstc rstc (set_sv_ctl ctl (set_sv_contn contn (set_sv_cursid cursid (set_sv_frag frag (note (LIn f) s)))))))
| in_new_dead code contn cursid frag b p : fr_pl f = PHeaders b p -> get s (stream_of f) = None -> N.odd (stream_of f) = true ->
    sv_last s < stream_of f -> sv_active s = true -> bytes_ok frag -> stream_of f <> 0 ->
    instep f s (goaway code (set_sv_ctl 0 (set_sv_contn contn (set_sv_cursid cursid (set_sv_frag frag
                 (set_sv_last (stream_of f) (set_sv_streams ((stream_of f, new_stream (Z.of_N (sv_ipeer s)) 65535 (sv_now s)) :: sv_streams s)
                   (note (LIn f) s))))))))
| in_refuse code b p : fr_pl f = PHeaders b p -> get s (stream_of f) = None -> sv_active s = true ->
    instep f s (emit (rst_frame (stream_of f) code) (note (LIn f) s))
| in_hdr_old x b p : fr_pl f = PHeaders b p -> get s (stream_of f) = Some x -> N.odd (stream_of f) = true -> alive s = true ->
    st_cont x = false -> st_rstr x = false -> st_rsts x = false -> st_state x <> CLOSED -> st_state x <> HALF_CLOSED_REMOTE ->
    (st_state x <> IDLE) -> len (sv_frag s ++ b) <= MAX_HEADER_BLOCK_SIZE -> stream_of f <> 0 ->
    instep f s (upd (stream_of f) (hdr_stream (end_stream_of f) (end_headers_of f)) (hdr_base f (stream_of f) b s))
| in_hdr_new b p : fr_pl f = PHeaders b p -> get s (stream_of f) = None -> N.odd (stream_of f) = true -> alive s = true ->
    sv_last s < stream_of f -> sv_grace s = false -> active_client_streams s < OUR_MAX_CONCURRENT ->
    len (sv_frag s ++ b) <= MAX_HEADER_BLOCK_SIZE -> stream_of f <> 0 ->
    instep f s (set_sv_last (stream_of f) (set_sv_streams
       ((stream_of f, hdr_stream (end_stream_of f) (end_headers_of f) (new_stream (Z.of_N (sv_ipeer s)) 65535 (sv_now s))) :: sv_streams s)
       (hdr_base f (stream_of f) b s)))
| in_cont x b : fr_pl f = PCont b -> get s (stream_of f) = Some x -> alive s = true -> sv_cursid s = stream_of f -> stream_of f <> 0 ->
    st_cont x = true -> sv_contn s + 1 <= MAX_CONTINUATION_FRAMES -> len (sv_frag s ++ b) <= MAX_HEADER_BLOCK_SIZE ->
    instep f s (upd (stream_of f) (set_st_cont (negb (end_headers_of f))) (set_sv_frag (sv_frag s ++ b) (set_sv_contn (sv_contn s + 1) (note (LIn f) s))))
| in_debit d pad : fr_pl f = PData d pad -> alive s = true -> (Z.of_N (len d + pad) <= sv_crecv s)%Z ->
    (forall x, get s (stream_of f) = Some x -> st_state x = CLOSED \/ st_rsts x = true \/ st_rstr x = true \/ st_endr x = true) ->
    (get s (stream_of f) = None -> stream_of f <= sv_last s) ->
    instep f s (debit (Z.of_N (len d + pad)) (note (LIn f) s))
| in_debit_rst d pad code ctl x : fr_pl f = PData d pad -> alive s = true -> (Z.of_N (len d + pad) <= sv_crecv s)%Z ->
    get s (stream_of f) = Some x -> (ctl = sv_ctl s \/ ctl = 0) ->
    instep f s (erase (stream_of f) (emit (rst_frame (stream_of f) code) (set_sv_ctl ctl (debit (Z.of_N (len d + pad)) (note (LIn f) s)))))
| in_accept d pad x : fr_pl f = PData d pad -> alive s = true -> (Z.of_N (len d + pad) <= sv_crecv s)%Z ->
    get s (stream_of f) = Some x -> (Z.of_N (len d + pad) <= st_local x)%Z \/ len d + pad = 0 -> st_proc x + (len d + pad) < 32767 ->
    st_state x <> CLOSED -> st_rsts x = false -> st_rstr x = false -> st_endr x = false ->
    instep f s (upd (stream_of f) (acc_stream d (len d + pad) (end_stream_of f)) (set_sv_ctl 0 (debit (Z.of_N (len d + pad)) (note (LIn f) s))))
| in_accept_wu d pad x : fr_pl f = PData d pad -> alive s = true -> (Z.of_N (len d + pad) <= sv_crecv s)%Z ->
    get s (stream_of f) = Some x -> (Z.of_N (len d + pad) <= st_local x)%Z \/ len d + pad = 0 -> 32767 <= st_proc x + (len d + pad) ->
    st_state x <> CLOSED -> st_rsts x = false -> st_rstr x = false -> st_endr x = false ->
    instep f s (upd (stream_of f) (fun x => grant (acc_stream d (len d + pad) (end_stream_of f) x))
                 (emit (wu_frame (stream_of f) (st_proc x + (len d + pad))) (set_sv_ctl 0 (debit (Z.of_N (len d + pad)) (note (LIn f) s)))))
| in_cup inc : fr_pl f = PWindow inc -> stream_of f = 0 -> (sv_csend s + Z.of_N inc <= 2147483647)%Z ->
    instep f s (set_sv_csend (sv_csend s + Z.of_N inc)%Z (note (LIn f) s))
| in_pup inc x : fr_pl f = PWindow inc -> get s (stream_of f) = Some x ->
    instep f s (upd (stream_of f) (fun x => set_st_peer (st_peer x + Z.of_N inc)%Z x) (note (LIn f) s))
| in_rst code c : fr_pl f = PRst code -> alive s = true ->
    (c = sv_rstc s /\ N.odd (stream_of f) = false \/ c = sv_rstc s + 1) ->
    (c = sv_rstc s \/ c <= MAX_RAPID_RESETS \/ c * 2 <= (sv_last s + 1) / 2) ->
    instep f s (set_sv_rstc c (note (LIn f) s)).

Definition started (sid : N) (r : response) (e : encoder) (s : server) : server :=
  set_sv_enc e (upd sid (fun x => set_st_sent (map fst (rs_headers r) ++ st_sent x) x)
    (upd sid (fun x => set_st_off 0%nat (set_st_resp r x)) (note (LCmd (CRespond sid r)) s))).
Definition emits (fs : list frame) (s : server) : server := fold_left (fun s f => emit f s) fs s.
Definition data_stream (n : N) (fin : bool) (x : stream) : stream :=
  let y := set_st_peer (st_peer x - Z.of_N n)%Z (set_st_off (st_off x + N.to_nat n) x) in
  if fin then set_st_state HALF_CLOSED_LOCAL (set_st_ends true y) else y.
Definition response_ends (x : stream) : stream :=
  set_st_state (match st_state x with OPEN => HALF_CLOSED_LOCAL | HALF_CLOSED_REMOTE => CLOSED | st0 => st0 end) (set_st_ends true x).
Definition goaway_frame (last code : N) : frame := mk_frame (mk_h T_GOAWAY 0 0) (PGoaway last code []).

(** The other steps.  [th]: a request handler has thrown; [sh]: the initial window is being changed. *)
Inductive qstep (E : env) (th sh : bool) (s : server) : server -> Prop :=
| q_clear : qstep E th sh s (clear_assembly s)
| q_fragclear : (sv_cursid s = 0 \/ forall x, get s (sv_cursid s) = Some x -> st_cont x = false) -> qstep E th sh s (set_sv_frag [] s)
| q_dec d block res : bytes_ok block -> decode (sv_dec s) block = (d, res) -> qstep E th sh s (set_sv_dec d s)
| q_enc fs e out okb : encode (sv_enc s) fs = Some (e, out, okb) -> qstep E th sh s (set_sv_enc e s)
| q_main sid x : get s sid = Some x -> N.odd sid = true -> qstep E th sh s (upd sid (set_st_main true) s)
| q_uncont sid x : get s sid = Some x -> qstep E th sh s (upd sid (set_st_cont false) s)
| q_req sid x r c : get s sid = Some x -> rq_body r = rq_body (st_req x) -> clen_ok r c ->
    qstep E th sh s (upd sid (fun x => set_st_clen c (set_st_req r x)) s)
| q_dispatch sid x : get s sid = Some x -> N.odd sid = true -> st_disp x = false -> st_rsts x = false -> st_rstr x = false -> alive s = true ->
    st_endr x = true -> opt_mismatch (st_clen x) (rq_body (st_req x)) = false ->
    e_method_known E (rq_method (st_req x)) = true -> e_uri_has_path E (rq_uri (st_req x)) = true ->
    qstep E th sh s (note (LReq sid (st_req x)) (upd sid (set_st_disp true) s))
| q_hcr sid x : get s sid = Some x -> st_endr x = true -> st_ends x = false -> st_state x <> CLOSED -> qstep E th sh s (upd sid (set_st_state HALF_CLOSED_REMOTE) s)
| q_hcl_closed sid x : get s sid = Some x -> st_endr x = true -> st_state x = HALF_CLOSED_LOCAL -> qstep E th sh s (upd sid (set_st_state CLOSED) s)
| q_open_hcr sid x : get s sid = Some x -> st_endr x = true -> st_state x = OPEN -> qstep E th sh s (upd sid (set_st_state HALF_CLOSED_REMOTE) s)
| q_cmd c : qstep E th sh s (note (LCmd c) s)
| q_respond sid r x : get s sid = Some x -> st_state x = HALF_CLOSED_LOCAL \/ st_state x = CLOSED \/ sv_active s = false \/ sv_ok s = false ->
    qstep E th sh s (upd sid (fun x => set_st_off 0%nat (set_st_resp r x)) (note (LCmd (CRespond sid r)) s))
| q_sent sid x l : get s sid = Some x -> qstep E th sh s (upd sid (fun x => set_st_sent (l ++ st_sent x) x) s)
| q_start_body sid r x fs e block : get s sid = Some x -> can_send x -> sv_ok s = true -> rs_body r <> [] ->
    encode (sv_enc s) fs = Some (e, block, true) ->
    qstep E th sh s (upd sid (set_st_trail (has_trailer_header r)) (emits (send_headers sid 0 (sv_pmax s) block) (started sid r e s)))
| q_start_nobody sid r x fs e block : get s sid = Some x -> can_send x -> sv_ok s = true -> rs_body r = [] ->
    encode (sv_enc s) fs = Some (e, block, true) ->
    qstep E th sh s (upd sid response_ends (emits (send_headers sid FLAG_END_STREAM (sv_pmax s) block) (started sid r e s)))
| q_start_dead sid r x fs e block f rest : get s sid = Some x -> can_send x -> sv_ok s = false ->
    encode (sv_enc s) fs = Some (e, block, true) ->
    send_headers sid (match rs_body r with [] => FLAG_END_STREAM | _ => 0 end) (sv_pmax s) block = f :: rest ->
    qstep E th sh s (emit f (started sid r e s))
| q_encfail sid r x fs e block : get s sid = Some x -> can_send x -> encode (sv_enc s) fs = Some (e, block, false) ->
    qstep E th sh s (goaway COMPRESSION_ERROR (started sid r e s))
| q_pend sid x b : get s sid = Some x -> qstep E th sh s (upd sid (set_st_pend b) s)
| q_data sid x n fin : get s sid = Some x -> can_send x -> sv_ok s = true -> 0 < n ->
    (st_off x + N.to_nat n <= length (rs_body (st_resp x)))%nat -> (Z.of_N n <= st_peer x)%Z -> (Z.of_N n <= sv_csend s)%Z -> n <= sv_pmax s ->
    fin = (st_off x + N.to_nat n =? length (rs_body (st_resp x)))%nat && negb (st_trail x) ->
    qstep E th sh s (upd sid (data_stream n fin) (set_sv_csend (sv_csend s - Z.of_N n)%Z
                 (emit (data_frame sid (rs_body (st_resp x)) (st_off x) (N.to_nat n) fin) s)))
| q_trailers sid x block : get s sid = Some x -> can_send x -> sv_ok s = true -> st_off x = length (rs_body (st_resp x)) -> st_trail x = true ->
    (trailer_fields x = [] -> block = []) ->
    qstep E th sh s (upd sid (fun x => set_st_trail false (set_st_ends true (set_st_state HALF_CLOSED_LOCAL x)))
                 (emit (mk_frame (mk_h T_HEADERS (N.lor FLAG_END_HEADERS FLAG_END_STREAM) sid) (PHeaders block None)) s))
| q_push assoc prom x block fs e : get s prom = None -> get s assoc = Some x -> can_send x -> N.odd prom = false -> prom <> 0 -> prom < 2 ^ 31 -> alive s = true ->
    sv_ppush s = true -> active_pushed s < sv_pmcs s ->
    encode (sv_enc s) fs = Some (e, block, true) ->
    qstep E th sh s (emit (mk_frame (mk_h T_PUSH_PROMISE FLAG_END_HEADERS assoc) (PPush prom block))
      (set_sv_enc e (set_sv_streams ((prom, set_st_parent assoc (set_st_state RESERVED_LOCAL (new_stream (Z.of_N (sv_ipeer s)) 65535 (sv_now s)))) :: sv_streams s) s)))
| q_rst sid code : sid < 2 ^ 31 -> sv_active s = true \/ code = CANCEL -> qstep E th sh s (erase sid (emit (rst_frame sid code) s))
| q_zombie sid code x : th = true -> get s sid = Some x -> sv_active s = true -> N.odd sid = true -> st_endr x = true -> st_ends x = false -> st_state x <> CLOSED ->
    qstep E th sh s (upd sid (fun x => set_st_state HALF_CLOSED_REMOTE (set_st_err code (set_st_rsts true x))) (emit (rst_frame sid code) s))
| q_err sid code : qstep E th sh s (note (LErr sid code) s)
| q_bye last code : qstep E th sh s (note (LBye code last) (set_sv_gal last (set_sv_grace true s)))
| q_erase sid : qstep E th sh s (erase sid s)
| q_down_ok : qstep E th sh s (set_sv_ok false s)
| q_down_idle : sv_grace s = true -> sv_streams s = [] -> qstep E th sh s (set_sv_active false s)
| q_down_both : sv_grace s = true -> qstep E th sh s (set_sv_ok false (set_sv_active false s))
| q_goaway code ctl : sv_active s = true -> sv_ctl s <= ctl -> qstep E th sh s (goaway code (set_sv_ctl ctl s))
| q_wu0 : sv_ok s = true -> (sv_crecv s < 32767)%Z ->
    qstep E th sh s (set_sv_crecv 65535%Z (emit (wu_frame 0 (Z.to_N (65535 - sv_crecv s))) s))
| q_wu0_dead v : sv_ok s = false -> qstep E th sh s (set_sv_crecv v s)
| q_ctl v : sv_ctl s <= v -> qstep E th sh s (set_sv_ctl v s)
| q_reply f : sv_ctl s + 1 <= MAX_QUEUED_CONTROL_REPLIES -> is_ack_reply f = true ->
    qstep E th sh s (emit f (set_sv_ctl (sv_ctl s + 1) s))
| q_set_table v e : enc_set_peer_max (sv_enc s) v = Some e -> qstep E th sh s (set_sv_enc e (note (LSet 1 v) s))
| q_set_push v : v <= 1 -> qstep E th sh s (set_sv_ppush (v =? 1) (note (LSet 2 v) s))
| q_set_streams v : qstep E th sh s (set_sv_pmcs v (note (LSet 3 v) s))
| q_set_window v : sh = true -> v <= 2147483647 -> qstep E th sh s (set_sv_ipeer v (note (LSet 4 v) s))
| q_set_frame v : 16384 <= v -> v <= 16777215 -> qstep E th sh s (set_sv_pmax v (note (LSet 5 v) s))
| q_set_list v : qstep E th sh s (set_sv_pmhls v (note (LSet 6 v) s))
| q_set_other id v : ~ (1 <= id <= 6) -> qstep E th sh s (note (LSet id v) s)
| q_shift sid x delta : sh = true -> get s sid = Some x -> (st_peer x + delta <= 2147483647)%Z \/ sv_active s = false ->
    (st_state x = OPEN \/ st_state x = HALF_CLOSED_LOCAL \/ st_state x = RESERVED_LOCAL) ->
    qstep E th sh s (upd sid (fun x => set_st_peer (st_peer x + delta)%Z x) s)
| q_settings_out : alive s = true -> qstep E th sh s (set_sv_setsent true (emit (mk_frame (mk_h T_SETTINGS 0 0) (PSettings our_settings)) s))
| q_tick t : qstep E th sh s (set_sv_now (sv_now s + t) s).

Inductive qsteps (E : env) (th sh : bool) : server -> server -> Prop :=
| qs_nil s : qsteps E th sh s s
| qs_cons s s1 s2 : qstep E th sh s s1 -> qsteps E th sh s1 s2 -> qsteps E th sh s s2.

Lemma qs_one E th sh s s' : qstep E th sh s s' -> qsteps E th sh s s'.
Proof. intros H. eapply qs_cons; [exact H|constructor]. Qed.
Lemma qs_app E th sh s s1 s2 : qsteps E th sh s s1 -> qsteps E th sh s1 s2 -> qsteps E th sh s s2.
Proof. induction 1; auto. intros. eapply qs_cons; eauto. Qed.
Lemma qs_snoc E th sh s s1 s2 : qsteps E th sh s s1 -> qstep E th sh s1 s2 -> qsteps E th sh s s2.
Proof. intros H1 H2. eapply qs_app; [exact H1|]. apply qs_one, H2. Qed.
Lemma qstep_weaken E th sh th' sh' s s' : (th = true -> th' = true) -> (sh = true -> sh' = true) -> qstep E th sh s s' -> qstep E th' sh' s s'.
Proof.
  intros A B H. destruct H; try solve [econstructor; eauto].
  all: first [eapply q_open_hcr; eauto; fail|eapply q_hcl_closed; eauto; fail|eapply q_data; eauto; fail|idtac].
Qed.
Lemma qsteps_weaken E th sh th' sh' s s' : (th = true -> th' = true) -> (sh = true -> sh' = true) -> qsteps E th sh s s' -> qsteps E th' sh' s s'.
Proof. intros A B H. induction H; [constructor|]. econstructor; [eapply qstep_weaken; eauto|auto]. Qed.

(** ** Well-formedness is preserved *)
Lemma alive_ok s : alive s = true -> sv_ok s = true /\ sv_active s = true.
Proof. unfold alive. intros H. apply andb_true_iff in H. exact H. Qed.

Lemma wf_emit s i : wf s -> wf (note i s).
Proof. intros W. destruct (W) as []. eapply wf_ext; eauto. Qed.
Lemma wf_goaway s code : wf s -> wf (goaway code s).
Proof.
  intros W. unfold goaway. destruct (negb (sv_active s)); [exact W|]. destruct (W) as [].
  eapply wf_ext; [exact W|..]; try reflexivity; auto; try discriminate.
Qed.
Ltac wfst H := destruct H as [?we ?wh ?wc ?wr ?wrr ?wcl ?wo]; constructor; st; try assumption; try discriminate.

Lemma emits_fields fs : forall s, emits fs s = set_sv_log (rev (map LOut fs) ++ sv_log s) s.
Proof.
  induction fs as [|f fs IH]; intros s; cbn [emits fold_left map rev app]; [destruct s; reflexivity|].
  change (fold_left (fun s f => emit f s) fs (emit f s)) with (emits fs (emit f s)). rewrite IH.
  unfold emit, note. sv. rewrite <- app_assoc. reflexivity.
Qed.
Lemma wf_emits s fs : wf s -> wf (emits fs s).
Proof. intros W. rewrite emits_fields. destruct (W) as []. eapply wf_ext; eauto. Qed.

Lemma wf_st_new p l t : wf_st (new_stream p l t).
Proof. constructor; cbn; try discriminate; auto. split; [intros v H; destruct H|constructor]. Qed.

Lemma wf_hdr_stream es eh x : wf_st x -> st_rstr x = false -> st_rsts x = false -> st_state x <> CLOSED -> wf_st (hdr_stream es eh x) /\ st_state (hdr_stream es eh x) <> IDLE.
Proof.
  intros [we wh wc wr wrr wcl wo] R1 R2 NC. unfold hdr_stream, recv_state. split.
  - constructor; st; auto.
    + intros E. destruct (we E) as [C|C]; [|congruence]. rewrite C. destruct (es && eh); auto.
    + destruct es, eh; cbn [andb]; destruct (st_state x); try discriminate; try congruence; auto.
    + intros E. right; right.
      destruct (st_state x) eqn:ES; cbn [andb] in E; destruct es, eh; cbn [andb] in E; try discriminate; try congruence.
      split; [apply wh; reflexivity|apply orb_true_r].
    + destruct (st_state x) eqn:ES; destruct es, eh; cbn [andb]; try discriminate; try congruence; intros E; rewrite ?orb_true_r; try reflexivity; rewrite (wr eq_refl); reflexivity.
    + destruct (st_state x) eqn:ES; destruct es, eh; cbn [andb]; try discriminate; congruence.
  - st. destruct (st_state x) eqn:ES; destruct es, eh; cbn [andb]; try discriminate.
Qed.

Lemma wf_started s sid x r e : wf s -> get s sid = Some x -> can_send x -> (exists t, dwf (enc_table e) t) -> wf (started sid r e s) /\
  exists y, get (started sid r e s) sid = Some y /\ st_state y = st_state x /\ st_ends y = st_ends x /\ st_endr y = st_endr x.
Proof.
  intros W HG CS HE. unfold started.
  assert (G1 : get (note (LCmd (CRespond sid r)) s) sid = Some x) by exact HG.
  rewrite (upd_upd _ _ _ _ _ G1). split.
  - apply wf_enc; [|exact HE]. eapply wf_upd; [apply wf_emit, W|exact G1|..].
    + pose proof (w_st _ W _ _ HG) as HX. wfst HX. cbn. lia.
    + intros _. st. destruct CS as [-> | ->]; discriminate.
  - eexists. split; [apply (get_upd_same _ _ _ _ G1)|]. st. auto.
Qed.

Lemma instep_wf f s s' : wf s -> frame_octets_ok f -> stream_id_ok f -> instep f s s' -> wf s'.
Proof.
  intros W FO SO H. destruct (W) as [we wd wfr wu wn wo wl ws wi wc wk].
  destruct H.
  - apply wf_emit, W.
  - apply wf_goaway. eapply wf_ext; [exact W|..]; try reflexivity; auto.
  - assert (W1 : wf (set_sv_active false (set_sv_ctl 0 (set_sv_contn contn (set_sv_cursid cursid (set_sv_frag frag (note (LIn f) s))))))).
    { eapply wf_ext; [exact W|..]; try reflexivity; auto. unfold alive. sv. rewrite andb_false_r. discriminate. }
    unfold goaway. sv. rewrite H3. cbn [negb].
    pose proof (wf_add _ (stream_of f) (new_stream (Z.of_N (sv_ipeer s)) 65535 (sv_now s)) (stream_of f) W1) as W2.
    assert (W3 : wf (set_sv_last (stream_of f) (set_sv_streams ((stream_of f, new_stream (Z.of_N (sv_ipeer s)) 65535 (sv_now s)) :: sv_streams s)
       (set_sv_active false (set_sv_ctl 0 (set_sv_contn contn (set_sv_cursid cursid (set_sv_frag frag (note (LIn f) s))))))))).
    { apply W2; [exact H0|split; [exact SO|assumption]|intros _; apply N.le_refl|apply N.lt_le_incl; exact H2|exact SO|apply wf_st_new|]. unfold alive. sv. rewrite andb_false_r. discriminate. }
    eapply wf_ext; [exact W3|..]; try reflexivity; sv; auto; try discriminate.
  - apply wf_emit, wf_emit, W.
  - assert (W1 : wf (hdr_base f (stream_of f) b s)).
    { unfold hdr_base. eapply wf_ext; [exact W|..]; try reflexivity; auto. cbn [sv_frag set_sv_frag]. apply bytes_ok_app. split; [exact wfr|].
      unfold frame_octets_ok in FO. rewrite H in FO. exact FO. }
    destruct (wf_hdr_stream (end_stream_of f) (end_headers_of f) x (ws _ _ H0)) as [A B]; auto.
    eapply wf_upd; [exact W1|exact H0|exact A|intros _; exact B].
  - assert (W1 : wf (hdr_base f (stream_of f) b s)).
    { unfold hdr_base. eapply wf_ext; [exact W|..]; try reflexivity; auto. cbn [sv_frag set_sv_frag]. apply bytes_ok_app. split; [exact wfr|].
      unfold frame_octets_ok in FO. rewrite H in FO. exact FO. }
    destruct (wf_hdr_stream (end_stream_of f) (end_headers_of f) (new_stream (Z.of_N (sv_ipeer s)) 65535 (sv_now s)) (wf_st_new _ _ _)) as [A B]; try reflexivity; try discriminate.
    pose proof (wf_add _ (stream_of f) (hdr_stream (end_stream_of f) (end_headers_of f) (new_stream (Z.of_N (sv_ipeer s)) 65535 (sv_now s))) (stream_of f) W1) as W2.
    apply W2; [exact H0|split; [exact SO|assumption]|intros _; apply N.le_refl|apply N.lt_le_incl; exact H3|exact SO|exact A|intros _; exact B].
  - assert (W1 : wf (set_sv_frag (sv_frag s ++ b) (set_sv_contn (sv_contn s + 1) (note (LIn f) s)))).
    { eapply wf_ext; [exact W|..]; try reflexivity; auto. cbn [sv_frag set_sv_frag]. apply bytes_ok_app. split; [exact wfr|].
      unfold frame_octets_ok in FO. rewrite H in FO. exact FO. }
    eapply wf_upd; [exact W1|exact H0|..].
    + pose proof (ws _ _ H0) as HX. wfst HX.
    + intros _. st. eapply wi; eauto.
  - eapply wf_ext; [exact W|..]; try reflexivity; auto. intros Ho. unfold debit. sv. specialize (wc Ho). lia.
  - apply wf_erase. apply wf_emit. eapply wf_ext; [exact W|..]; try reflexivity; auto. intros Ho. unfold debit. sv. specialize (wc Ho). lia.
  - assert (W1 : wf (set_sv_ctl 0 (debit (Z.of_N (len d + pad)) (note (LIn f) s)))).
    { eapply wf_ext; [exact W|..]; try reflexivity; auto. intros Ho. unfold debit. sv. specialize (wc Ho). lia. }
    eapply wf_upd; [exact W1|exact H2|..].
    + pose proof (ws _ _ H2) as HX. unfold acc_stream. wfst HX.
      * intros C. congruence.
      * intros C. rewrite (wr C). reflexivity.
    + intros _. unfold acc_stream. st. eapply wi; eauto.
  - assert (W1 : wf (emit (wu_frame (stream_of f) (st_proc x + (len d + pad))) (set_sv_ctl 0 (debit (Z.of_N (len d + pad)) (note (LIn f) s))))).
    { eapply wf_ext; [exact W|..]; try reflexivity; auto. intros Ho. unfold emit, note, debit. sv. specialize (wc Ho). lia. }
    eapply wf_upd; [exact W1|exact H2|..].
    + pose proof (ws _ _ H2) as HX. unfold grant, acc_stream. wfst HX.
      * intros C. congruence.
      * intros C. rewrite (wr C). reflexivity.
    + intros _. unfold grant, acc_stream. st. eapply wi; eauto.
  - eapply wf_ext; [exact W|..]; try reflexivity; auto.
  - eapply wf_upd; [apply wf_emit, W|exact H0|..].
    + pose proof (ws _ _ H0) as HX. wfst HX.
    + intros A. st. eapply wi; eauto.
  - eapply wf_ext; [exact W|..]; try reflexivity; auto.
Qed.

Lemma qstep_wf E th sh s s' : wf s -> qstep E th sh s s' -> wf s'.
Proof.
  intros W H. destruct (W) as [we wd wfr wu wn wo wl ws wi wc wk].
  assert (WU : forall sid x g, get s sid = Some x -> wf_st (g x) -> (st_state x <> IDLE -> st_state (g x) <> IDLE) -> wf (upd sid g s)).
  { intros sid x g HG HX HI. eapply wf_upd; eauto. }
  assert (WX : forall s'', sv_streams s'' = sv_streams s -> sv_enc s'' = sv_enc s -> sv_dec s'' = sv_dec s ->
    sv_frag s'' = sv_frag s -> sv_ub s'' = sv_ub s -> sv_last s'' = sv_last s -> sv_ok s'' = sv_ok s -> sv_active s'' = sv_active s ->
    sv_crecv s'' = sv_crecv s -> wf s'').
  { intros s'' E1 E2 E3 E4 E5 E6 E7 E8 E9. eapply wf_ext; [exact W|..]; auto; rewrite ?E4, ?E5, ?E7, ?E9; auto. unfold alive. rewrite E7, E8. auto. }
  destruct H.
  - eapply wf_ext; [exact W|..]; try reflexivity; auto. constructor.
  - eapply wf_ext; [exact W|..]; try reflexivity; auto. constructor.
  - apply wf_dec; [exact W|]. eapply decode_total; [exact wd|exact H|exact H0].
  - apply wf_enc; [exact W|]. destruct (encode_total (sv_enc s) fs we) as (e' & o & k & EE & HT). rewrite H in EE. injection EE as <- <- <-. exact HT.
  - eapply WU; eauto. pose proof (ws _ _ H) as HX. wfst HX.
  - eapply WU; eauto. pose proof (ws _ _ H) as HX. wfst HX.
  - eapply WU; eauto. pose proof (ws _ _ H) as HX. wfst HX.
  - apply wf_emit. eapply WU; eauto. pose proof (ws _ _ H) as HX. wfst HX.
  - eapply WU; eauto; [|st; discriminate]. pose proof (ws _ _ H) as HX. wfst HX; congruence.
  - eapply WU; eauto; [|st; discriminate]. pose proof (ws _ _ H) as HX. wfst HX; auto.
  - eapply WU; eauto; [|st; discriminate]. pose proof (ws _ _ H) as HX. wfst HX; auto. intros C. destruct (we0 C); congruence.
  - apply wf_emit, W.
  - eapply wf_upd; [apply wf_emit, W|exact H|..]; [|intros A; st; eapply wi; eauto]. pose proof (ws _ _ H) as HX. wfst HX. cbn. lia.
  - eapply WU; eauto. pose proof (ws _ _ H) as HX. wfst HX.
  - destruct (encode_total (sv_enc s) fs we) as (e' & o & k & EE & HT). rewrite H3 in EE. injection EE as <- <- <-.
    destruct (wf_started s sid x r e W H H0 HT) as [W1 (y & G1 & Y1 & Y2 & Y3)].
    assert (G2 : get (emits (send_headers sid 0 (sv_pmax s) block) (started sid r e s)) sid = Some y).
    { rewrite emits_fields. exact G1. }
    eapply wf_upd; [apply wf_emits, W1|exact G2|..].
    + pose proof (w_st _ W1 _ _ G1) as HX. wfst HX; auto.
    + intros _. st. rewrite Y1. destruct H0 as [-> | ->]; discriminate.
  - destruct (encode_total (sv_enc s) fs we) as (e' & o & k & EE & HT). rewrite H3 in EE. injection EE as <- <- <-.
    destruct (wf_started s sid x r e W H H0 HT) as [W1 (y & G1 & Y1 & Y2 & Y3)].
    assert (G2 : get (emits (send_headers sid FLAG_END_STREAM (sv_pmax s) block) (started sid r e s)) sid = Some y).
    { rewrite emits_fields. exact G1. }
    eapply wf_upd; [apply wf_emits, W1|exact G2|..].
    + pose proof (w_st _ W1 _ _ G1) as HX. unfold response_ends. destruct H0 as [S0|S0]; rewrite S0 in Y1; rewrite Y1; wfst HX; auto.
    + intros _. unfold response_ends. st. rewrite Y1. destruct H0 as [-> | ->]; discriminate.
  - apply wf_emit. destruct (encode_total (sv_enc s) fs we) as (e' & o & k & EE & HT). rewrite H2 in EE. injection EE as <- <- <-.
    eapply wf_started; eauto.
  - apply wf_goaway. destruct (encode_total (sv_enc s) fs we) as (e' & o & k & EE & HT). rewrite H1 in EE. injection EE as <- <- <-.
    eapply wf_started; eauto.
  - eapply WU; eauto. pose proof (ws _ _ H) as HX. wfst HX.
  - match goal with |- wf (upd _ _ ?t) => assert (W1 : wf t) by (eapply wf_ext; [exact W|..]; try reflexivity; auto) end.
    eapply wf_upd; [exact W1|exact H|..].
    + pose proof (ws _ _ H) as HX. unfold data_stream. destruct fin; wfst HX; auto.
    + intros _. unfold data_stream. destruct fin; st; [discriminate|]. destruct H0 as [-> | ->]; discriminate.
  - eapply wf_upd; [apply wf_emit, W|exact H|..]; [|intros _; st; discriminate]. pose proof (ws _ _ H) as HX. wfst HX; auto.
  - apply wf_emit. destruct (encode_total (sv_enc s) fs we) as (e' & o & k & EE & HT). rewrite H8 in EE. injection EE as <- <- <-.
    assert (W1 : wf (set_sv_enc e s)) by (apply wf_enc; auto).
    pose proof (wf_add _ prom (set_st_parent assoc (set_st_state RESERVED_LOCAL (new_stream (Z.of_N (sv_ipeer s)) 65535 (sv_now s)))) (sv_last s) W1) as W2.
    eapply wf_ext; [apply W2|..]; try reflexivity; auto; try discriminate; try (st; discriminate).
    + congruence.
    + constructor; cbn; try discriminate; auto. split; [intros v HV; destruct HV|constructor].
  - apply wf_erase, wf_emit, W.
  - eapply wf_upd; [apply wf_emit, W|exact H0|..]; [|intros _; st; discriminate]. pose proof (ws _ _ H0) as HX. wfst HX; auto. intros; congruence.
  - apply wf_emit, W.
  - apply wf_emit. apply WX; reflexivity.
  - apply wf_erase, W.
  - eapply wf_ext; [exact W|..]; try reflexivity; auto; try discriminate.
  - eapply wf_ext; [exact W|..]; try reflexivity; auto. unfold alive. sv. rewrite andb_false_r. discriminate.
  - eapply wf_ext; [exact W|..]; try reflexivity; auto; try discriminate.
  - apply wf_goaway. apply WX; reflexivity.
  - eapply wf_ext; [exact W|..]; try reflexivity; auto. intros _. sv. lia.
  - eapply wf_ext; [exact W|..]; try reflexivity; auto. sv. congruence.
  - apply WX; reflexivity.
  - apply wf_emit. apply WX; reflexivity.
  - apply wf_enc; [apply wf_emit, W|]. destruct (enc_peer_total (sv_enc s) v we) as (e' & EE & HT). rewrite H in EE. injection EE as <-. exact HT.
  - apply WX; reflexivity.
  - apply WX; reflexivity.
  - apply WX; reflexivity.
  - apply WX; reflexivity.
  - apply WX; reflexivity.
  - apply WX; reflexivity.
  - eapply WU; eauto. pose proof (ws _ _ H0) as HX. wfst HX.
  - apply WX; reflexivity.
  - apply WX; reflexivity.
Qed.
Lemma qsteps_wf E th sh s s' : wf s -> qsteps E th sh s s' -> wf s'.
Proof. intros W H. induction H; auto. apply IHqsteps. eapply qstep_wf; eauto. Qed.
