(** Proof support for the HTTP/1.1 receiving side: the parser and the read loop agree, whatever the slicing,
    with an octet-at-a-time machine. *)
From Verif Require Import Base UtilModel StaticModel DateModel Http1Model RecvModel.
From Coq Require Import ZifyBool ZifyN.
Local Open Scope N_scope.

Lemma len_app : forall (a b : list N), len (a ++ b) = len a + len b.
Proof. intros. unfold len. rewrite app_length. lia. Qed.
Lemma len_nil : len [] = 0. Proof. reflexivity. Qed.
Lemma len_cons : forall (c : N) a, len (c :: a) = 1 + len a.
Proof. intros. unfold len. cbn [length]. lia. Qed.
Lemma from_app : forall a b : list N, from (len a) (a ++ b) = b.
Proof. intros. unfold from, len. rewrite Nat2N.id, skipn_app, skipn_all, Nat.sub_diag. reflexivity. Qed.
Lemma take_app : forall a b : list N, take (len a) (a ++ b) = a.
Proof. intros. unfold take, len. rewrite Nat2N.id, firstn_app, firstn_all, Nat.sub_diag. cbn. apply app_nil_r. Qed.
Lemma from_add : forall a b (s : list N), from (a + b) s = from b (from a s).
Proof.
  intros a b s. unfold from. rewrite N2Nat.inj_add. generalize (N.to_nat a) (N.to_nat b). clear. intros n m. revert s.
  induction n as [|n IH]; intros s; [reflexivity|]. destruct s; [now rewrite !skipn_nil|]. cbn. apply IH.
Qed.
Lemma len_from : forall n s, len (from n s) = len s - n.
Proof. intros. unfold len, from. rewrite skipn_length. lia. Qed.
Lemma len_take : forall n s, len (take n s) = N.min n (len s).
Proof. intros. unfold len, take. rewrite firstn_length. lia. Qed.
Lemma take_from : forall n s, take n s ++ from n s = s.
Proof. intros. unfold take, from. apply firstn_skipn. Qed.

Definition bodies (ds : list dat) : list N := flat_map (fun d => match d with DBody s => s | _ => [] end) ds.
(** no octet of input yields more than one octet of body *)
Definition BodyLe1 (M : machine) : Prop := forall l c, len (bodies (snd (fst (m_step M l c)))) <= 1.

Section RecvProofs.
Variable M : machine.
Variable is_request : bool.
Variable forbidden : nat -> bool.
Notation callback := (callback M is_request).
Notation flush := (flush M is_request).
Notation absorb := (absorb M is_request).
Notation absorb_all := (absorb_all M is_request).
Notation finish := (finish M is_request).
Notation exec_loop := (exec_loop M is_request).
Notation parse := (parse M is_request).
Notation with_l := (with_l M).
Notation ExOk := (ExOk M). Notation ExPaused := (ExPaused M). Notation ExDone := (ExDone M). Notation ExError := (ExError M).
Notation conn := (conn M).

Fixpoint seq_all (p : parser M) (ds : list dat) : option (parser M) :=
  match ds with [] => Some p | d :: r => match callback p d with Some q => seq_all q r | None => None end end.

Fixpoint seq_loop (p : parser M) (slice : list N) : result M :=
  match slice with
  | [] => ExOk p
  | c :: r =>
      let '(l, ds, st) := m_step M (p_l p) c in
      match seq_all (with_l p l) ds with
      | None => ExError
      | Some q => finish q st r (fun q => seq_loop q r)
      end
  end.

Lemma callback_l : forall p l d, callback (with_l p l) d = option_map (fun q => with_l q l) (callback p d).
Proof.
  intros p l d. destruct p as [pl pr pm pk pv pu pt pd pc pp pb pn pln pe].
  unfold RecvModel.with_l; cbn [p_l p_run p_msg p_key p_val p_url p_token p_done p_chunked p_pairs p_body p_urln p_length p_needs_eof].
  destruct d; cbn [RecvModel.callback]; unfold on_url, on_header_field, commit, on_header_value, on_body;
    cbn [p_l p_run p_msg p_key p_val p_url p_token p_done p_chunked p_pairs p_body p_urln p_length p_needs_eof].
  - destruct is_request; [|reflexivity]. destruct (MAX_URL_LENGTH <? pn + len s); reflexivity.
  - destruct pt; [| |destruct pk as [|k0 pk]; [|destruct (MAX_HEADER_VALUE_LENGTH <? len pv); [reflexivity|]]];
      cbn [p_l p_run p_msg p_key p_val p_url p_token p_done p_chunked p_pairs p_body p_urln p_length p_needs_eof];
      try (destruct (MAX_HEADERS_COUNT <? pp + 1); [reflexivity|]);
      match goal with |- context [MAX_HEADER_NAME_LENGTH <? ?x] => destruct (MAX_HEADER_NAME_LENGTH <? x) end; reflexivity.
  - match goal with |- context [MAX_HEADER_VALUE_LENGTH <? ?x] => destruct (MAX_HEADER_VALUE_LENGTH <? x) end; reflexivity.
  - destruct (MAX_CHUNK_SIZE <? len s); [reflexivity|]. destruct (MAX_BODY_SIZE <? pb + len s); reflexivity.
  - reflexivity.
Qed.

(** what a callback leaves alone *)
Lemma callback_keeps : forall p d q, callback p d = Some q ->
  p_l q = p_l p /\ p_run q = p_run p /\ p_done q = p_done p /\ p_length q = p_length p /\ p_needs_eof q = p_needs_eof p.
Proof.
  intros p d q. destruct p as [pl pr pm pk pv pu pt pd pc pp pb pn pln pe].
  destruct d; cbn [RecvModel.callback]; unfold on_url, on_header_field, commit, on_header_value, on_body;
    cbn [p_l p_run p_msg p_key p_val p_url p_token p_done p_chunked p_pairs p_body p_urln p_length p_needs_eof].
  - destruct is_request; [|intros H; injection H as <-; cbn; tauto].
    destruct (MAX_URL_LENGTH <? pn + len s); intros H; inversion H; cbn; tauto.
  - destruct pt; [| |destruct pk; [|destruct (MAX_HEADER_VALUE_LENGTH <? len pv)]];
      cbn [p_l p_run p_msg p_key p_val p_url p_token p_done p_chunked p_pairs p_body p_urln p_length p_needs_eof];
      try discriminate;
      try (destruct (MAX_HEADERS_COUNT <? pp + 1); [discriminate|]);
      match goal with |- context [MAX_HEADER_NAME_LENGTH <? ?x] => destruct (MAX_HEADER_NAME_LENGTH <? x) end;
      intros H; inversion H; cbn; tauto.
  - match goal with |- context [MAX_HEADER_VALUE_LENGTH <? ?x] => destruct (MAX_HEADER_VALUE_LENGTH <? x) end;
      intros H; inversion H; cbn; tauto.
  - destruct (MAX_CHUNK_SIZE <? len s); [discriminate|].
    destruct (MAX_BODY_SIZE <? pb + len s); intros H; inversion H; cbn; tauto.
  - intros H; injection H as <-; cbn; tauto.
Qed.

Lemma seq_all_keeps : forall ds p q, seq_all p ds = Some q ->
  p_l q = p_l p /\ p_run q = p_run p /\ p_done q = p_done p /\ p_length q = p_length p /\ p_needs_eof q = p_needs_eof p.
Proof.
  induction ds as [|d r IH]; cbn [seq_all]; intros p q H.
  - injection H as <-. tauto.
  - destruct (callback p d) as [p1|] eqn:E; [|discriminate].
    apply callback_keeps in E. apply IH in H. intuition congruence.
Qed.

Definition dsize (d : dat) : N := match d with DBody s => len s | _ => 0 end.
Definition psize (o : option dat) : N := match o with Some d => dsize d | None => 0 end.

Lemma opt_if : forall (b1 b2 : bool) (A : Type) (x y : A), b1 = b2 -> x = y -> (if b1 then None else Some x) = (if b2 then None else Some y).
Proof. intros. subst. reflexivity. Qed.

Lemma glue_callback : forall p a b g, glue a b = Some g -> dsize g <= MAX_CHUNK_SIZE ->
  callback p g = match callback p a with Some q => callback q b | None => None end.
Proof.
  intros p a b g HG HS. destruct p as [pl pr pm pk pv pu pt pd pc pp pb pn pln pe].
  destruct a as [s|s|s|s|]; destruct b as [t|t|t|t|]; cbn [glue] in HG; try discriminate; injection HG as <-;
    cbn [RecvModel.callback]; unfold on_url, on_header_field, commit, on_header_value, on_body;
    cbn [p_l p_run p_msg p_key p_val p_url p_token p_done p_chunked p_pairs p_body p_urln p_length p_needs_eof].
  - destruct is_request; [|reflexivity].
    rewrite len_app.
    destruct (MAX_URL_LENGTH <? pn + len s) eqn:E1.
    + replace (MAX_URL_LENGTH <? pn + (len s + len t)) with true by lia. reflexivity.
    + cbn [p_l p_run p_msg p_key p_val p_url p_token p_done p_chunked p_pairs p_body p_urln p_length p_needs_eof m_url m_meta m_headers m_ct m_body].
      rewrite N.add_assoc. apply opt_if; [reflexivity|].
      assert (HB : (if pn =? 0 then [] else pu) ++ s ++ t =
                   (if pn + len s =? 0 then [] else (if pn =? 0 then [] else pu) ++ s) ++ t).
      { destruct (pn + len s =? 0) eqn:E2.
        - assert (pn = 0 /\ len s = 0) as [-> Z] by lia. destruct s; [reflexivity|]. rewrite len_cons in Z. lia.
        - now rewrite app_assoc. }
      rewrite HB. reflexivity.
  - destruct pt; [| |destruct pk as [|k0 pk]; [|destruct (MAX_HEADER_VALUE_LENGTH <? len pv); [reflexivity|]]];
      cbn [p_l p_run p_msg p_key p_val p_url p_token p_done p_chunked p_pairs p_body p_urln p_length p_needs_eof];
      try (destruct (MAX_HEADERS_COUNT <? pp + 1); [reflexivity|]);
      cbn [app]; rewrite ?app_assoc.
    1,3,4: destruct (MAX_HEADER_NAME_LENGTH <? len s) eqn:E1;
      [ rewrite len_app; replace (MAX_HEADER_NAME_LENGTH <? len s + len t) with true by lia; reflexivity
      | reflexivity ].
    destruct (MAX_HEADER_NAME_LENGTH <? len (pk ++ s)) eqn:E1.
    + rewrite (len_app (pk ++ s)). replace (MAX_HEADER_NAME_LENGTH <? len (pk ++ s) + len t) with true by lia. reflexivity.
    + reflexivity.
  - rewrite app_assoc.
    set (v := match pt with TValue => pv | _ => [] end ++ s).
    destruct (MAX_HEADER_VALUE_LENGTH <? len v) eqn:E1.
    + rewrite (len_app v). replace (MAX_HEADER_VALUE_LENGTH <? len v + len t) with true by lia. reflexivity.
    + reflexivity.
  - cbn [dsize] in HS. rewrite len_app in *.
    replace (MAX_CHUNK_SIZE <? len s + len t) with false by lia.
    replace (MAX_CHUNK_SIZE <? len s) with false by lia.
    destruct (MAX_BODY_SIZE <? pb + len s) eqn:E1.
    + replace (MAX_BODY_SIZE <? pb + (len s + len t)) with true by lia. reflexivity.
    + cbn [p_l p_run p_msg p_key p_val p_url p_token p_done p_chunked p_pairs p_body p_urln p_length p_needs_eof].
      replace (MAX_CHUNK_SIZE <? len t) with false by lia.
      rewrite N.add_assoc, app_assoc. reflexivity.
Qed.

Lemma glue_size : forall a b g, glue a b = Some g -> dsize g = dsize a + dsize b.
Proof.
  intros a b g H. destruct a, b; cbn in H; try discriminate; injection H as <-; cbn [dsize]; rewrite ?len_app; reflexivity.
Qed.

Lemma absorb_all_seq : forall ds p pend, psize pend + len (bodies ds) <= MAX_CHUNK_SIZE ->
  match absorb_all p pend ds with
  | Some (p', pend') => match flush p pend with Some q => seq_all q ds | None => None end = flush p' pend'
                        /\ psize pend' <= psize pend + len (bodies ds) /\ p_l p' = p_l p
  | None => match flush p pend with Some q => seq_all q ds | None => None end = None
  end.
Proof.
  induction ds as [|d r IH]; cbn [RecvModel.absorb_all seq_all]; intros p pend HS.
  - refine (conj _ (conj _ _)); [destruct (flush p pend); reflexivity|lia|reflexivity].
  - assert (HB : len (bodies (d :: r)) = dsize d + len (bodies r)).
    { unfold bodies. cbn [flat_map]. rewrite len_app. destruct d; reflexivity. }
    rewrite HB in HS. unfold RecvModel.absorb.
    destruct pend as [a|].
    + cbn [psize] in HS. destruct (glue a d) as [g|] eqn:EG.
      * pose proof (glue_size _ _ _ EG) as GS.
        specialize (IH p (Some g)). cbn [psize RecvModel.flush] in IH. rewrite GS in IH.
        specialize (IH ltac:(lia)). cbn [RecvModel.flush].
        rewrite (glue_callback p a d g EG ltac:(lia)) in IH.
        rewrite HB. cbn [psize].
        destruct (absorb_all p (Some g) r) as [[p' pend']|].
        -- destruct IH as (I1 & I2 & I3). refine (conj _ (conj _ I3)); [|lia].
           rewrite <- I1. destruct (callback p a) as [q|]; [|reflexivity]. destruct (callback q d); reflexivity.
        -- destruct (callback p a) as [q|]; [|reflexivity]. destruct (callback q d); exact IH.
      * cbn [RecvModel.flush]. destruct (callback p a) as [q|] eqn:EC; [|reflexivity].
        specialize (IH q (Some d)). cbn [psize RecvModel.flush] in IH.
        specialize (IH ltac:(lia)). rewrite HB. cbn [psize].
        destruct (absorb_all q (Some d) r) as [[p' pend']|].
        -- destruct IH as (I1 & I2 & I3). refine (conj _ (conj _ _)); [exact I1|lia|].
           apply callback_keeps in EC. destruct EC as (E & _). congruence.
        -- exact IH.
    + cbn [psize RecvModel.flush] in *. specialize (IH p (Some d)). cbn [psize RecvModel.flush] in IH.
      specialize (IH ltac:(lia)). rewrite HB.
      destruct (absorb_all p (Some d) r) as [[p' pend']|].
      -- destruct IH as (I1 & I2 & I3). refine (conj I1 (conj _ I3)). lia.
      -- exact IH.
Qed.

Hypothesis HB : BodyLe1 M.

Lemma flush_l : forall p l pend, flush (with_l p l) pend = option_map (fun q => with_l q l) (flush p pend).
Proof. intros p l [d|]; cbn [RecvModel.flush]; [apply callback_l|reflexivity]. Qed.
Lemma flush_keeps_l : forall p pend q, flush p pend = Some q -> p_l q = p_l p.
Proof.
  intros p [d|] q H; cbn [RecvModel.flush] in H; [apply callback_keeps in H; tauto|injection H as <-; reflexivity].
Qed.

Lemma exec_seq : forall slice p pend, psize pend + len slice <= MAX_CHUNK_SIZE ->
  exec_loop p pend slice = match flush p pend with Some q => seq_loop q slice | None => ExError end.
Proof.
  induction slice as [|c r IH]; intros p pend HS; cbn [RecvModel.exec_loop seq_loop].
  - destruct (flush p pend); reflexivity.
  - rewrite len_cons in HS. pose proof (HB (p_l p) c) as H1.
    destruct (m_step M (p_l p) c) as [[l ds] st] eqn:ES. cbn [fst snd] in H1.
    pose proof (absorb_all_seq ds (with_l p l) pend ltac:(lia)) as HA.
    rewrite flush_l in HA.
    destruct (flush p pend) as [q|] eqn:EF; cbn [option_map] in HA.
    + rewrite (flush_keeps_l _ _ _ EF), ES.
      destruct (absorb_all (with_l p l) pend ds) as [[p' pend']|].
      * destruct HA as (A1 & A2 & A3). rewrite A1.
        destruct st; cbn [RecvModel.finish];
          [rewrite IH by lia; reflexivity | | |]; destruct (flush p' pend'); reflexivity.
      * rewrite HA. reflexivity.
    + destruct (absorb_all (with_l p l) pend ds) as [[p' pend']|].
      * destruct HA as (A1 & A2 & A3).
        destruct st; [rewrite IH by lia|..]; rewrite <- A1; reflexivity.
      * reflexivity.
Qed.


(** ** The octet-at-a-time machine *)
Inductive sst := SHead (p : parser M) | SBody (p : parser M) (acc : list N) | SChunk (p : parser M)
               | SEof (p : parser M) (acc : list N) | SDead.
Notation state := (sst * list msg)%type.

Definition deliver (p : parser M) (out : list msg) : state := (SHead (reset M), out ++ [p_msg p]).

Definition enter (p : parser M) (out : list msg) : state :=
  if negb is_request && forbidden (length out) then deliver p out
  else if has_header (str "Transfer-Encoding") (m_headers (p_msg p)) then
    let '(l, st) := m_wake M (p_l p) in
    match finish (with_run M (with_l p l) Running) st [] ExOk with
    | RecvModel.ExOk _ q => (SChunk q, out)
    | RecvModel.ExDone _ q _ => deliver q out
    | _ => (SDead, out)
    end
  else if negb is_request && p_needs_eof p then (SEof p [], out)
  else if p_length p =? ULLONG_MAX then (SDead, out)
  else if p_length p =? 0 then deliver p out
  else (SBody p [], out).

Definition spec_step (s : state) (c : N) : state :=
  let '(st, out) := s in
  match st with
  | SHead p => match seq_loop p [c] with
               | RecvModel.ExOk _ q => (SHead q, out)
               | RecvModel.ExPaused _ q _ => enter q out
               | _ => (SDead, out)
               end
  | SBody p acc => if len (acc ++ [c]) =? p_length p then deliver (set_body M p (acc ++ [c])) out
                   else (SBody p (acc ++ [c]), out)
  | SChunk p => match seq_loop p [c] with
                | RecvModel.ExOk _ q => (SChunk q, out)
                | RecvModel.ExDone _ q _ => deliver q out
                | _ => (SDead, out)
                end
  | SEof p acc => if MAX_BODY_SIZE <? len (acc ++ [c]) then (SDead, out) else (SEof p (acc ++ [c]), out)
  | SDead => (SDead, out)
  end.
Notation run_spec := (fold_left spec_step).

Lemma dead_fold : forall s out, run_spec s (SDead, out) = (SDead, out).
Proof. induction s; intros; cbn; auto. Qed.

Lemma seq_loop_head : forall slice p out, p_done p = false -> p_run p = Running ->
  match seq_loop p slice with
  | RecvModel.ExOk _ q => run_spec slice (SHead p, out) = (SHead q, out) /\ p_done q = false /\ p_run q = Running
  | RecvModel.ExPaused _ q rest => exists used, slice = used ++ rest /\ used <> [] /\ run_spec used (SHead p, out) = enter q out
                                   /\ p_done q = true /\ p_run q = Paused
  | _ => run_spec slice (SHead p, out) = (SDead, out)
  end.
Proof.
  induction slice as [|c r IH]; intros p out HD HR; cbn [seq_loop fold_left].
  - auto.
  - cbn [spec_step seq_loop].
    destruct (m_step M (p_l p) c) as [[l ds] st] eqn:ES.
    destruct (seq_all (with_l p l) ds) as [q|] eqn:EA; [|apply dead_fold].
    pose proof (seq_all_keeps _ _ _ EA) as (K1 & K2 & K3 & _). cbn [RecvModel.with_l p_run p_done] in K2, K3.
    destruct st as [|mt| |]; cbn [RecvModel.finish].
    + specialize (IH q out ltac:(congruence) ltac:(congruence)).
      destruct (seq_loop q r) as [x|x rest|x rest|].
      * exact IH.
      * destruct IH as (used & I1 & I2 & I3). exists (c :: used). subst r.
        refine (conj eq_refl (conj _ _)); [discriminate|].
        cbn [fold_left spec_step seq_loop]. rewrite ES, EA. cbn [RecvModel.finish]. exact I3.
      * exact IH.
      * exact IH.
    + destruct (on_headers_complete M is_request q mt) as [q'|] eqn:EH; [|apply dead_fold].
      exists [c]. cbn [fold_left spec_step seq_loop app]. rewrite ES, EA. cbn [RecvModel.finish]. rewrite EH.
      refine (conj eq_refl (conj _ (conj eq_refl _))); [discriminate|].
      unfold on_headers_complete in EH.
      destruct (commit M q); [|discriminate].
      repeat match type of EH with (if ?b then _ else _) = _ => destruct b; try discriminate end.
      all: injection EH as <-; cbn; auto.
    + apply dead_fold.
    + apply dead_fold.
Qed.

Definition TE (p : parser M) : bool := has_header (str "Transfer-Encoding") (m_headers (p_msg p)).

Lemma has_header_add : forall name k v h, has_header name h = true -> has_header name (add_value k v h) = true.
Proof.
  intros name k v h. unfold has_header, find_header. induction h as [|[k' vs] r IH]; [discriminate|].
  cbn [add_value find fst]. destruct (iequals k' k); cbn [find fst].
  - destruct (iequals k' name); auto.
  - destruct (iequals k' name); auto.
Qed.

Lemma callback_TE : forall p d q, callback p d = Some q -> TE p = true -> TE q = true.
Proof.
  intros p d q. destruct p as [pl pr pm pk pv pu pt pd pc pp pb pn pln pe]. unfold TE.
  destruct d; cbn [RecvModel.callback]; unfold on_url, on_header_field, commit, on_header_value, on_body;
    cbn [p_l p_run p_msg p_key p_val p_url p_token p_done p_chunked p_pairs p_body p_urln p_length p_needs_eof].
  - destruct is_request; [|intros H; injection H as <-; cbn [p_msg m_headers]; tauto].
    destruct (MAX_URL_LENGTH <? pn + len s); intros H; inversion H; cbn [p_msg m_headers]; tauto.
  - destruct pt; [| |destruct pk; [|destruct (MAX_HEADER_VALUE_LENGTH <? len pv)]];
      cbn [p_l p_run p_msg p_key p_val p_url p_token p_done p_chunked p_pairs p_body p_urln p_length p_needs_eof];
      try discriminate;
      try (destruct (MAX_HEADERS_COUNT <? pp + 1); [discriminate|]);
      match goal with |- context [MAX_HEADER_NAME_LENGTH <? ?x] => destruct (MAX_HEADER_NAME_LENGTH <? x) end;
      intros H; inversion H; cbn [p_msg m_headers]; try tauto. apply has_header_add.
  - match goal with |- context [MAX_HEADER_VALUE_LENGTH <? ?x] => destruct (MAX_HEADER_VALUE_LENGTH <? x) end;
      intros H; inversion H; cbn [p_msg m_headers]; tauto.
  - destruct (MAX_CHUNK_SIZE <? len s); [discriminate|].
    destruct (MAX_BODY_SIZE <? pb + len s); intros H; inversion H; cbn [p_msg m_headers]; tauto.
  - intros H; injection H as <-; tauto.
Qed.
Lemma seq_all_TE : forall ds p q, seq_all p ds = Some q -> TE p = true -> TE q = true.
Proof.
  induction ds as [|d r IH]; cbn [seq_all]; intros p q H HT.
  - injection H as <-. exact HT.
  - destruct (callback p d) as [p1|] eqn:E; [|discriminate]. eauto using callback_TE.
Qed.

Lemma on_message_complete_keeps : forall p : parser M, p_done (on_message_complete M p) = p_done p.
Proof. reflexivity. Qed.

Lemma seq_loop_chunk : forall slice p out, p_run p = Running ->
  match seq_loop p slice with
  | RecvModel.ExOk _ q => run_spec slice (SChunk p, out) = (SChunk q, out) /\ p_done q = p_done p /\ p_run q = Running /\
                          (TE p = true -> TE q = true)
  | RecvModel.ExDone _ q rest => exists used, slice = used ++ rest /\ used <> [] /\ run_spec used (SChunk p, out) = deliver q out
  | _ => run_spec slice (SChunk p, out) = (SDead, out)
  end.
Proof.
  induction slice as [|c r IH]; intros p out HR; cbn [seq_loop fold_left].
  - auto.
  - cbn [spec_step seq_loop].
    destruct (m_step M (p_l p) c) as [[l ds] st] eqn:ES.
    destruct (seq_all (with_l p l) ds) as [q|] eqn:EA; [|apply dead_fold].
    pose proof (seq_all_keeps _ _ _ EA) as (K1 & K2 & K3 & _). cbn [RecvModel.with_l p_run p_done] in K2, K3.
    destruct st as [|mt| |]; cbn [RecvModel.finish].
    + specialize (IH q out ltac:(congruence)).
      destruct (seq_loop q r) as [x|x rest|x rest|].
      * destruct IH as (I1 & I2 & I3 & I4). refine (conj I1 (conj _ (conj I3 _))); [congruence|].
        intros HT. apply I4. exact (seq_all_TE _ _ _ EA HT).
      * exact IH.
      * destruct IH as (used & I1 & I2 & I3). exists (c :: used). subst r.
        refine (conj eq_refl (conj _ _)); [discriminate|].
        cbn [fold_left spec_step seq_loop]. rewrite ES, EA. cbn [RecvModel.finish]. exact I3.
      * exact IH.
    + destruct (on_headers_complete M is_request q mt) as [q'|] eqn:EH; apply dead_fold.
    + exists [c]. cbn [fold_left spec_step seq_loop app]. rewrite ES, EA. cbn [RecvModel.finish].
      refine (conj eq_refl (conj _ eq_refl)). discriminate.
    + apply dead_fold.
Qed.

Lemma eof_fold : forall rest p acc out, len acc <= MAX_BODY_SIZE ->
  run_spec rest (SEof p acc, out) = (if MAX_BODY_SIZE <? len (acc ++ rest) then SDead else SEof p (acc ++ rest), out).
Proof.
  induction rest as [|c r IH]; intros p acc out HL; cbn [fold_left].
  - rewrite app_nil_r. replace (MAX_BODY_SIZE <? len acc) with false by lia. reflexivity.
  - cbn [spec_step]. destruct (MAX_BODY_SIZE <? len (acc ++ [c])) eqn:E.
    + rewrite dead_fold. rewrite len_app in E |- *. rewrite len_cons in *.
      replace (MAX_BODY_SIZE <? len acc + (1 + len r)) with true; [reflexivity|]. rewrite len_nil in E. lia.
    + rewrite IH by lia. rewrite <- app_assoc. reflexivity.
Qed.

Lemma body_fold : forall rest p acc out, len (acc ++ rest) < p_length p ->
  run_spec rest (SBody p acc, out) = (SBody p (acc ++ rest), out).
Proof.
  induction rest as [|c r IH]; intros p acc out HL; cbn [fold_left].
  - now rewrite app_nil_r.
  - cbn [spec_step]. rewrite len_app, len_cons in HL. rewrite len_app, len_cons, len_nil.
    replace (len acc + (1 + 0) =? p_length p) with false by lia.
    rewrite IH by (rewrite !len_app, len_cons, len_nil; lia). rewrite <- app_assoc. reflexivity.
Qed.

Lemma body_full : forall used p acc out, used <> [] -> len (acc ++ used) = p_length p ->
  run_spec used (SBody p acc, out) = deliver (set_body M p (acc ++ used)) out.
Proof.
  intros used p acc out HN HL.
  destruct (exists_last HN) as (a & x & ->).
  rewrite fold_left_app. rewrite !len_app in HL. rewrite len_cons, len_nil in HL.
  rewrite body_fold by (rewrite len_app; lia). cbn [fold_left spec_step].
  rewrite <- app_assoc.
  replace (len (acc ++ a ++ [x]) =? p_length p) with true; [reflexivity|].
  rewrite !len_app, len_cons, len_nil. lia.
Qed.

(** ** Simulation: connection state after a read *)

(** [Pre c st out fresh]: [c] is in state [st] with the octets [fresh] of its buffer still unseen *)
Definition Pre (c : conn) (st : sst) (out : list msg) (fresh : list N) : Prop :=
  c_ok M c = true /\ c_out M c = out /\
  match st with
  | SHead p => exists old, c_in M c = old ++ fresh /\ c_header_parsed M c = len old /\ c_parser M c = p /\
                 p_done p = false /\ p_run p = Running /\ c_close M c = false
  | SBody p acc => exists pre, c_in M c = pre ++ acc ++ fresh /\ c_body_offset M c = len pre /\ 0 < len pre /\ c_parser M c = p /\
                 p_done p = true /\ negb is_request && forbidden (length out) = false /\ TE p = false /\
                 negb is_request && p_needs_eof p = false /\ p_length p <> ULLONG_MAX /\ len acc < p_length p /\
                 c_header_parsed M c = 0 /\ c_close M c = false
  | SChunk p => exists pre, c_in M c = pre ++ fresh /\ c_body_offset M c = len pre /\ 0 < len pre /\ c_parser M c = p /\
                 p_done p = true /\ p_run p = Running /\ negb is_request && forbidden (length out) = false /\ TE p = true /\
                 c_header_parsed M c = 0 /\ c_close M c = false
  | SEof p acc => exists pre, c_in M c = pre ++ acc ++ fresh /\ c_body_offset M c = len pre /\ 0 < len pre /\ c_parser M c = p /\
                 p_done p = true /\ negb is_request && forbidden (length out) = false /\ TE p = false /\
                 negb is_request && p_needs_eof p = true /\ len acc <= MAX_BODY_SIZE /\
                 c_header_parsed M c = 0 /\ c_close M c = true
  | SDead => False
  end.

Definition R (c : conn) (s : state) : Prop :=
  match fst s with
  | SDead => c_ok M c = false /\ c_out M c = snd s
  | st => Pre c st (snd s) []
  end.

Definition Outcome (nc : N * conn) (s : state) (rest : list N) : Prop :=
  (fst nc = 0 /\ R (snd nc) (run_spec rest s)) \/
  (exists used rest', rest = used ++ rest' /\ 0 < fst nc /\ c_in M (snd nc) <> [] /\
     from (fst nc) (c_in M (snd nc)) = rest' /\
     run_spec used s = (SHead (reset M), c_out M (snd nc) ++ [p_msg (c_parser M (snd nc))]) /\
     c_header_parsed M (snd nc) = 0 /\ c_ok M (snd nc) = true /\ c_close M (snd nc) = false).

(** a step of the loop, header section already complete *)
Lemma body_size_body : forall c p acc out rest, Pre c (SBody p acc) out rest ->
  Outcome (body_size M is_request forbidden c) (SBody p acc, out) rest.
Proof.
  intros c p acc out rest (HO & HU & pre & HI & HF & HP & HC & HD & HNF & HT & HE & HM & HA & HH & HCL).
  unfold body_size. rewrite HC, HU, HNF. fold (TE p). rewrite HT, HE.
  replace (p_length p =? ULLONG_MAX) with false by lia.
  rewrite HI, HF, !len_app.
  destruct (len pre + (len acc + len rest) <? len pre + p_length p) eqn:E.
  - left. cbn [fst snd]. split; [reflexivity|].
    rewrite body_fold by (rewrite len_app; lia). unfold R. cbn [fst snd Pre].
    refine (conj HO (conj HU (ex_intro _ pre _))).
    rewrite app_nil_r, HI, len_app. repeat (split; auto); lia.
  - right. replace (p_length p =? 0) with false by lia.
    cbn [fst snd with_parser c_in c_parser c_header_parsed c_ok c_close c_out].
    set (k := p_length p - len acc).
    exists (take k rest), (from k rest).
    assert (HK : len (take k rest) = k) by (rewrite len_take; lia).
    assert (HX : take (p_length p) (from (len pre) (pre ++ acc ++ rest)) = acc ++ take k rest).
    { rewrite from_app. replace (p_length p) with (len (acc ++ take k rest)) by (rewrite len_app; lia).
      replace (acc ++ rest) with ((acc ++ take k rest) ++ from k rest) by (rewrite <- app_assoc, take_from; reflexivity).
      apply take_app. }
    refine (conj _ (conj _ (conj _ (conj _ (conj _ (conj _ (conj _ _))))))).
    + symmetry. apply take_from.
    + lia.
    + rewrite HI. destruct pre; [rewrite len_nil in HP; lia|discriminate].
    + rewrite HI, from_add, from_app. replace (p_length p) with (len acc + k) by lia.
      rewrite from_add, from_app. reflexivity.
    + rewrite body_full.
      * unfold deliver. rewrite HU, HX. reflexivity.
      * intros Z. rewrite Z in HK. rewrite len_nil in HK. lia.
      * rewrite len_app. lia.
    + exact HH.
    + exact HO.
    + exact HCL.
Qed.

Lemma body_size_eof : forall c p acc out rest,
  Pre (mkc M (c_in M c) (c_parser M c) (c_body_offset M c) (c_header_parsed M c) true (c_ok M c) (c_out M c)) (SEof p acc) out rest ->
  Outcome (body_size M is_request forbidden c) (SEof p acc, out) rest.
Proof.
  intros c p acc out rest (HO & HU & pre & HI & HF & HP & HC & HD & HNF & HT & HE & HA & HH & HCL).
  cbn [c_in c_parser c_body_offset c_header_parsed c_ok c_close c_out] in *.
  unfold body_size. rewrite HC, HU, HNF. fold (TE p). rewrite HT, HE.
  rewrite HI, HF, !len_app. left.
  rewrite eof_fold by exact HA. rewrite len_app.
  replace (len pre + (len acc + len rest) - len pre) with (len acc + len rest) by lia.
  destruct (MAX_BODY_SIZE <? len acc + len rest) eqn:E; cbn [fst snd]; (split; [reflexivity|]); unfold R; cbn [fst snd].
  - cbn [not_ok c_ok c_out]. auto.
  - cbn [Pre]. cbn [c_in c_parser c_body_offset c_header_parsed c_ok c_close c_out].
    refine (conj HO (conj eq_refl (ex_intro _ pre _))). rewrite app_nil_r, len_app. repeat (split; auto); lia.
Qed.

Lemma seq_rest : forall slice p q rest,
  seq_loop p slice = ExDone q rest -> exists used, slice = used ++ rest.
Proof.
  induction slice as [|c r IH]; intros p q rest H; cbn [seq_loop] in H; [discriminate|].
  destruct (m_step M (p_l p) c) as [[l ds] st]. destruct (seq_all (with_l p l) ds) as [q0|]; [|discriminate].
  destruct st; cbn [RecvModel.finish] in H.
  - apply IH in H. destruct H as (u & ->). now exists (c :: u).
  - destruct (on_headers_complete M is_request q0 m); discriminate.
  - injection H as <- <-. now exists [c].
  - discriminate.
Qed.

Lemma chunk_core : forall c q pre out rest, len rest <= MAX_CHUNK_SIZE ->
  c_ok M c = true -> c_out M c = out -> c_in M c = pre ++ rest -> c_body_offset M c = len pre -> 0 < len pre ->
  p_done q = true -> p_run q = Running -> negb is_request && forbidden (length out) = false -> TE q = true ->
  c_header_parsed M c = 0 -> c_close M c = false ->
  Outcome (match exec_loop q None rest with
           | RecvModel.ExDone _ p' rest => (len (c_in M c) - len rest, with_parser M c p' 0 (c_header_parsed M c))
           | RecvModel.ExOk _ p' => (0, with_parser M c p' (len (c_in M c)) (c_header_parsed M c))
           | _ => (0, not_ok M c)
           end) (SChunk q, out) rest.
Proof.
  intros c p pre out rest HS HO HU HI HF HP HD HR HNF HT HH HCL.
  rewrite exec_seq by (cbn [psize]; lia). cbn [RecvModel.flush].
  pose proof (seq_loop_chunk rest p out HR) as HX.
  destruct (seq_loop p rest) as [q|q r'|q r'|] eqn:EX.
  - left. destruct HX as (X1 & X2 & X3 & X4). cbn [fst snd]. split; [reflexivity|]. rewrite X1. unfold R. cbn [fst snd Pre].
    cbn [with_parser c_in c_parser c_body_offset c_header_parsed c_ok c_close c_out].
    refine (conj HO (conj HU (ex_intro _ (pre ++ rest) _))). rewrite app_nil_r, HI, !len_app.
    repeat (split; auto); try lia; congruence.
  - left. cbn [fst snd]. split; [reflexivity|]. rewrite HX. unfold R. cbn [fst snd not_ok c_ok c_out]. auto.
  - right. destruct HX as (used & X1 & X2 & X3). exists used, r'. subst rest.
    cbn [fst snd with_parser c_in c_parser c_body_offset c_header_parsed c_ok c_close c_out].
    rewrite HI, !len_app.
    replace (len pre + (len used + len r') - len r') with (len pre + len used) by lia.
    refine (conj eq_refl (conj _ (conj _ (conj _ (conj _ (conj HH (conj HO HCL))))))).
    + lia.
    + destruct pre; [rewrite len_nil in HP; lia|discriminate].
    + rewrite from_add, from_app. apply from_app.
    + rewrite X3. unfold deliver. rewrite HU. reflexivity.
  - left. cbn [fst snd]. split; [reflexivity|]. rewrite HX. unfold R. cbn [fst snd not_ok c_ok c_out]. auto.
Qed.

Lemma body_size_chunk : forall c p out rest, len rest <= MAX_CHUNK_SIZE -> Pre c (SChunk p) out rest ->
  Outcome (body_size M is_request forbidden c) (SChunk p, out) rest.
Proof.
  intros c p out rest HS (HO & HU & pre & HI & HF & HP & HC & HD & HR & HNF & HT & HH & HCL).
  pose proof (chunk_core c p pre out rest HS HO HU HI HF HP HD HR HNF HT HH HCL) as HX.
  unfold body_size. rewrite HC, HU, HNF. fold (TE p). rewrite HT.
  unfold resume. rewrite HR. unfold RecvModel.parse. rewrite HR.
  replace (from (c_body_offset M c) (c_in M c)) with rest by (rewrite HI, HF, from_app; reflexivity).
  exact HX.
Qed.

(** right after the header section *)
Lemma body_size_enter : forall c p pre out rest, len rest <= MAX_CHUNK_SIZE ->
  c_ok M c = true -> c_out M c = out -> c_in M c = pre ++ rest -> c_body_offset M c = len pre -> 0 < len pre ->
  c_parser M c = p -> p_done p = true -> p_run p = Paused -> c_header_parsed M c = 0 -> c_close M c = false ->
  Outcome (body_size M is_request forbidden c) (enter p out) rest.
Proof.
  intros c p pre out rest HS HO HU HI HF HP HC HD HR HH HCL. unfold enter.
  assert (HN : c_in M c <> []) by (rewrite HI; destruct pre; [rewrite len_nil in HP; lia|discriminate]).
  destruct (negb is_request && forbidden (length out)) eqn:HNF.
  - unfold body_size. rewrite HC, HU, HNF. right. exists [], rest.
    cbn [fst snd with_parser c_in c_parser c_body_offset c_header_parsed c_ok c_close c_out app fold_left].
    rewrite HF. refine (conj eq_refl (conj HP (conj HN (conj _ (conj _ (conj HH (conj HO HCL))))))).
    + rewrite HI. apply from_app.
    + unfold deliver. rewrite HU. reflexivity.
  - fold (TE p). destruct (TE p) eqn:HT.
    + destruct (m_wake M (p_l p)) as [l st] eqn:EW. cbn [RecvModel.with_l RecvModel.with_run p_run] in *.
      destruct st as [|mt| |]; cbn [RecvModel.finish].
      * set (q := with_run M (with_l p l) Running).
        pose proof (chunk_core c q pre out rest HS HO HU HI HF HP HD eq_refl HNF HT HH HCL) as HX.
        unfold body_size. rewrite HC, HU, HNF. fold (TE p). rewrite HT. unfold resume. rewrite HR.
        unfold RecvModel.parse. cbn [RecvModel.with_run p_run p_l]. rewrite EW. cbn [RecvModel.finish].
        change (with_run M (with_l (with_run M p Resumed) l) Running) with q.
        replace (from (c_body_offset M c) (c_in M c)) with rest by (rewrite HI, HF, from_app; reflexivity).
        exact HX.
      * left. unfold body_size. rewrite HC, HU, HNF. fold (TE p). rewrite HT. unfold resume. rewrite HR.
        unfold RecvModel.parse. cbn [RecvModel.with_run p_run p_l]. rewrite EW. cbn [RecvModel.finish].
        change (with_run M (with_l (with_run M p Resumed) l) Running) with (with_run M (with_l p l) Running).
        destruct (on_headers_complete M is_request (with_run M (with_l p l) Running) mt) as [q|];
          cbn [fst snd]; (split; [reflexivity|]); rewrite dead_fold; unfold R; cbn [fst snd not_ok c_ok c_out]; auto.
      * right. exists [], rest. unfold body_size. rewrite HC, HU, HNF. fold (TE p). rewrite HT. unfold resume. rewrite HR.
        unfold RecvModel.parse. cbn [RecvModel.with_run p_run p_l]. rewrite EW. cbn [RecvModel.finish].
        change (with_run M (with_l (with_run M p Resumed) l) Running) with (with_run M (with_l p l) Running).
        cbn [fst snd with_parser c_in c_parser c_body_offset c_header_parsed c_ok c_close c_out app fold_left].
        rewrite len_from.
        replace (len (c_in M c) - (len (c_in M c) - c_body_offset M c)) with (len pre)
          by (rewrite HI, len_app, HF; lia).
        refine (conj eq_refl (conj HP (conj HN (conj _ (conj _ (conj HH (conj HO HCL))))))).
        -- rewrite HI. apply from_app.
        -- unfold deliver. rewrite HU. reflexivity.
      * left. unfold body_size. rewrite HC, HU, HNF. fold (TE p). rewrite HT. unfold resume. rewrite HR.
        unfold RecvModel.parse. cbn [RecvModel.with_run p_run p_l]. rewrite EW. cbn [RecvModel.finish].
        cbn [fst snd]; (split; [reflexivity|]); rewrite dead_fold; unfold R; cbn [fst snd not_ok c_ok c_out]; auto.
    + destruct (negb is_request && p_needs_eof p) eqn:HE.
      * apply body_size_eof. refine (conj HO (conj HU (ex_intro _ pre _))).
        cbn [c_in c_parser c_body_offset c_header_parsed c_ok c_close c_out app]. repeat (split; auto).
        rewrite len_nil. unfold MAX_BODY_SIZE. lia.
      * destruct (p_length p =? ULLONG_MAX) eqn:HM.
        -- left. unfold body_size. rewrite HC, HU, HNF. fold (TE p). rewrite HT, HE, HM. cbn [fst snd].
           split; [reflexivity|]. rewrite dead_fold. unfold R. cbn [fst snd not_ok c_ok c_out]. auto.
        -- destruct (p_length p =? 0) eqn:HZ.
           ++ right. exists [], rest. unfold body_size. rewrite HC, HU, HNF. fold (TE p). rewrite HT, HE, HM.
              replace (p_length p) with 0 by lia. rewrite N.add_0_r.
              replace (len (c_in M c) <? c_body_offset M c) with false by (rewrite HI, len_app, HF; lia).
              replace (0 =? 0) with true by reflexivity.
              cbn [fst snd with_parser c_in c_parser c_body_offset c_header_parsed c_ok c_close c_out app fold_left].
              rewrite HF. refine (conj eq_refl (conj HP (conj HN (conj _ (conj _ (conj HH (conj HO HCL))))))).
              ** rewrite HI. apply from_app.
              ** unfold deliver. rewrite HU. reflexivity.
           ++ apply body_size_body. refine (conj HO (conj HU (ex_intro _ pre _))). cbn [app].
              repeat (split; auto); try lia. rewrite len_nil. lia.
Qed.

Lemma get_message_size_spec : forall c st out rest, len rest <= MAX_CHUNK_SIZE -> Pre c st out rest ->
  Outcome (get_message_size M is_request forbidden c) (st, out) rest.
Proof.
  intros c st out rest HS HPre. unfold get_message_size.
  destruct st as [p|p acc|p|p acc|].
  - destruct HPre as (HO & HU & old & HI & HH & HC & HD & HR & HCL).
    rewrite HC, HD, HI, HH, len_app.
    destruct rest as [|x rest].
    + rewrite len_nil, N.add_0_r, N.leb_refl. left. cbn [fst snd fold_left]. split; [reflexivity|]. unfold R. cbn [fst snd].
      refine (conj HO (conj HU (ex_intro _ old _))). repeat (split; auto).
    + replace (len old + len (x :: rest) <=? len old) with false by (rewrite len_cons; lia).
      rewrite from_app. unfold RecvModel.parse. rewrite HR, exec_seq by (cbn [psize]; lia). cbn [RecvModel.flush].
      pose proof (seq_loop_head (x :: rest) p out HD HR) as HX.
      destruct (seq_loop p (x :: rest)) as [q|q r'|q r'|].
      * left. destruct HX as (X1 & X2 & X3). cbn [fst snd]. split; [reflexivity|]. rewrite X1. unfold R. cbn [fst snd].
        refine (conj HO (conj HU (ex_intro _ (old ++ x :: rest) _))).
        cbn [with_parser c_in c_parser c_body_offset c_header_parsed c_ok c_close c_out].
        rewrite app_nil_r, len_app. repeat (split; auto).
      * destruct HX as (used & X1 & X2 & X3 & X4 & X5). rewrite X1.
        assert (HL : 0 < len used) by (destruct used; [congruence|rewrite len_cons; lia]).
        rewrite len_app. replace (len old + (len used + len r') - len r') with (len (old ++ used)) by (rewrite len_app; lia).
        pose proof (body_size_enter (with_parser M c q (len (old ++ used)) 0) q (old ++ used) out r') as HY.
        cbn [with_parser c_in c_parser c_body_offset c_header_parsed c_ok c_close c_out] in HY.
        rewrite X1, len_app in HS. rewrite HI, X1, app_assoc in HY.
        assert (HL2 : 0 < len (old ++ used)) by (rewrite len_app; lia).
        specialize (HY ltac:(lia) HO HU eq_refl eq_refl HL2 eq_refl X4 X5 eq_refl HCL).
        unfold Outcome in *. rewrite fold_left_app, X3.
        destruct HY as [HY|(u & r2 & Y1 & Y2 & Y3 & Y4 & Y5 & Y6)]; [left; exact HY|right].
        exists (used ++ u), r2. rewrite fold_left_app, X3.
        refine (conj _ (conj Y2 (conj Y3 (conj Y4 (conj Y5 Y6))))). rewrite Y1. apply app_assoc.
      * left. cbn [fst snd]. split; [reflexivity|]. rewrite HX. unfold R. cbn [fst snd not_ok c_ok c_out]. auto.
      * left. cbn [fst snd]. split; [reflexivity|]. rewrite HX. unfold R. cbn [fst snd not_ok c_ok c_out]. auto.
  - pose proof HPre as (HO & HU & pre & HI & HF & HP & HC & HD & _). rewrite HC, HD. apply body_size_body. exact HPre.
  - pose proof HPre as (HO & HU & pre & HI & HF & HP & HC & HD & _). rewrite HC, HD. apply body_size_chunk; assumption.
  - pose proof HPre as (HO & HU & pre & HI & HF & HP & HC & HD & H1 & H2 & H3 & H4 & H5 & HCL). rewrite HC, HD. apply body_size_eof.
    refine (conj HO (conj HU (ex_intro _ pre _))). cbn [c_in c_parser c_body_offset c_header_parsed c_ok c_close c_out].
    repeat (split; auto).
  - destruct HPre as (_ & _ & []).
Qed.

Lemma drive_spec : forall fuel c st out rest, (length (c_in M c) < fuel)%nat -> len rest <= MAX_CHUNK_SIZE ->
  Pre c st out rest -> R (drive M is_request forbidden fuel c) (run_spec rest (st, out)).
Proof.
  induction fuel as [|f IH]; intros c st out rest HF HS HPre; [lia|].
  cbn [drive]. pose proof HPre as (HO & _). rewrite HO. cbn [negb].
  pose proof (get_message_size_spec c st out rest HS HPre) as HG.
  assert (HIN : c_in M (snd (get_message_size M is_request forbidden c)) = c_in M c).
  { unfold get_message_size, body_size.
    repeat match goal with
           | |- context [if ?b then _ else _] => destruct b
           | |- context [match ?x with RecvModel.ExOk _ _ => _ | _ => _ end] => destruct x
           end; reflexivity. }
  destruct (get_message_size M is_request forbidden c) as [n c'] eqn:EG. cbn [fst snd] in *.
  unfold Outcome in HG. cbn [fst snd] in HG.
  destruct HG as [(-> & HG)|(used & rest' & G1 & G2 & G3 & G4 & G5 & G6 & G7 & G8)]; [exact HG|].
  cbn [fst snd] in G2, G3, G4, G5, G6, G7, G8.
  replace (n =? 0) with false by lia.
  rewrite G1, fold_left_app, G5.
  cbn [on_message c_in c_parser c_body_offset c_header_parsed c_ok c_close c_out].
  rewrite G4. apply IH.
  - cbn [c_in]. rewrite <- G4. unfold from. rewrite skipn_length, HIN.
    rewrite HIN in G3. destruct (c_in M c); [congruence|]. cbn [length] in *. lia.
  - rewrite G1, len_app in HS. lia.
  - refine (conj G7 (conj eq_refl (ex_intro _ [] _))).
    cbn [c_in c_parser c_body_offset c_header_parsed c_ok c_close c_out app]. repeat (split; auto).
Qed.

Lemma read_spec : forall c s slice, len slice <= MAX_CHUNK_SIZE -> R c s ->
  R (read M is_request forbidden c slice) (run_spec slice s).
Proof.
  intros c [st out] slice HS HR. unfold read. unfold R in HR. cbn [fst snd] in HR.
  destruct st as [p|p acc|p|p acc|].
  5:{ destruct HR as (H1 & H2). rewrite H1. cbn [negb]. rewrite dead_fold. unfold R. cbn [fst snd]. auto. }
  all: assert (HO : c_ok M c = true) by (destruct HR; assumption); rewrite HO; cbn [negb].
  all: apply drive_spec; [lia|exact HS|].
  - destruct HR as (_ & HU & old & HI & HR). rewrite app_nil_r in HI. refine (conj eq_refl (conj HU (ex_intro _ old _))).
    cbn [c_in c_parser c_body_offset c_header_parsed c_ok c_close c_out]. rewrite HI. split; [reflexivity|exact HR].
  - destruct HR as (_ & HU & old & HI & HR). rewrite app_nil_r in HI. refine (conj eq_refl (conj HU (ex_intro _ old _))).
    cbn [c_in c_parser c_body_offset c_header_parsed c_ok c_close c_out]. rewrite HI, app_assoc. split; [reflexivity|exact HR].
  - destruct HR as (_ & HU & old & HI & HR). rewrite app_nil_r in HI. refine (conj eq_refl (conj HU (ex_intro _ old _))).
    cbn [c_in c_parser c_body_offset c_header_parsed c_ok c_close c_out]. rewrite HI. split; [reflexivity|exact HR].
  - destruct HR as (_ & HU & old & HI & HR). rewrite app_nil_r in HI. refine (conj eq_refl (conj HU (ex_intro _ old _))).
    cbn [c_in c_parser c_body_offset c_header_parsed c_ok c_close c_out]. rewrite HI, app_assoc. split; [reflexivity|exact HR].
Qed.

Definition start : state := (SHead (reset M), []).

Lemma feed_spec : forall slices, Forall (fun s => len s <= MAX_CHUNK_SIZE) slices ->
  R (feed M is_request forbidden slices) (run_spec (concat slices) start).
Proof.
  intros slices. unfold feed.
  assert (H0 : R (fresh M) start).
  { unfold R, start. cbn [fst snd]. refine (conj eq_refl (conj eq_refl (ex_intro _ [] _))). repeat (split; auto). }
  revert H0. generalize (fresh M) start. induction slices as [|s r IH]; intros c st HR HF; cbn [fold_left concat].
  - exact HR.
  - inversion HF; subst. rewrite fold_left_app. apply IH; [apply read_spec; assumption|assumption].
Qed.

End RecvProofs.
