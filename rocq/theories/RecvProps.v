(** Properties C87-C90: the HTTP/1.1 receiving side. *)
From Verif Require Import Base UtilModel UtilSpec UtilProofs StaticModel DateModel CookieSpec H2FieldSpec Http1Model Http1Spec Http1Proofs
  RecvModel RecvSpec RecvProofs RecvInv.
From Coq Require Import ZifyBool ZifyN.
Local Open Scope N_scope.

(** What the handler of a connection has been given, and whether the connection is still up. *)
Notation delivered M req forb slices := (c_out M (feed M req forb slices)).
Notation alive M req forb slices := (c_ok M (feed M req forb slices)).
(** ... and after the peer has closed the connection *)
Notation delivered_at_close M req forb slices := (c_out M (flush_eof M (feed M req forb slices))).

(** ** C87: only the octets matter, not how reads cut them *)
Lemma R_flush : forall M req forb c st out, R M req forb c (st, out) ->
  c_out M (flush_eof M c) = match st with SEof _ p acc => out ++ [p_msg (if len acc =? 0 then p else set_body M p acc)] | _ => out end.
Proof.
  intros M req forb c st out H. unfold R in H. cbn [fst snd] in H. unfold flush_eof.
  destruct st as [p|p acc|p|p acc|].
  - destruct H as (HO & HU & old & HI & HH & HC & HD & HR & HCL). rewrite HCL. exact HU.
  - destruct H as (HO & HU & pre & HI & HF & HP & HC & HD & HNF & HT & HE & HM & HA & HH & HCL). rewrite HCL. exact HU.
  - destruct H as (HO & HU & pre & HI & HF & HP & HC & HD & HR & HNF & HT & HH & HCL). rewrite HCL. exact HU.
  - destruct H as (HO & HU & pre & HI & HF & HP & HC & HD & HNF & HT & HE & HA & HH & HCL). rewrite HCL, HC, HD, HO. cbn [negb orb].
    cbn [on_message c_out c_parser]. rewrite HU, HI, HF, app_nil_r, len_app, from_app.
    replace (len pre <? len pre + len acc) with (negb (len acc =? 0)) by lia.
    destruct (len acc =? 0); reflexivity.
  - destruct H as (HO & HU). rewrite HO, !orb_true_r. exact HU.
Qed.

Lemma R_alive : forall M req forb c st out, R M req forb c (st, out) ->
  c_out M c = out /\ c_ok M c = match st with SDead _ => false | _ => true end.
Proof.
  intros M req forb c st out H. unfold R in H. cbn [fst snd] in H.
  destruct st; [destruct H as (HO & HU & _); auto..|destruct H; auto].
Qed.

Theorem c87_reads_do_not_matter : forall M req forb, OneOctet M -> forall xs ys,
  SmallReads xs -> SmallReads ys -> concat xs = concat ys ->
  delivered M req forb xs = delivered M req forb ys /\
  alive M req forb xs = alive M req forb ys /\
  delivered_at_close M req forb xs = delivered_at_close M req forb ys.
Proof.
  intros M req forb HB xs ys HX HY HC.
  pose proof (feed_spec M req forb HB xs HX) as RX. pose proof (feed_spec M req forb HB ys HY) as RY. rewrite HC in RX.
  destruct (fold_left (spec_step M req forb) (concat ys) (start M)) as [st out].
  destruct (R_alive _ _ _ _ _ _ RX) as [-> ->]. destruct (R_alive _ _ _ _ _ _ RY) as [-> ->].
  rewrite (R_flush _ _ _ _ _ _ RX), (R_flush _ _ _ _ _ _ RY). auto.
Qed.

(** *** A small HTTP/1.1 tokenizer, as an instance of [machine] (for the examples only) *)
Inductive tstate := TMethod | TUrl | TVersion | TStart | TName | TBlank | TVal | TSize (n : N) | TExt (n : N) | TData (n : N) | TGap | TFail.
Record tl := { t_q : tstate; t_name : list N; t_val : list N; t_te : bool; t_cl : option N; t_body : bool }.
Definition tput (l : tl) (q : tstate) : tl :=
  {| t_q := q; t_name := t_name l; t_val := t_val l; t_te := t_te l; t_cl := t_cl l; t_body := t_body l |}.
Definition tmeta (l : tl) : meta :=
  {| mt_method := 1; mt_status := 200; mt_major := 1; mt_minor := 1; mt_upgrade := false; mt_keep_alive := true;
     mt_length := match t_cl l with Some n => n | None => ULLONG_MAX end;
     mt_needs_eof := negb (t_te l) && match t_cl l with Some _ => false | None => true end |}.
Definition tclose (l : tl) : tl :=
  {| t_q := TStart; t_name := []; t_val := [];
     t_te := t_te l || (negb (t_body l) && iequals (t_name l) (str "Transfer-Encoding"));
     t_cl := if negb (t_body l) && iequals (t_name l) (str "Content-Length") then from_chars_u64 (t_val l) else t_cl l;
     t_body := t_body l |}.
Definition hexd (c : N) : option N :=
  if (48 <=? c) && (c <=? 57) then Some (c - 48) else if (97 <=? c) && (c <=? 102) then Some (c - 87) else None.
Definition tsize (n : N) : tstate := if n =? 0 then TStart else TData n.
Definition tstep (l : tl) (c : N) : tl * list dat * stop :=
  if c =? 13 then match t_q l with TData _ => (tput l TFail, [], Bad) | _ => (l, [], Go) end
  else match t_q l with
  | TMethod => if c =? 32 then (tput l TUrl, [], Go) else (l, [], Go)
  | TUrl => if c =? 32 then (tput l TVersion, [DCut], Go) else (l, [DUrl [c]], Go)
  | TVersion => if c =? 10 then (tput l TStart, [], Go) else (l, [], Go)
  | TStart => if c =? 10 then (if t_body l then (l, [], Done)
                               else ({| t_q := TSize 0; t_name := []; t_val := []; t_te := t_te l; t_cl := t_cl l; t_body := true |}, [], Heads (tmeta l)))
              else ({| t_q := TName; t_name := [c]; t_val := []; t_te := t_te l; t_cl := t_cl l; t_body := t_body l |}, [DField [c]], Go)
  | TName => if c =? 58 then (tput l TBlank, [DValue []], Go)
             else ({| t_q := TName; t_name := t_name l ++ [c]; t_val := []; t_te := t_te l; t_cl := t_cl l; t_body := t_body l |}, [DField [c]], Go)
  | TBlank => if c =? 32 then (l, [], Go) else if c =? 10 then (tclose l, [], Go)
              else ({| t_q := TVal; t_name := t_name l; t_val := t_val l ++ [c]; t_te := t_te l; t_cl := t_cl l; t_body := t_body l |}, [DValue [c]], Go)
  | TVal => if c =? 10 then (tclose l, [], Go)
            else ({| t_q := TVal; t_name := t_name l; t_val := t_val l ++ [c]; t_te := t_te l; t_cl := t_cl l; t_body := t_body l |}, [DValue [c]], Go)
  | TSize n => if c =? 10 then (tput l (tsize n), [], Go) else if c =? 59 then (tput l (TExt n), [], Go)
               else match hexd c with Some d => (tput l (TSize (16 * n + d)), [], Go) | None => (tput l TFail, [], Bad) end
  | TExt n => if c =? 10 then (tput l (tsize n), [], Go) else (l, [], Go)
  | TData n => if n =? 1 then (tput l TGap, [DBody [c]; DCut], Go) else (tput l (TData (n - 1)), [DBody [c]], Go)
  | TGap => if c =? 10 then (tput l (TSize 0), [], Go) else (tput l TFail, [], Bad)
  | TFail => (l, [], Bad)
  end.
Definition toy : machine :=
  {| mL := tl; m_init := {| t_q := TMethod; t_name := []; t_val := []; t_te := false; t_cl := None; t_body := false |};
     m_wake := fun l => (l, Go); m_step := tstep |}.

Ltac toy_cases :=
  unfold tstep;
  repeat match goal with
         | |- context [if ?b then _ else _] => destruct b eqn:?
         | |- context [match t_q ?l with TMethod => _ | _ => _ end] => destruct (t_q l) eqn:?
         | |- context [match hexd ?c with Some _ => _ | None => _ end] => destruct (hexd c)
         end.

Lemma toy_one : OneOctet toy.
Proof. intros l c. cbn [toy m_step]. toy_cases; unfold size; cbn [fst snd body_of flat_map app length]; lia. Qed.

(** two requests in one stream *)
Definition ex_stream : list N :=
  str "POST /a HTTP/1.1" ++ [13; 10] ++ str "Content-Length: 5" ++ [13; 10; 13; 10] ++ str "hello" ++
  str "PUT /b HTTP/1.1" ++ [13; 10] ++ str "transfer-encoding: Chunked" ++ [13; 10] ++ str "X: y" ++ [13; 10; 13; 10] ++
  str "3;e=v" ++ [13; 10] ++ str "abc" ++ [13; 10] ++ str "2" ++ [13; 10] ++ str "de" ++ [13; 10] ++ str "0" ++ [13; 10; 13; 10].

Definition shown (ms : list msg) := map (fun m => (m_url m, m_headers m, m_body m)) ms.
Example ex_stream_whole : shown (delivered toy true (fun _ => false) [ex_stream]) =
  [(str "/a", [(str "Content-Length", [str "5"])], str "hello");
   (str "/b", [(str "transfer-encoding", [str "Chunked"]); (str "X", [str "y"]); (str "Content-Type", [[]])], str "abcde")].
Proof. vm_compute. reflexivity. Qed.
Example ex_stream_octets : shown (delivered toy true (fun _ => false) (map (fun c => [c]) ex_stream)) =
  shown (delivered toy true (fun _ => false) [ex_stream]).
Proof. vm_compute. reflexivity. Qed.

(** *** The 16 MiB chunk limit is applied to the piece of a chunk that one read happens to bring, not to the
    chunk: with larger reads the same octets can be refused or accepted (C87 needs SmallReads). *)
Definition blob_meta : meta :=
  {| mt_method := 1; mt_status := 200; mt_major := 1; mt_minor := 1; mt_upgrade := false; mt_keep_alive := true;
     mt_length := ULLONG_MAX; mt_needs_eof := false |}.
Definition blob : machine :=
  {| mL := bool; m_init := false; m_wake := fun l => (l, Go);
     m_step := fun l c => if l then (true, [DBody [c]], Go)
                          else (true, [DField (str "Transfer-Encoding"); DValue (str "chunked")], Heads blob_meta) |}.

Lemma with_l_id : forall (M : machine) (p : parser M) l, p_l p = l -> with_l M p l = p.
Proof. intros M [] l H. cbn in H. subst. reflexivity. Qed.

Lemma blob_exec : forall (s : list N) (p : parser blob) (acc : list N), p_l p = true ->
  exec_loop blob true p (Some (DBody acc)) s = match on_body blob p (acc ++ s) with Some q => ExOk blob q | None => ExError blob end.
Proof.
  induction s as [|c r IH]; intros p acc HP; cbn [exec_loop].
  - rewrite app_nil_r. reflexivity.
  - cbn [blob m_step]. rewrite HP. cbn [absorb_all absorb glue].
    rewrite with_l_id by exact HP. change (exec_loop blob true p (Some (DBody (acc ++ [c]))) r =
      match on_body blob p (acc ++ c :: r) with Some q => ExOk blob q | None => ExError blob end).
    rewrite IH by exact HP. rewrite <- app_assoc. reflexivity.
Qed.

Definition BlobAt (c : conn blob) (p : parser blob) : Prop :=
  c_ok blob c = true /\ c_parser blob c = p /\ p_l (M := blob) p = true /\ p_run p = Running /\ p_done p = true /\ TE blob p = true /\
  c_body_offset blob c = len (c_in blob c).

Lemma blob_read : forall c p x s, BlobAt c p ->
  match on_body blob p (x :: s) with
  | Some q => BlobAt (read blob true (fun _ => false) c (x :: s)) q
  | None => c_ok blob (read blob true (fun _ => false) c (x :: s)) = false
  end.
Proof.
  intros c p x s (HO & HC & HL & HR & HD & HT & HF). unfold read. rewrite HO. cbn [negb drive c_ok].
  unfold get_message_size. cbn [c_parser]. rewrite HC, HD. unfold body_size. cbn [c_parser c_in c_body_offset c_out].
  cbn [negb andb]. fold (TE blob p). rewrite HT. unfold resume. rewrite HR. unfold parse. rewrite HR.
  rewrite HF, from_app. cbn [exec_loop blob m_step]. rewrite HL. cbn [absorb_all absorb].
  rewrite with_l_id by exact HL.
  change (exec_loop _ true p (Some (DBody [x])) s) with (exec_loop blob true p (Some (DBody [x])) s).
  rewrite blob_exec by exact HL. cbn [app].
  destruct (on_body blob p (x :: s)) as [q|] eqn:EB.
  - cbn [negb N.eqb]. unfold on_body in EB. destruct (MAX_CHUNK_SIZE <? len (x :: s)); [discriminate|].
    destruct (MAX_BODY_SIZE <? p_body p + len (x :: s)); [discriminate|]. injection EB as <-.
    unfold BlobAt, TE in *. cbn [with_parser c_ok c_parser c_body_offset c_in p_l p_run p_done p_msg]. auto 10.
  - reflexivity.
Qed.

Lemma blob_first : exists c1 p1, read blob true (fun _ => false) (fresh blob) [0] = c1 /\ BlobAt c1 p1 /\ p_body p1 = 0.
Proof. eexists _, _. split; [vm_compute; reflexivity|]. vm_compute. auto 10. Qed.

Lemma on_body_some : forall (p : parser blob) s n, p_body p = n -> len s <= 16777216 -> n + len s <= 104857600 ->
  exists q, on_body blob p s = Some q /\ p_body q = n + len s.
Proof.
  intros p s n <- H1 H2. unfold on_body, MAX_CHUNK_SIZE, MAX_BODY_SIZE.
  replace (16777216 <? len s) with false by lia. replace (104857600 <? p_body p + len s) with false by lia.
  eexists. split; reflexivity.
Qed.
Lemma on_body_none : forall (p : parser blob) s, 16777216 < len s -> on_body blob p s = None.
Proof. intros p s H. unfold on_body, MAX_CHUNK_SIZE. replace (16777216 <? len s) with true by lia. reflexivity. Qed.

Lemma blob_two : forall y r, len (y :: r) = 16777216 ->
  alive blob true (fun _ => false) [[0]; 65 :: y :: r] = false /\
  alive blob true (fun _ => false) [[0]; [65]; y :: r] = true.
Proof.
  intros y r HL. unfold feed. cbn [fold_left].
  destruct blob_first as (c1 & p1 & E1 & H1 & HZ). rewrite E1. clear E1. split.
  - pose proof (blob_read c1 p1 65 (y :: r) H1) as HA. rewrite on_body_none in HA by (rewrite len_cons; lia). exact HA.
  - pose proof (blob_read c1 p1 65 [] H1) as HC.
    destruct (on_body_some p1 [65] 0 HZ) as (p2 & E2 & Z2); [vm_compute; discriminate..|].
    rewrite E2 in HC. pose proof (blob_read _ p2 y r HC) as HD.
    destruct (on_body_some p2 (y :: r) 1 Z2) as (p3 & E3 & Z3); [lia..|]. rewrite E3 in HD. destruct HD as (HD & _). exact HD.
Qed.

Lemma long_list : forall n : nat, exists r, len r = N.of_nat n.
Proof. intros n. exists (repeat 0 n). unfold len. now rewrite repeat_length. Qed.

Theorem c87_large_reads_matter : ~ (forall M req forb, OneOctet M -> forall xs ys, concat xs = concat ys ->
  alive M req forb xs = alive M req forb ys).
Proof.
  intros H.
  assert (HO : OneOctet blob).
  { intros l c. destruct l; unfold size; cbn [blob m_step fst snd body_of flat_map app length]; lia. }
  destruct (long_list (N.to_nat 16777216)) as (r & HL). rewrite N2Nat.id in HL.
  destruct r as [|y r]; [discriminate HL|].
  specialize (H blob true (fun _ => false) HO [[0]; 65 :: y :: r] [[0]; [65]; y :: r] eq_refl).
  destruct (blob_two y r HL) as [H1 H2]. rewrite H1, H2 in H. discriminate H.
Qed.

(** ** C88: everything delivered is within the limits *)
Theorem c88_limits : forall M req forb, OneOctet M -> Octets M -> forall slices, SmallReads slices ->
  Forall WithinLimits (delivered M req forb slices) /\ Forall WithinLimits (delivered_at_close M req forb slices).
Proof.
  intros M req forb HO HB slices HS.
  pose proof (feed_spec M req forb HO slices HS) as HR.
  pose proof (run_inv M req forb HB (concat slices) (start M) (start_inv M)) as HI.
  destruct (fold_left (spec_step M req forb) (concat slices) (start M)) as [st out].
  destruct HI as [HI1 HI2]. cbn [fst snd] in *.
  rewrite (R_flush _ _ _ _ _ _ HR). destruct (R_alive _ _ _ _ _ _ HR) as [-> _]. split; [exact HI1|].
  destruct st as [p|p acc|p|p acc|]; auto. apply Forall_app. split; [exact HI1|]. constructor; [|constructor].
  destruct HI2 as [I2 I3]. destruct (len acc =? 0); [apply within_empty; exact I2|apply within_plain; assumption].
Qed.

Lemma toy_octets_gen : forall (l : tl) c, c < 256 -> Forall (fun d => bytes_ok (text d)) (snd (fst (tstep l c))).
Proof.
  intros l c Hc. toy_cases; cbn [fst snd]; repeat constructor; cbn [text]; repeat constructor; assumption.
Qed.
(** the same tokenizer, refusing what is not an octet *)
Definition toy8 : machine :=
  {| mL := tl; m_init := m_init toy; m_wake := m_wake toy; m_step := fun l c => if c <? 256 then tstep l c else (l, [], Bad) |}.
Lemma toy8_one : OneOctet toy8.
Proof. intros l c. cbn [toy8 m_step]. destruct (c <? 256); [apply toy_one|unfold size; cbn; lia]. Qed.
Lemma toy8_octets : Octets toy8.
Proof.
  intros l c. cbn [toy8 m_step]. destruct (c <? 256) eqn:E; [apply toy_octets_gen; lia|constructor].
Qed.
Example ex_limits : length (delivered toy8 true (fun _ => false) [ex_stream]) = 2%nat /\ SmallReads [ex_stream].
Proof. split; [vm_compute; reflexivity|]. constructor; [vm_compute; discriminate|constructor]. Qed.
(** a name of 1025 octets *)
Example ex_limit_hit : alive toy8 true (fun _ => false) [str "GET / HTTP/1.1" ++ [10] ++ repeat 97 1025 ++ str ": x" ++ [10; 10]] = false.
Proof. vm_compute. reflexivity. Qed.

(** ** C89: Transfer-Encoding and Content-Length *)
Definition Ex (h : headers_map) : Prop :=
  has_header (str "Transfer-Encoding") h = true -> has_header (str "Content-Length") h = false /\ transfer_encoding h = Some true.

Lemma heads_ex : forall M req p mt q, on_headers_complete M req p mt = Some q -> Ex (m_headers (p_msg q)) /\ p_l q = p_l p.
Proof.
  intros M req p mt q H. unfold on_headers_complete in H. destruct (commit M p) as [p1|] eqn:EC; [|discriminate].
  match type of H with (if ?b then _ else _) = _ => destruct b eqn:EB; [discriminate|] end.
  match type of H with (if ?b then _ else _) = _ => destruct b; [discriminate|] end.
  injection H as <-. cbn [p_msg m_headers p_l]. split.
  - intros HT. rewrite HT in EB. cbn [andb] in EB. apply orb_false_iff in EB as [E1 E2]. split; [exact E1|].
    unfold is_supported_transfer_encoding in E2. unfold has_header in HT. unfold transfer_encoding in *.
    destruct (find_header (str "Transfer-Encoding") (m_headers (p_msg p1))); [|discriminate].
    destruct (te_tokens l) as [|t [|u r]]; [discriminate| |discriminate]. destruct (iequals t (str "chunked")); [reflexivity|discriminate].
  - unfold commit in EC. destruct (p_token p); [now injection EC as <-..|]. destruct (p_key p); [now injection EC as <-|].
    destruct (MAX_HEADER_VALUE_LENGTH <? len (p_val p)); [discriminate|]. now injection EC as <-.
Qed.

Lemma quiet_headers : forall M req ds p q, about_fields ds = [] -> seq_all M req p ds = Some q ->
  m_headers (p_msg q) = m_headers (p_msg p).
Proof.
  induction ds as [|d r IH]; cbn [seq_all about_fields filter]; intros p q HA H; [now injection H as <-|].
  destruct (callback M req p d) as [p1|] eqn:E; [|discriminate].
  destruct d; cbn [callback] in E; try discriminate HA; apply IH in H; try exact HA; rewrite H.
  - unfold on_url in E. destruct req; [|now injection E as <-].
    destruct (MAX_URL_LENGTH <? p_urln p + len s); [discriminate|]. now injection E as <-.
  - unfold on_body in E. destruct (MAX_CHUNK_SIZE <? len s); [discriminate|].
    destruct (MAX_BODY_SIZE <? p_body p + len s); [discriminate|]. now injection E as <-.
  - now injection E as <-.
Qed.

Lemma find_set_other : forall n k v h, bytes_ok n -> bytes_ok k -> HeaderMap h -> map lower n <> map lower k ->
  find_header n (set_value k v h) = find_header n h.
Proof.
  intros n k v h Hn Hk [H1 H2] Hne. unfold find_header. induction h as [|[k' vs] r IH]; cbn [set_value find fst].
  - replace (iequals k n) with false; [reflexivity|]. symmetry. apply not_true_is_false. intros E.
    apply (proj1 (iequals_spec _ _ Hk Hn)) in E. congruence.
  - inversion H1 as [|? ? (Hb & ? & ?) H1']; subst. cbn [fst] in *. inversion H2; subst.
    destruct (iequals k' k) eqn:E; cbn [find fst].
    + replace (iequals k' n) with false; [reflexivity|]. symmetry. apply not_true_is_false. intros E2.
      apply (proj1 (iequals_spec _ _ Hb Hn)) in E2. apply (proj1 (iequals_spec _ _ Hb Hk)) in E. congruence.
    + destruct (iequals k' n); [reflexivity|]. now apply IH.
Qed.

Section Excl.
Variable M : machine.
Variable req : bool.
Variable forb : nat -> bool.
Hypothesis HB : Octets M.
Variable T : mL M -> Prop.
Hypothesis T1 : forall l c l' ds mt, m_step M l c = (l', ds, Heads mt) -> T l'.
Hypothesis T2 : forall l l' st, T l -> m_wake M l = (l', st) -> T l'.
Hypothesis T3 : forall l c l' ds st, T l -> m_step M l c = (l', ds, st) -> T l' /\ about_fields ds = [].

Definition MEx (m : msg) : Prop := HeaderMap (m_headers m) /\ Ex (m_headers m).
Definition XInv (s : sst M * list msg) : Prop :=
  Forall MEx (snd s) /\
  match fst s with
  | SHead _ p => Inv M p
  | SBody _ p _ | SEof _ p _ => Inv M p /\ Ex (m_headers (p_msg p))
  | SChunk _ p => Inv M p /\ Ex (m_headers (p_msg p)) /\ T (p_l p)
  | SDead _ => True
  end.

Lemma complete_mex : forall p, Inv M p -> Ex (m_headers (p_msg p)) -> MEx (p_msg (on_message_complete M p)).
Proof.
  intros p I HE. destruct I.
  assert (HCB : bytes_ok (str "Content-Type")) by (repeat constructor).
  assert (HTB : bytes_ok (str "Transfer-Encoding")) by (repeat constructor).
  assert (HLB : bytes_ok (str "Content-Length")) by (repeat constructor).
  destruct (header_ok (str "Content-Type") (m_headers (p_msg p)) HCB i_map i_okf) as (S1 & S2 & S3).
  split; cbn [on_message_complete p_msg m_headers].
  - apply set_map; auto.
  - unfold Ex, has_header, transfer_encoding in *. rewrite !find_set_other by (auto; vm_compute; discriminate). exact HE.
Qed.

Lemma xdeliver : forall p out, MEx (p_msg p) -> Forall MEx out -> XInv (deliver M p out).
Proof. intros p out H HO. split; cbn [deliver fst snd]; [apply Forall_app; auto|apply inv_reset]. Qed.

Lemma plain_mex : forall p b, Inv M p -> Ex (m_headers (p_msg p)) -> MEx (p_msg (set_body M p b)).
Proof. intros p b [] HE. split; assumption. Qed.
Lemma empty_mex : forall p, Inv M p -> Ex (m_headers (p_msg p)) -> MEx (p_msg p).
Proof. intros p [] HE. split; assumption. Qed.

Lemma xstep : forall s c, XInv s -> XInv (spec_step M req forb s c).
Proof.
  intros [st out] c [HO HI]. cbn [fst snd] in *. unfold spec_step.
  destruct st as [p|p acc|p|p acc|].
  - cbn [seq_loop]. pose proof (HB (p_l p) c) as HBD. destruct (m_step M (p_l p) c) as [[l ds] st] eqn:ES. cbn [fst snd] in HBD.
    destruct (seq_all M req (with_l M p l) ds) as [q|] eqn:EA; [|split; cbn [fst snd]; auto].
    assert (HQ : Inv M q) by (apply (seq_all_inv M req ds (with_l M p l) q); [apply with_l_inv; exact HI|exact HBD|exact EA]).
    destruct st; cbn [finish]; [split; cbn [fst snd]; auto| |split; cbn [fst snd]; auto|split; cbn [fst snd]; auto].
    destruct (on_headers_complete M req q m) as [q'|] eqn:EH; [|split; cbn [fst snd]; auto].
    destruct (heads_inv _ _ _ _ _ HQ EH) as [HQ' _]. destruct (heads_ex _ _ _ _ _ EH) as [HE HL].
    assert (HT : T (p_l q')).
    { rewrite HL. destruct (seq_all_keeps M req _ _ _ EA) as (K & _). rewrite K. cbn [with_l p_l]. eapply T1. exact ES. }
    unfold enter. destruct (negb req && forb (length out)); [apply xdeliver; auto using empty_mex|].
    destruct (has_header _ _) eqn:EHT.
    + destruct (m_wake M (p_l q')) as [l' st] eqn:EW. destruct st; cbn [finish].
      * split; cbn [fst snd]; [exact HO|]. split; [auto using with_l_inv, with_run_inv|]. split; [exact HE|].
        exact (T2 _ _ _ HT EW).
      * match goal with |- context [on_headers_complete M req ?a ?b] => destruct (on_headers_complete M req a b) end; split; cbn [fst snd]; auto.
      * apply xdeliver; auto. apply complete_mex; auto using with_l_inv, with_run_inv.
      * split; cbn [fst snd]; auto.
    + destruct (negb req && p_needs_eof q'); [split; cbn [fst snd]; auto|].
      destruct (p_length q' =? ULLONG_MAX); [split; cbn [fst snd]; auto|].
      destruct (p_length q' =? 0); [apply xdeliver; auto using empty_mex|split; cbn [fst snd]; auto].
  - destruct HI as [I1 I2]. destruct (len (acc ++ [c]) =? p_length p).
    + apply xdeliver; auto using plain_mex.
    + split; cbn [fst snd]; auto.
  - destruct HI as (I1 & I2 & I3).
    cbn [seq_loop]. pose proof (HB (p_l p) c) as HBD. destruct (m_step M (p_l p) c) as [[l ds] st] eqn:ES. cbn [fst snd] in HBD.
    destruct (T3 _ _ _ _ _ I3 ES) as [TL TD].
    destruct (seq_all M req (with_l M p l) ds) as [q|] eqn:EA; [|split; cbn [fst snd]; auto].
    assert (HQ : Inv M q) by (apply (seq_all_inv M req ds (with_l M p l) q); [apply with_l_inv; exact I1|exact HBD|exact EA]).
    pose proof (quiet_headers _ _ _ _ _ TD EA) as HH. cbn [with_l p_msg] in HH.
    destruct (seq_all_keeps M req _ _ _ EA) as (K & _). cbn [with_l p_l] in K.
    destruct st; cbn [finish].
    + split; cbn [fst snd]; auto. rewrite HH, K. auto.
    + destruct (on_headers_complete M req q m); split; cbn [fst snd]; auto.
    + apply xdeliver; auto. apply complete_mex; [exact HQ|]. rewrite HH. exact I2.
    + split; cbn [fst snd]; auto.
  - destruct (MAX_BODY_SIZE <? len (acc ++ [c])); split; cbn [fst snd]; auto.
  - split; cbn [fst snd]; auto.
Qed.
Lemma xrun : forall s x, XInv x -> XInv (fold_left (spec_step M req forb) s x).
Proof. induction s; intros x H; cbn [fold_left]; auto using xstep. Qed.
End Excl.

Lemma mex_spec : forall m, MEx m -> let fs := fields_of (m_headers m) in
  values_of (str "Transfer-Encoding") fs <> [] -> OnlyChunked fs /\ values_of (str "Content-Length") fs = [].
Proof.
  intros m [HM HE] fs HV. subst fs.
  assert (HTB : bytes_ok (str "Transfer-Encoding")) by (repeat constructor).
  assert (HLB : bytes_ok (str "Content-Length")) by (repeat constructor).
  pose proof (find_header_values _ _ HTB HM) as FT. pose proof (find_header_values _ _ HLB HM) as FL.
  unfold Ex, has_header, transfer_encoding in HE.
  destruct (find_header (str "Transfer-Encoding") (m_headers m)) as [vs|]; [|congruence].
  destruct (find_header (str "Content-Length") (m_headers m)) as [ls|]; [destruct (HE eq_refl); discriminate|].
  split; [|exact FL]. destruct (HE eq_refl) as [_ HT]. destruct FT as [FT _].
  destruct (te_tokens vs) as [|t [|u r]] eqn:ET; [discriminate| |discriminate].
  destruct (iequals t (str "chunked")) eqn:EI; [|discriminate].
  rewrite te_tokens_items in ET.
  exists (map (items 44) vs), t. rewrite FT. refine (conj _ (conj _ _)).
  - clear. induction vs; constructor; [apply items_iff; reflexivity|assumption].
  - rewrite <- flat_map_concat_map. exact ET.
  - assert (HTK : bytes_ok t); [|exact (proj1 (chunked_lower t HTK) EI)].
    pose proof (values_bytes (str "Transfer-Encoding") _ HM) as HB. rewrite FT in HB.
    assert (HI : In t (flat_map (items 44) vs)) by (rewrite ET; now left).
    apply in_flat_map in HI as (v & Hv & Ht). rewrite Forall_forall in HB. apply HB in Hv.
    apply items_bytes with (d := 44) in Hv. rewrite Forall_forall in Hv. auto.
Qed.

Theorem c89_framing_fields_partial : forall M req forb, OneOctet M -> Octets M -> NoTrailers M -> forall slices m, SmallReads slices ->
  In m (delivered_at_close M req forb slices) ->
  values_of (str "Transfer-Encoding") (fields_of (m_headers m)) <> [] ->
  OnlyChunked (fields_of (m_headers m)) /\ values_of (str "Content-Length") (fields_of (m_headers m)) = [].
Proof.
  intros M req forb HO HB (T & T1 & T2 & T3) slices m HS HI. apply mex_spec.
  pose proof (feed_spec M req forb HO slices HS) as HR.
  pose proof (xrun M req forb HB T T1 T2 T3 (concat slices) (start M)) as HX.
  assert (H0 : XInv M T (start M)) by (split; cbn; [constructor|apply inv_reset]).
  specialize (HX H0).
  destruct (fold_left (spec_step M req forb) (concat slices) (start M)) as [st out].
  destruct HX as [HX1 HX2]. cbn [fst snd] in *.
  rewrite (R_flush _ _ _ _ _ _ HR) in HI. rewrite Forall_forall in HX1.
  destruct st as [p|p acc|p|p acc|]; auto. apply in_app_or in HI. destruct HI as [HI|[HI|[]]]; [auto|]. subst m.
  destruct HX2 as [I2 I3]. destruct (len acc =? 0); [apply empty_mex; auto|apply plain_mex; auto].
Qed.

(** a tokenizer that refuses trailers meets the hypotheses *)
Definition toyn : machine :=
  {| mL := tl; m_init := m_init toy; m_wake := m_wake toy;
     m_step := fun l c => if t_body l && match t_q l with TStart => negb (c =? 10) && negb (c =? 13) | _ => false end
                          then (tput l TFail, [], Bad) else if c <? 256 then tstep l c else (l, [], Bad) |}.
Lemma toyn_one : OneOctet toyn.
Proof.
  intros l c. cbn [toyn m_step]. destruct (_ && _); [unfold size; cbn; lia|]. destruct (c <? 256); [apply toy_one|unfold size; cbn; lia].
Qed.
Lemma toyn_octets : Octets toyn.
Proof.
  intros l c. cbn [toyn m_step]. destruct (_ && _); [constructor|]. destruct (c <? 256) eqn:E; [apply toy_octets_gen; lia|constructor].
Qed.
Lemma tstep_heads : forall l c l' ds mt, tstep l c = (l', ds, Heads mt) -> t_body l' = true /\ t_q l' = TSize 0.
Proof.
  intros l c l' ds mt. toy_cases; intros H; try discriminate H; try (injection H as <- _ _; split; reflexivity).
Qed.
Lemma toyn_no_trailers : NoTrailers toyn.
Proof.
  exists (fun l : tl => t_body l = true /\ match t_q l with TStart | TSize _ | TExt _ | TData _ | TGap | TFail => True | _ => False end).
  refine (conj _ (conj _ _)).
  - intros l c l' ds mt. cbn [toyn m_step]. destruct (_ && _); [discriminate|]. destruct (c <? 256); [|discriminate].
    intros H. apply tstep_heads in H as [-> ->]. auto.
  - intros l l' st H. cbn. intros E. injection E as <- _. exact H.
  - intros l c l' ds st [H1 H2]. cbn [toyn m_step]. rewrite H1. cbn [andb].
    destruct (match t_q l with TStart => negb (c =? 10) && negb (c =? 13) | _ => false end) eqn:EQ.
    { intros E. injection E as <- <- _. cbn. auto. }
    destruct (c <? 256); [|intros E; injection E as <- <- _; cbn; auto].
    unfold tstep, tsize. destruct (c =? 13) eqn:E13.
    { destruct (t_q l) eqn:E1; intros E; injection E as <- <- _; cbn; rewrite ?E1; auto. }
    destruct (t_q l) eqn:E1; try contradiction;
      repeat match goal with
             | |- context [if ?b then _ else _] => destruct b eqn:?
             | |- context [match hexd ?c with Some _ => _ | None => _ end] => destruct (hexd c)
             end; intros E; try (injection E as <- <- _); cbn; rewrite ?E1, ?H1; auto; try congruence;
      cbn in EQ; rewrite ?E13 in *; cbn in EQ; try congruence; try discriminate.
Qed.
Example ex_chunked : exists m, In m (delivered_at_close toyn true (fun _ => false) [ex_stream]) /\
  values_of (str "Transfer-Encoding") (fields_of (m_headers m)) = [str "Chunked"].
Proof. eexists. split; [vm_compute; right; left; reflexivity|]. vm_compute. reflexivity. Qed.

(** Without that hypothesis the claim fails: fields reported after the body (trailers) are entered into the
    headers once the checks have been made, all but the last one. *)
Definition ex_trailers : list N :=
  str "POST / HTTP/1.1" ++ [10] ++ str "Transfer-Encoding: chunked" ++ [10; 10] ++ str "0" ++ [10] ++
  str "Content-Length: 3" ++ [10] ++ str "Cookie: a=b" ++ [10] ++ str "Last: x" ++ [10; 10].
Theorem c89_trailers_become_headers :
  shown (delivered toy8 true (fun _ => false) [ex_trailers]) =
  [(str "/", [(str "Transfer-Encoding", [str "chunked"]); (str "Content-Length", [str "3"]);
              (str "Cookie", [str "a=b"]); (str "Content-Type", [[]])], [])].
Proof. vm_compute. reflexivity. Qed.
Theorem c89_framing_fields_refuted : ~ (forall M req forb, OneOctet M -> Octets M -> forall slices m, SmallReads slices ->
  In m (delivered_at_close M req forb slices) ->
  values_of (str "Transfer-Encoding") (fields_of (m_headers m)) <> [] ->
  OnlyChunked (fields_of (m_headers m)) /\ values_of (str "Content-Length") (fields_of (m_headers m)) = []).
Proof.
  intros H. specialize (H toy8 true (fun _ => false) toy8_one toy8_octets [ex_trailers]).
  assert (HS : SmallReads [ex_trailers]) by (constructor; [vm_compute; discriminate|constructor]).
  destruct (delivered_at_close toy8 true (fun _ => false) [ex_trailers]) as [|m r] eqn:E; [vm_compute in E; discriminate|].
  specialize (H m HS (or_introl eq_refl)). vm_compute in E. injection E as <- _.
  destruct H as [_ H]; [vm_compute; discriminate|]. vm_compute in H. discriminate.
Qed.
