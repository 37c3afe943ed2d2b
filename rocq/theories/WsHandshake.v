(** The WebSocket opening handshake (ws.h:789-1044, 1317-1365): model, specification and properties C54-C55. *)
From Verif Require Import Base UtilSpec UtilModel UtilProofs UtilProps.
Local Open Scope N_scope.

(** ** Model *)
(** ws.h:791-794 ascii_to_lower *)
Definition ws_lower (c : N) : N := if (65 <=? c) && (c <=? 90) then c + 32 else c.
(** ws.h:811-822 iequal_ascii *)
Definition iequal_ascii (a b : list N) : bool := if negb (length a =? length b)%nat then false else beq (map ws_lower a) (map ws_lower b).
(** ws.h:824-833 is_token_char, is_valid_token *)
Definition is_token_char (c : N) : bool :=
  ((65 <=? c) && (c <=? 90)) || ((97 <=? c) && (c <=? 122)) || ((48 <=? c) && (c <=? 57)) || (c =? 33) || (c =? 35) || (c =? 36) || (c =? 37)
  || (c =? 38) || (c =? 39) || (c =? 42) || (c =? 43) || (c =? 45) || (c =? 46) || (c =? 94) || (c =? 95) || (c =? 96) || (c =? 124) || (c =? 126).
Definition is_valid_token (v : list N) : bool := match v with [] => false | _ => forallb is_token_char v end.
(** ws.h:837-861 has_token_ci: the part of header_value from pos on; the fuel bounds the number of commas.  Leading and trailing
    blanks are dropped by find_first_not_of and find_last_not_of, as trim_http_whitespace does. *)
Fixpoint has_token_loop (fuel : nat) (s token : list N) : bool :=
  match fuel with
  | O => false
  | S k =>
      let check p := match trim_http_whitespace p with [] => false | t => iequal_ascii t token end in
      match find_char 44 s with
      | None => check s
      | Some i => if check (firstn i s) then true else has_token_loop k (skipn (i + 1) s) token
      end
  end.
Definition has_token_ci (v token : list N) : bool := has_token_loop (S (length v)) v token.
(** ws.h:875-884 constant_time_equal *)
Fixpoint ct_diff (a b : list N) : N := match a, b with x :: a', y :: b' => N.lor (N.lxor x y) (ct_diff a' b') | _, _ => 0 end.
Definition constant_time_equal (a b : list N) : bool := if negb (length a =? length b)%nat then false else ct_diff a b =? 0.

Record handshake := mk_hs { hs_get : bool; hs_upgrade_flag : bool; hs_status : N; hs_upgrade : list N; hs_connection : list N; hs_key : list N; hs_version : list N; hs_accept : list N; hs_protocol : list N }.
Definition ws_guid : list N := str "258EAFA5-E914-47DA-95CA-C5AB0DC85B11".
Section HANDSHAKE.
(** crypto::sha1, crypto::base64 (qb-core, not in this repository); decode throwing is None *)
Variable sha1 : list N -> list N.
Variable b64 : list N -> list N.
Variable unb64 : list N -> option (list N).
(** ws.h:801-808 compute_accept_key *)
Definition compute_accept_key (k : list N) : list N := b64 (sha1 (k ++ ws_guid)).
(** ws.h:902-941 populate_handshake_response: the response, or None for 400 *)
Definition server_handshake (r : handshake) : option handshake :=
  if negb (hs_get r) then None
  else if negb (hs_upgrade_flag r) then None
  else if negb (iequal_ascii (hs_upgrade r) (str "websocket")) then None
  else if negb (has_token_ci (hs_connection r) (str "Upgrade")) then None
  else
    let key := trim_http_whitespace (hs_key r) in
    let version := trim_http_whitespace (hs_version r) in
    match key with
    | [] => None
    | _ =>
        if negb (length key =? 24)%nat then None
        else match unb64 key with
             | None => None
             | Some d =>
                 if negb (length d =? 16)%nat then None
                 else if negb (beq (b64 d) key) then None
                 else if negb (iequal_ascii version (str "13")) then None
                 else Some (mk_hs false true 101 (str "websocket") (str "Upgrade") [] [] (compute_accept_key key) [])
             end
    end.
(** ws.h:1004-1028 validate_handshake_response *)
Definition client_check (r : handshake) (key : list N) : bool :=
  if negb (hs_upgrade_flag r) then false
  else if negb (hs_status r =? 101) then false
  else if negb (iequal_ascii (hs_upgrade r) (str "websocket")) then false
  else if negb (has_token_ci (hs_connection r) (str "Upgrade")) then false
  else match trim_http_whitespace (hs_accept r) with
       | [] => false
       | k => constant_time_equal k (compute_accept_key key)
       end.
(** ws.h:1317-1355 on(response): None when the client gives up, otherwise the negotiated subprotocol (empty: none) *)
Definition client_accept (offered : list (list N)) (r : handshake) (key : list N) : option (list N) :=
  if negb (client_check r key) then None
  else
    match trim_http_whitespace (hs_protocol r) with
    | [] => Some []
    | sel =>
        let comma := find_char 44 sel in
        let tok := trim_http_whitespace (match comma with Some i => firstn i sel | None => sel end) in
        if (match comma with Some _ => true | None => false end) || (match offered with [] => true | _ => false end) then None
        else if existsb (fun o => beq o tok) offered then Some tok else None
    end.

(** ** Proofs *)
Lemma ws_lower_eq c : ws_lower c = lower c.
Proof. reflexivity. Qed.
Lemma iequal_spec a b : iequal_ascii a b = true <-> map lower a = map lower b.
Proof.
  unfold iequal_ascii. destruct (Nat.eqb_spec (length a) (length b)) as [L|L]; cbn [negb].
  - rewrite beq_eq. reflexivity.
  - split; [discriminate|]. intros E. apply (f_equal (@length N)) in E. rewrite !map_length in E. contradiction.
Qed.
Lemma ct_spec a b : constant_time_equal a b = true <-> a = b.
Proof.
  unfold constant_time_equal. destruct (Nat.eqb_spec (length a) (length b)) as [L|L]; cbn [negb].
  - rewrite N.eqb_eq. revert b L. induction a as [|x a IH]; intros [|y b] L; try discriminate; [tauto|]. cbn [ct_diff]. rewrite N.lor_eq_0_iff, N.lxor_eq_0_iff. injection L as L. rewrite (IH b L). split; [intros [-> ->]; reflexivity|intros E; injection E as -> ->; auto].
  - split; [discriminate|intros ->; contradiction].
Qed.
(** [v] is a comma-separated list one of whose items is [token], letter case aside. *)
Definition Lists (v token : list N) : Prop := exists items t, HeaderItems 44 v items /\ In t items /\ map lower t = map lower token.
Lemma has_token_items token : forall fuel s, (length s < fuel)%nat -> forall fuel' acc items, (length s < fuel')%nat -> split_and_trim_loop fuel' 44 s acc = Some items ->
  exists more, items = acc ++ more /\ (has_token_loop fuel s token = true <-> exists t, In t more /\ iequal_ascii t token = true).
Proof.
  induction fuel as [|k IH]; intros s L fuel' acc items L' E; [lia|]. destruct fuel' as [|k']; [lia|]. cbn [split_and_trim_loop has_token_loop] in *. cbv zeta in *.
  destruct (find_char 44 s) as [i|] eqn:FC.
  - assert (SK : (length (skipn (i + 1) s) < k)%nat /\ (length (skipn (i + 1) s) < k')%nat).
    { destruct s as [|x s]; [discriminate FC|]. rewrite skipn_length. cbn [length] in *. lia. }
    destruct SK as [SK1 SK2]. destruct (IH _ SK1 k' _ items SK2 E) as (more & -> & HT).
    destruct (trim_http_whitespace (firstn i s)) as [|c t] eqn:TR.
    + exists more. split; [reflexivity|exact HT].
    + exists ((c :: t) :: more). split; [rewrite <- app_assoc; reflexivity|]. destruct (iequal_ascii (c :: t) token) eqn:IE.
      * split; [|reflexivity]. intros _. exists (c :: t). split; [left; reflexivity|exact IE].
      * rewrite HT. split; intros (u & U1 & U2); [exists u; split; [right; exact U1|exact U2]|]. destruct U1 as [<-|U1]; [congruence|eauto].
  - injection E as <-. destruct (trim_http_whitespace s) as [|c t].
    + exists []. rewrite app_nil_r. split; [reflexivity|]. split; [discriminate|intros (u & [] & _)].
    + exists [c :: t]. split; [reflexivity|]. split; [intros H; exists (c :: t); split; [left; reflexivity|exact H]|intros (u & [<-|[]] & U); exact U].
Qed.
Lemma split_pieces_inj d : forall ps qs, ps <> [] -> qs <> [] -> Forall (fun p => ~ In d p) ps -> Forall (fun p => ~ In d p) qs -> intercalate [d] ps = intercalate [d] qs -> ps = qs.
Proof.
  assert (CUT : forall a b x y : list N, ~ In d a -> ~ In d b -> a ++ d :: x = b ++ d :: y -> a = b /\ x = y).
  { induction a as [|c a IH]; intros [|e b] x y A B E; cbn in E.
    - injection E as ->. auto. - injection E as -> _. exfalso. apply B. left. reflexivity. - injection E as -> _. exfalso. apply A. left. reflexivity.
    - injection E as -> E. destruct (IH b x y) as [-> ->]; auto; intros X; [apply A|apply B]; right; exact X. }
  assert (NO : forall a b x : list N, ~ In d a -> a <> b ++ d :: x) by (intros a b x A E; apply A; rewrite E; apply in_or_app; right; left; reflexivity).
  induction ps as [|p ps IH]; intros qs P Q FP FQ E; [congruence|]. destruct qs as [|q qs]; [congruence|]. inversion FP; inversion FQ; subst.
  destruct ps as [|p2 ps], qs as [|q2 qs].
  - cbn in E. congruence.
  - exfalso. cbn [intercalate] in E. eapply NO; [|exact E]. assumption.
  - exfalso. cbn [intercalate] in E. eapply NO; [|symmetry; exact E]. assumption.
  - change (p ++ d :: intercalate [d] (p2 :: ps) = q ++ d :: intercalate [d] (q2 :: qs)) in E. destruct (CUT _ _ _ _ H1 H5 E) as [-> E']. f_equal. apply IH; try assumption; discriminate.
Qed.
Lemma header_items_unique d s i1 i2 : HeaderItems d s i1 -> HeaderItems d s i2 -> i1 = i2.
Proof.
  intros (p1 & t1 & E1 & N1 & F1 & T1 & ->) (p2 & t2 & E2 & N2 & F2 & T2 & ->). assert (p1 = p2) by (apply (split_pieces_inj d); congruence). subst p2. f_equal.
  clear -T1 T2. revert t2 T2. induction T1; intros t2 T2; inversion T2; subst; [reflexivity|]. f_equal; [|auto]. rewrite <- trim_exact in *. congruence.
Qed.
Lemma has_token_spec v token : has_token_ci v token = true <-> Lists v token.
Proof.
  destruct (split_and_trim_items v 44) as (items & E & HI). unfold has_token_ci. unfold split_and_trim_header_list in E.
  destruct (has_token_items token (S (length v)) v ltac:(lia) (S (length v)) [] items ltac:(lia) E) as (more & -> & HT). cbn [app] in *. rewrite HT. unfold Lists. split.
  - intros (t & I & Q). exists more, t. split; [exact HI|]. split; [exact I|apply iequal_spec, Q].
  - intros (items & t & HI' & I & Q). rewrite (header_items_unique _ _ _ _ HI' HI) in I. exists t. split; [exact I|apply iequal_spec, Q].
Qed.
(** ** Specification *)
(** A request a WebSocket server may accept with key [k]. *)
Definition GoodRequest (r : handshake) (k : list N) : Prop :=
  hs_get r = true /\ hs_upgrade_flag r = true /\ map lower (hs_upgrade r) = str "websocket" /\ Lists (hs_connection r) (str "upgrade") /\ Trimmed (hs_version r) (str "13") /\
  Trimmed (hs_key r) k /\ length k = 24%nat /\ exists d, unb64 k = Some d /\ length d = 16%nat /\ b64 d = k.
Definition GoodResponse (r : handshake) (k : list N) : Prop :=
  hs_upgrade_flag r = true /\ hs_status r = 101 /\ map lower (hs_upgrade r) = str "websocket" /\ Lists (hs_connection r) (str "upgrade") /\ Trimmed (hs_accept r) (b64 (sha1 (k ++ ws_guid))).
Lemma lists_lower v a b : map lower a = map lower b -> Lists v a -> Lists v b.
Proof. intros E (items & t & A & B & C). exists items, t. split; [exact A|split; [exact B|congruence]]. Qed.
Lemma map_lower_13 v : map lower v = [49; 51] <-> v = [49; 51].
Proof.
  split; [|intros ->; reflexivity]. destruct v as [|a [|b [|c v]]]; cbn; try discriminate. unfold lower. intros E. injection E as E1 E2.
  destruct ((65 <=? a) && (a <=? 90)) eqn:A; destruct ((65 <=? b) && (b <=? 90)) eqn:B; try lia; congruence.
Qed.
Theorem ws_server_handshake r : match server_handshake r with
  | Some resp => exists k, GoodRequest r k /\ hs_upgrade_flag resp = true /\ hs_status resp = 101 /\ hs_accept resp = b64 (sha1 (k ++ ws_guid)) /\ hs_upgrade resp = str "websocket" /\ hs_connection resp = str "Upgrade"
  | None => forall k, ~ GoodRequest r k
  end.
Proof.
  unfold server_handshake. destruct (hs_get r) eqn:G; cbn [negb]; [|intros k (A & _); congruence].
  destruct (hs_upgrade_flag r) eqn:U; cbn [negb]; [|intros k (_ & A & _); congruence].
  destruct (iequal_ascii (hs_upgrade r) (str "websocket")) eqn:W; cbn [negb]; [|intros k (_ & _ & A & _); apply not_true_iff_false in W; apply W, iequal_spec; exact A].
  destruct (has_token_ci (hs_connection r) (str "Upgrade")) eqn:C; cbn [negb]; [|intros k (_ & _ & _ & A & _); apply not_true_iff_false in C; apply C, has_token_spec; revert A; apply lists_lower; reflexivity].
  cbv zeta. set (key := trim_http_whitespace (hs_key r)). assert (TK : forall k, Trimmed (hs_key r) k -> k = key) by (intros k T; apply trim_exact in T; symmetry; exact T).
  assert (NOK : forall P : Prop, (length key = 24%nat -> False) -> forall k, ~ GoodRequest r k) by (intros _ X k (_ & _ & _ & _ & _ & A & B & _); apply TK in A; subst k; auto).
  destruct key as [|k0 key'] eqn:EK; [apply (NOK True); discriminate|]. rewrite <- EK in *.
  destruct (Nat.eqb_spec (length key) 24) as [L|L]; cbn [negb]; [|apply (NOK True); exact L].
  destruct (unb64 key) as [d|] eqn:D; [|intros k (_ & _ & _ & _ & _ & A & _ & d & B & _); apply TK in A; congruence].
  destruct (Nat.eqb_spec (length d) 16) as [L16|L16]; cbn [negb]; [|intros k (_ & _ & _ & _ & _ & A & _ & d' & B & B' & _); apply TK in A; subst k; rewrite D in B; injection B as <-; auto].
  destruct (beq (b64 d) key) eqn:BD; cbn [negb]; [|intros k (_ & _ & _ & _ & _ & A & _ & d' & B & _ & B'); apply TK in A; subst k; rewrite D in B; injection B as <-; apply not_true_iff_false in BD; apply BD, beq_eq, B'].
  destruct (iequal_ascii (trim_http_whitespace (hs_version r)) (str "13")) eqn:V; cbn [negb].
  2:{ intros k (_ & _ & _ & _ & A & _). apply trim_exact in A. rewrite A in V. discriminate V. }
  exists key. split; [|repeat split; reflexivity]. split; [exact G|]. split; [exact U|]. split; [apply iequal_spec in W; exact W|]. split; [apply has_token_spec in C; revert C; apply lists_lower; reflexivity|].
  split; [apply trim_exact; apply iequal_spec in V; apply map_lower_13, V|]. split; [apply trim_exact; reflexivity|]. split; [exact L|]. exists d. split; [exact D|]. split; [exact L16|apply beq_eq, BD].
Qed.
Theorem ws_client_handshake r k : b64 (sha1 (k ++ ws_guid)) <> [] -> (client_check r k = true <-> GoodResponse r k).
Proof.
  intros NE. unfold client_check, GoodResponse. destruct (hs_upgrade_flag r) eqn:U; cbn [negb]; [|split; [discriminate|intros (A & _); discriminate]].
  destruct (N.eqb_spec (hs_status r) 101) as [S|S]; cbn [negb]; [|split; [discriminate|intros (_ & A & _); contradiction]].
  destruct (iequal_ascii (hs_upgrade r) (str "websocket")) eqn:W; cbn [negb]; [|split; [discriminate|intros (_ & _ & A & _); apply not_true_iff_false in W; destruct W; apply iequal_spec; exact A]].
  destruct (has_token_ci (hs_connection r) (str "Upgrade")) eqn:C; cbn [negb]; [|split; [discriminate|intros (_ & _ & _ & A & _); apply not_true_iff_false in C; destruct C; apply has_token_spec; revert A; apply lists_lower; reflexivity]].
  assert (E : match trim_http_whitespace (hs_accept r) with [] => false | k0 => constant_time_equal k0 (compute_accept_key k) end = constant_time_equal (trim_http_whitespace (hs_accept r)) (compute_accept_key k)).
  { destruct (trim_http_whitespace (hs_accept r)) eqn:T; [|reflexivity]. symmetry. apply not_true_iff_false. intros X. apply ct_spec in X. apply NE. symmetry. exact X. }
  destruct (trim_http_whitespace (hs_accept r)) eqn:T.
  - split; [discriminate|]. intros (_ & _ & _ & _ & A). apply trim_exact in A. rewrite T in A. symmetry in A. contradiction.
  - rewrite ct_spec. rewrite <- T. rewrite (trim_exact (hs_accept r)). split; [|tauto]. intros A. split; [reflexivity|]. split; [exact S|]. split; [apply iequal_spec in W; exact W|]. split; [apply has_token_spec in C; revert C; apply lists_lower; reflexivity|exact A].
Qed.
(** What a server answers to a well-formed request is accepted by the client that sent it, provided the encoder produces neither blanks at its ends nor nothing. *)
Theorem ws_handshake_agrees r resp k : server_handshake r = Some resp -> Trimmed (hs_key r) k -> Trimmed (b64 (sha1 (k ++ ws_guid))) (b64 (sha1 (k ++ ws_guid))) -> b64 (sha1 (k ++ ws_guid)) <> [] ->
  client_check resp k = true.
Proof.
  intros E T TT NE.
  pose proof (ws_server_handshake r) as S. rewrite E in S. destruct S as (k' & GR & U & S1 & S2 & S3 & S4).
  assert (k' = k) by (destruct GR as (_ & _ & _ & _ & _ & A & _); rewrite <- trim_exact in *; congruence). subst k'.
  apply ws_client_handshake; [exact NE|]. unfold GoodResponse. rewrite S1, S2, S3, S4. split; [exact U|]. split; [reflexivity|]. split; [reflexivity|]. split; [|exact TT].
  apply has_token_spec. reflexivity.
Qed.
(** The subprotocol a client reports is one it offered, and is the one the server named. *)
Theorem ws_subprotocol offered r k p : client_accept offered r k = Some p ->
  client_check r k = true /\ (p = [] /\ Trimmed (hs_protocol r) [] \/ In p offered /\ Trimmed (hs_protocol r) p /\ p <> []).
Proof.
  unfold client_accept. destruct (client_check r k); cbn [negb]; [|discriminate]. intros E. split; [reflexivity|].
  destruct (trim_http_whitespace (hs_protocol r)) as [|c t] eqn:T; [injection E as <-; left; split; [reflexivity|apply trim_exact, T]|].
  right. destruct (find_char 44 (c :: t)); [discriminate E|]. cbn [orb] in E. destruct offered as [|o os]; [discriminate E|].
  assert (TT : trim_http_whitespace (c :: t) = c :: t).
  { apply trim_exact. rewrite <- T. pose proof (trim_spec (hs_protocol r)) as (a & b & _ & _ & _ & H1 & H2). exists [], []. rewrite app_nil_r. repeat split; auto. }
  rewrite TT in E. destruct (existsb (fun o => beq o (c :: t)) (o :: os)) eqn:EX; [|discriminate E]. injection E as <-. apply existsb_exists in EX as (x & X1 & X2). apply beq_eq in X2. subst x.
  split; [exact X1|]. split; [apply trim_exact, T|discriminate].
Qed.
End HANDSHAKE.

(** Concrete case, with a toy encoder in place of base64 and SHA-1. *)
Definition toy_b64 (d : list N) : list N := d ++ repeat 61 8.
Definition toy_unb64 (k : list N) : option (list N) := Some (firstn 16 k).
Definition toy_request : handshake := mk_hs true true 0 (str "WebSocket") (str "keep-alive, Upgrade") (str " ABCDEFGHIJKLMNOP======== ") (str "13 ") [] [].
Example toy_handshake : exists resp, server_handshake (fun x => firstn 20 x) toy_b64 toy_unb64 toy_request = Some resp /\ client_check (fun x => firstn 20 x) toy_b64 resp (str "ABCDEFGHIJKLMNOP========") = true.
Proof. eexists. split; [vm_compute; reflexivity|vm_compute; reflexivity]. Qed.
Example toy_refused : server_handshake (fun x => firstn 20 x) toy_b64 toy_unb64 (mk_hs true true 0 (str "websocket") (str "keep-alive") (str "ABCDEFGHIJKLMNOP========") (str "13") [] []) = None.
Proof. vm_compute. reflexivity. Qed.
