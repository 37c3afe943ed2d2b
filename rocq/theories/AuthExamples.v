From Verif Require Import Base UtilModel UtilSpec UtilProofs Http1Model Http1Spec Http1Proofs RecvModel RecvInv CookieModel CorsSpec CorsModel ValJson SanModel SanSpec SanProps ReqModel ReqSpec ReqProps WsSession HeaderOps HdrProps AuthModel AuthSpec AuthProps AuthProps2 AuthProps3 AuthProps4 AuthProps5.
From Coq Require Import SpecFloat.
Local Open Scope N_scope.

(** ** C150: the middlewares together *)
Section Chain.
Variable parse : list N -> option json.
Variable dump : json -> option (list N).
Variable jwt_verify : Z -> vopts -> list N -> validation.
Variable jwt_decode : list N -> option (list N).
Variable to_long : list N -> option Z.
Variable to_double : list N -> option spec_float.
Variable dump_error : list N -> list N.
Variable algorithm_named : list N -> option jalg.
(** The JWT middleware in front, the authentication middleware behind it: the user the token describes gets through, and the handlers find him. *)
Theorem c150_chain m m2 now c p u : GoodJwt (jm_options m) -> GoodContext c -> jm_success m = None ->
  Cleared jwt_verify to_long to_double algorithm_named m now c p -> am_key m2 <> str "jwt_payload" -> (forall x, Held c (am_key m2) (AnyUser x) -> ~ Identified x) ->
  GoodAuth m2 -> SixtyFour parse -> PayloadUser parse (JObj p) u -> Authorized m2 u ->
  exists c1 c2, jwt_process dump jwt_verify to_long to_double dump_error algorithm_named m now c = (Continues, c1) /\
    auth_process parse dump jwt_verify jwt_decode m2 now c1 = (Continues, c2) /\ Held c2 (am_key m2) (AnyUser u) /\ Held c2 (str "jwt_payload") (AnyJson (JObj p)).
Proof.
  intros HG HC HS HL HK HU HA H64 HP HZ.
  destruct (c148_passes dump jwt_verify to_long to_double dump_error algorithm_named m now c p HG HC HL) as (c1 & c' & HST & HR). rewrite HS in HR. destruct HR as [HR ->].
  assert (HC1 : GoodContext c1) by (destruct HST as (E1 & E2 & _ & E3 & _), HC as (G1 & G2 & G3); split; [now rewrite E1|split; [now rewrite E2|now rewrite E3]]).
  assert (HW : Who parse dump jwt_verify jwt_decode m2 now c1 u).
  { apply who_context. apply (in_payload parse m2 c1 (JObj p)); [|apply HST; now left|exact HP]. intros x Hx. apply HST in Hx as [[E _]|[_ Hx]]; [congruence|now apply HU]. }
  destruct (c146_admitted parse dump jwt_verify jwt_decode m2 now c1 u HA HC1 H64 HW HZ) as (c2 & H2 & HST2). exists c1, c2. split; [exact HR|]. split; [exact H2|].
  split; [apply HST2; now left|]. apply HST2. right. split; [congruence|]. apply HST. now left.
Qed.
(** The role middleware of the library trusts tokens signed with HS256 and the empty key. *)
Theorem c150_role_key roles all q : Asks (am_options (role_auth_middleware roles all)) q -> vo_alg q = HS256 /\ vo_key q = [].
Proof.
  intros H. apply asks_iff in H; [|now exists []]. subst q. split; reflexivity.
Qed.
End Chain.

(** ** A small library to try things on *)
(** entries as lengths and octets; a token is the algorithm, the key and the entries *)
Definition entry (e : list N * list N) : list N := N.of_nat (length (fst e)) :: fst e ++ N.of_nat (length (snd e)) :: snd e.
Definition code (a : jalg) : N := match a with HS256 => 0 | HS384 => 1 | HS512 => 2 | RS256 => 3 | RS384 => 4 | RS512 => 5 | ES256 => 6 | ES384 => 7 | ES512 => 8 | EdDSA => 9 end.
Definition create (p : list (list N * list N)) (a : jalg) (key : list N) : list N := code a :: N.of_nat (length key) :: key ++ concat (map entry p).
Fixpoint entries (fuel : nat) (s : list N) : list (list N * list N) :=
  match fuel, s with
  | S fuel, n :: s =>
      let k := firstn (N.to_nat n) s in
      match skipn (N.to_nat n) s with
      | m :: s => (k, firstn (N.to_nat m) s) :: entries fuel (skipn (N.to_nat m) s)
      | [] => []
      end
  | _, _ => []
  end.
Definition toy_verify (now : Z) (q : vopts) (t : list N) : validation :=
  match t with
  | a :: n :: s => if (a =? code (vo_alg q)) && beq (firstn (N.to_nat n) s) (vo_key q) then Valid (entries (length s) (skipn (N.to_nat n) s)) else Invalid INVALID_SIGNATURE
  | _ => Invalid INVALID_FORMAT
  end.
Lemma split_app (k s : list N) : firstn (N.to_nat (N.of_nat (length k))) (k ++ s) = k /\ skipn (N.to_nat (N.of_nat (length k))) (k ++ s) = s.
Proof.
  rewrite Nat2N.id, firstn_app, skipn_app, Nat.sub_diag, firstn_all, skipn_all, firstn_O. cbn [skipn app]. now rewrite app_nil_r.
Qed.
Lemma entries_concat : forall p fuel, (length p < fuel)%nat -> entries fuel (concat (map entry p)) = p.
Proof.
  induction p as [|[k v] p IH]; intros fuel HF; [destruct fuel; reflexivity|]. destruct fuel as [|fuel]; [cbn in HF; lia|]. cbn [map concat entry fst snd app entries].
  rewrite <- !app_assoc. cbn [app]. destruct (split_app k (N.of_nat (length v) :: v ++ concat (map entry p))) as [-> ->]. destruct (split_app v (concat (map entry p))) as [-> ->]. f_equal. apply IH. cbn in HF. lia.
Qed.
Lemma entries_long p : (length p <= length (concat (map entry p)))%nat.
Proof. induction p as [|[k v] p IH]; [reflexivity|]. cbn [map concat entry fst snd length app]. rewrite !app_length. cbn [length]. lia. Qed.
Lemma toy_intact now q p key : key <> [] -> vo_key q = key -> toy_verify now q (create p (vo_alg q) key) = Valid p.
Proof.
  intros HN HK. unfold toy_verify, create. destruct (split_app key (concat (map entry p))) as [E1 E2]. rewrite E1, E2, N.eqb_refl, HK, beq_refl. cbn [andb]. f_equal. apply entries_concat.
  rewrite app_length. pose proof (entries_long p). destruct key; [congruence|]. cbn [length]. lia.
Qed.
(** a JSON library that knows a few values *)
Definition table : list (list N * json) :=
  [(str "100", JUint 100); (str "3700", JUint 3700); (str "42", JUint 42); (str "[]", JArr []); ([91; 34; 97; 100; 109; 105; 110; 34; 93], JArr [JStr (str "admin")])].
Definition toy_parse (s : list N) : option json := lookup s table.
Definition toy_dump (j : json) : option (list N) :=
  match j with
  | JUint n => if n =? 100 then Some (str "100") else if n =? 3700 then Some (str "3700") else if n =? 42 then Some (str "42") else None
  | JArr [] => Some (str "[]")
  | JArr [JStr s] => if beq s (str "admin") then Some [91; 34; 97; 100; 109; 105; 110; 34; 93] else None
  | JObj [(k, JStr s)] => if beq k (str "error") then Some (123 :: s) else None
  | _ => None
  end.
Definition ann : user := mkU (str "u1") (str "ann") [str "admin"] [].
Definition site : options := configure [SSecret (str "s3cret"); SIssuer (str "me")].
(** C139: the token among blanks; nothing glued to the scheme *)
Example c139_found : extract_token_from_header site (str "  bEARER   abc.def ") = str "abc.def".
Proof. reflexivity. Qed.
Example c139_glued : extract_token_from_header site (str "Bearerabc.def") = [].
Proof. reflexivity. Qed.
Example c139_applies : exists c r, ao_scheme site = c :: r /\ ~ Space c.
Proof. exists 66, (str "earer"). split; [reflexivity|]. unfold Space. lia. Qed.
(** C143: a token for ann, and ann back from it; another key is no good *)
Definition anns_token : list N := match generate_token toy_dump create site ann 100 100 with Some t => t | None => [] end.
Example c143_ann : verify_token toy_parse toy_dump toy_verify (fun _ => None) site 200 anns_token = Some ann.
Proof. vm_compute. reflexivity. Qed.
Example c143_other_key : verify_token toy_parse toy_dump toy_verify (fun _ => None) (set site (SSecret (str "other"))) 200 anns_token = None.
Proof. vm_compute. reflexivity. Qed.
(** what the round trip asks for can be had *)
Example c143_applies token : generate_token toy_dump create site ann 100 100 = Some token ->
  forall p, Says toy_dump site ann 100 100 p -> (exists a key, token = create p a key) -> Intact toy_verify 200 site token p.
Proof.
  intros HG p HS HX.
  assert (HT : exists P, token = create P HS256 (str "s3cret") /\ texts toy_dump (create_payload site ann 100 100) = Some P).
  { unfold generate_token in HG. destruct (texts toy_dump (create_payload site ann 100 100)) as [P|] eqn:E; [|discriminate HG]. exists P. split; [|reflexivity]. injection HG as <-. reflexivity. }
  destruct HT as (P & -> & EP). destruct HX as (a & key & HE). unfold create in HE. injection HE as HC HL HK.
  assert (Hk : key = str "s3cret").
  { change [115; 51; 99; 114; 101; 116] with (str "s3cret") in HK. apply (f_equal (firstn (length key))) in HK. apply Nat2N.inj in HL. rewrite <- HL in HK at 1. destruct (split_app (str "s3cret") (concat (map entry P))) as [H1 _]. rewrite Nat2N.id in H1.
    change (firstn (length (str "s3cret")) (str "s3cret" ++ concat (map entry P)) = firstn (length key) (key ++ concat (map entry p))) in HK. rewrite H1 in HK. destruct (split_app key (concat (map entry p))) as [H2 _]. rewrite Nat2N.id in H2. congruence. }
  subst key. change (str "s3cret" ++ concat (map entry P) = str "s3cret" ++ concat (map entry p)) in HK. apply app_inv_head in HK.
  exists P. split; [apply (toy_intact 200 (verify_options site) P (str "s3cret")); [discriminate|reflexivity]|].
  pose proof (entries_concat P (S (length P + length p)) ltac:(lia)) as X1. pose proof (entries_concat p (S (length P + length p)) ltac:(lia)) as X2. rewrite HK in X1. assert (P = p) by congruence. now subst p.
Qed.
Example c143_readable : Readable toy_parse (fun j => match j with JObj _ => None | _ => toy_dump j end).
Proof.
  intros j t. destruct j as [| | |n| | |l|]; try discriminate; cbn [toy_dump].
  - destruct (N.eqb_spec n 100) as [->|_]; [intros H; injection H as <-; reflexivity|]. destruct (N.eqb_spec n 3700) as [->|_]; [intros H; injection H as <-; reflexivity|]. destruct (N.eqb_spec n 42) as [->|_]; [intros H; injection H as <-; reflexivity|discriminate].
  - destruct l as [|[| | | | |s| |] [|]]; try discriminate; [intros H; injection H as <-; reflexivity|]. destruct (beq s (str "admin")) eqn:E; [|discriminate]. apply beq_eq in E. subst s. intros H. injection H as <-. reflexivity.
Qed.
(** C143, refuted for identifiers that look like JSON: the manager refuses the token it has just handed out to user 42 *)
Theorem c143_roundtrip_refuted : ~ (forall parse dump create verify o u now later token, Configured o -> ao_signed o = true -> Readable parse dump -> Identified u ->
  generate_token dump create o u now now = Some token -> Intact verify later o token (match texts dump (create_payload o u now now) with Some p => p | None => [] end) ->
  verify_token parse dump verify (fun _ => None) o later token = Some u).
Proof.
  intros H. set (u42 := mkU (str "42") [] [] []). set (d := fun j => match j with JObj _ => None | _ => toy_dump j end).
  specialize (H toy_parse d create toy_verify site u42 100 200%Z (match generate_token d create site u42 100 100 with Some t => t | None => [] end)).
  assert (HX : verify_token toy_parse d toy_verify (fun _ => None) site 200 (match generate_token d create site u42 100 100 with Some t => t | None => [] end) = None) by (vm_compute; reflexivity).
  rewrite HX in H. clear HX. enough (None = Some u42) by discriminate. apply H.
  - now eexists.
  - reflexivity.
  - exact c143_readable.
  - left. discriminate.
  - reflexivity.
  - eexists. split; [vm_compute; reflexivity|]. reflexivity.
Qed.
(** C146: ann is let in with her role, turned away without it, and nobody gets in with no header *)
Definition knock (h : headers_map) : ctx := mkC h [] [] [] (mkR 200 [] []).
Definition door (roles : list (list N)) : auth_mw := mkAM site (str "user") true roles false.
Example c146_in : exists c, auth_process toy_parse toy_dump toy_verify (fun _ => None) (door [str "admin"; str "root"]) 200 (knock [(str "authorization", [str "Bearer " ++ anns_token])]) = (Continues, c) /\ Held c (str "user") (AnyUser ann).
Proof. eexists. split; vm_compute; reflexivity. Qed.
Example c146_out : exists c, auth_process toy_parse toy_dump toy_verify (fun _ => None) (door [str "root"]) 200 (knock [(str "authorization", [str "Bearer " ++ anns_token])]) = (Completes, c) /\ r_status (c_response c) = 403.
Proof. eexists. split; vm_compute; reflexivity. Qed.
Example c146_empty : exists c, auth_process toy_parse toy_dump toy_verify (fun _ => None) (door []) 200 (knock []) = (Completes, c) /\ r_status (c_response c) = 401.
Proof. eexists. split; vm_compute; reflexivity. Qed.
Example c146_good : GoodAuth (door [str "root"]) /\ GoodContext (knock [(str "authorization", [str "Bearer " ++ anns_token])]).
Proof.
  split.
  - split; [now eexists|]. split; [apply str_ok|]. split; [apply str_ok|]. exists 66, (str "earer"). split; [reflexivity|]. unfold Space. lia.
  - assert (HB : bytes_ok anns_token) by (unfold bytes_ok; apply Forall_forall; intros x Hx; assert (HA : forallb (fun x => x <? 256) anns_token = true) by (vm_compute; reflexivity); rewrite forallb_forall in HA; specialize (HA x Hx); lia).
    split; [|split; (split; [apply Forall_nil|constructor])]. split.
    + apply Forall_cons; [|apply Forall_nil]. cbn [fst snd]. split; [apply str_ok|]. split; [discriminate|]. apply Forall_cons; [|apply Forall_nil]. apply Forall_app. split; [apply str_ok|exact HB].
    + cbn [map]. constructor; [intros []|constructor].
Qed.
(** C150, refuted: roles are not demanded of those who do not say who they are, when authentication is optional *)
Theorem c150_optional_roles_refuted : ~ (forall parse dump verify decode m now c c', GoodAuth m -> GoodContext c -> am_roles m <> [] ->
  auth_process parse dump verify decode m now c = (Continues, c') -> exists u, Held c' (am_key m) (AnyUser u) /\ Authorized m u).
Proof.
  intros H. destruct (H toy_parse toy_dump toy_verify (fun _ => None) (mkAM site (str "user") false [str "admin"] false) 200%Z (knock []) (knock [])) as (u & HU & _).
  - split; [now eexists|]. split; [apply str_ok|]. split; [apply str_ok|]. exists 66, (str "earer"). split; [reflexivity|]. unfold Space. lia.
  - split; [|split]; (split; [apply Forall_nil|constructor]).
  - discriminate.
  - reflexivity.
  - discriminate HU.
Qed.
(** C150, refuted: the role middleware by itself lets in someone no other middleware has vouched for, with a token anyone can make *)
Definition forged : list N := create [(str "sub", str "mallory"); (str "roles", [91; 34; 97; 100; 109; 105; 110; 34; 93])] HS256 [].
Theorem c150_role_forged_refuted : ~ (forall parse dump verify decode roles all now c c', GoodContext c ->
  auth_process parse dump verify decode (role_auth_middleware roles all) now c = (Continues, c') -> exists u, InContext parse (role_auth_middleware roles all) c u).
Proof.
  intros H. set (c := knock [(str "authorization", [str "Bearer " ++ forged])]).
  destruct (H toy_parse toy_dump toy_verify (fun _ => None) [str "admin"] false 200%Z c (snd (auth_process toy_parse toy_dump toy_verify (fun _ => None) (role_auth_middleware [str "admin"] false) 200 c))) as (u & HU).
  - assert (HB : bytes_ok forged) by (unfold bytes_ok; apply Forall_forall; intros x Hx; assert (HA : forallb (fun x => x <? 256) forged = true) by (vm_compute; reflexivity); rewrite forallb_forall in HA; specialize (HA x Hx); lia).
    split; [|split; (split; [apply Forall_nil|constructor])]. split.
    + apply Forall_cons; [|apply Forall_nil]. cbn [fst snd]. split; [apply str_ok|]. split; [discriminate|]. apply Forall_cons; [|apply Forall_nil]. apply Forall_app. split; [apply str_ok|exact HB].
    + cbn [map]. constructor; [intros []|constructor].
  - vm_compute. reflexivity.
  - inversion HU as [x HH _|j x _ HH _]; discriminate HH.
Qed.
(** C147 to C149: the JWT middleware *)
Definition toy_long (s : list N) : option Z := from_chars_ll s.
Definition toy_double (s : list N) : option spec_float := None.
Definition toy_alg (s : list N) : option jalg := if beq s (str "HS256") then Some HS256 else None.
Definition guard : jwt_mw := mkJM (mkJO (str "s3cret") (str "HS256") true true true false false false [] [] [] 0 InHeader (str "Authorization") (str "Bearer")) [str "sub"] None None None.
Definition token2 (sub : list N) : list N := create [(str "sub", sub); (str "iat", str "100"); (str "ok", str "true")] HS256 (str "s3cret").
Definition guarded (now : Z) (c : ctx) := jwt_process toy_dump toy_verify toy_long toy_double (fun _ => []) toy_alg guard now c.
Example c148_in : exists c, guarded 200 (knock [(str "authorization", [str " bearer " ++ token2 (str "ann")])]) = (Continues, c) /\
  Held c (str "jwt_payload") (AnyJson (JObj [(str "sub", JStr (str "ann")); (str "iat", JInt 100); (str "ok", JBool true)])).
Proof. eexists. split; vm_compute; reflexivity. Qed.
Example c148_future : exists c, guarded 50 (knock [(str "authorization", [str " bearer " ++ token2 (str "ann")])]) = (Completes, c) /\ r_status (c_response c) = 401.
Proof. eexists. split; vm_compute; reflexivity. Qed.
Example c147_good : GoodJwt (jm_options guard).
Proof. split; [apply str_ok|]. split; [apply str_ok|]. intros c r H. injection H as <- _. unfold Blank. lia. Qed.
(** a tab does not separate the scheme from the token here, though it does for the authentication middleware *)
Example c147_tab : token_in_header (jm_options guard) (str "Bearer" ++ [9] ++ str "abc") = None /\ extract_token_from_header site (str "Bearer" ++ [9] ++ str "abc") = str "abc".
Proof. split; reflexivity. Qed.
(** C150, refuted for subjects that look like numbers: past the JWT middleware, turned away by the one behind it *)
Theorem c150_numeric_sub_refuted : ~ (forall parse dump verify decode tl td de an m m2 now c c1 s, GoodJwt (jm_options m) -> GoodAuth m2 -> am_roles m2 = [] ->
  jwt_process dump verify tl td de an m now c = (Continues, c1) -> (exists q t p, Found (jm_options m) c t /\ JwtAsks an (jm_options m) q /\ verify now q t = Valid p /\ lookup (str "sub") p = Some s /\ s <> []) ->
  fst (auth_process parse dump verify decode m2 now c1) = Continues).
Proof.
  intros H. set (m2 := mkAM default_options (str "user") true [] false). set (c := knock [(str "authorization", [str "Bearer " ++ token2 (str "42")])]).
  specialize (H toy_parse toy_dump toy_verify (fun _ => None) toy_long toy_double (fun _ => []) toy_alg guard m2 200%Z c (snd (guarded 200 c)) (str "42") c147_good).
  assert (HX : fst (auth_process toy_parse toy_dump toy_verify (fun _ => None) m2 200 (snd (guarded 200 c))) = Completes) by (vm_compute; reflexivity).
  rewrite HX in H. clear HX. enough (Completes = Continues) by discriminate. apply H.
  - split; [now exists []|]. split; [apply str_ok|]. split; [apply str_ok|]. exists 66, (str "earer"). split; [reflexivity|]. unfold Space. lia.
  - reflexivity.
  - vm_compute. reflexivity.
  - assert (HB : bytes_ok (token2 (str "42"))) by (unfold bytes_ok; apply Forall_forall; intros x Hx; assert (HA : forallb (fun x => x <? 256) (token2 (str "42")) = true) by (vm_compute; reflexivity); rewrite forallb_forall in HA; specialize (HA x Hx); lia).
    assert (HC : GoodContext c).
    { split; [|split; (split; [apply Forall_nil|constructor])]. split.
      + apply Forall_cons; [|apply Forall_nil]. cbn [fst snd]. split; [apply str_ok|]. split; [discriminate|]. apply Forall_cons; [|apply Forall_nil]. apply Forall_app. split; [apply str_ok|exact HB].
      + cbn [map]. constructor; [intros []|constructor]. }
    exists (jwt_verify_options (jm_options guard) HS256), (token2 (str "42")), [(str "sub", str "42"); (str "iat", str "100"); (str "ok", str "true")].
    split; [apply c147_token; [exact c147_good|exact HC|vm_compute; reflexivity]|]. split; [apply jwt_asks_iff; now exists HS256|]. split; [vm_compute; reflexivity|]. split; [reflexivity|discriminate].
Qed.
