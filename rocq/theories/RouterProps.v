(** Properties of the router: what a request gets (C59) and what a declaration tree registers (C60). *)
From Coq Require Sorted.
From Verif Require Import Base UtilSpec UtilModel UtilProofs UtilProps RouteSpec RouteModel RouteProofs RouteTree RouteProps.
Open Scope N_scope.

(** Percent-decoded captures. *)
Definition Decoded (caps ps : list (list N * list N)) : Prop :=
  Forall2 (fun c p => fst p = fst c /\ PctDecodes (snd c) (snd p)) caps ps.

Lemma decode_params_spec caps : Decoded caps (decode_params caps).
Proof.
  induction caps as [|[k v] caps IH]; cbn [decode_params map]; constructor; [|exact IH]. cbn [fst snd]. split; [reflexivity|].
  destruct (decode_path_defined v) as (out & E & _). rewrite E. now apply decode_path_exact.
Qed.

Lemma decoded_unique caps a b : Decoded caps a -> Decoded caps b -> a = b.
Proof.
  intros A. revert b. induction A as [|[k v] [k1 v1] caps a [E1 P1] A IH]; intros b B; inversion B as [|? [k2 v2] ? b' [E2 P2] B']; subst; [reflexivity|].
  cbn in *. subst. f_equal; [|auto]. f_equal. now apply (pct_decoding_unique v).
Qed.

(** The Allow header: the names, in increasing order of method number, separated by comma and space. *)
Lemma allow_loop_spec ms : forall a, a <> [] -> allow_loop a ms = a ++ flat_map (fun m => [44; 32] ++ method_name m) ms.
Proof.
  induction ms as [|m ms IH]; intros a Ha; cbn [allow_loop flat_map]; [now rewrite app_nil_r|].
  destruct a as [|x a]; [congruence|]. rewrite IH by discriminate. rewrite <- !app_assoc. reflexivity.
Qed.

Lemma intercalate_cons sep x l : intercalate sep (x :: l) = x ++ flat_map (fun y => sep ++ y) l.
Proof.
  revert x; induction l as [|y l IH]; intros x; [cbn; now rewrite app_nil_r|].
  change (intercalate sep (x :: y :: l)) with (x ++ sep ++ intercalate sep (y :: l)). rewrite IH. cbn [flat_map].
  now rewrite <- app_assoc.
Qed.

Definition known_method (m : Z) : Prop := (0 <= m < 47)%Z.

Lemma method_name_nonempty m : m < 47 -> method_name m <> [].
Proof.
  intros Hm. assert (A : forallb (fun m => negb (beq (method_name m) [])) (map N.of_nat (seq 0 47)) = true) by reflexivity.
  rewrite forallb_forall in A. specialize (A m). intros E. rewrite E in A. discriminate A.
  apply in_map_iff. exists (N.to_nat m). split; [lia|]. apply in_seq. lia.
Qed.

Lemma allow_value ms : (forall m, In m ms -> m < 47) -> allowed_header_value ms = intercalate [44; 32] (map method_name ms).
Proof.
  intros Hk. unfold allowed_header_value. destruct ms as [|m ms]; [reflexivity|]. cbn [allow_loop map app].
  rewrite allow_loop_spec by (apply method_name_nonempty, Hk; now left). rewrite intercalate_cons. f_equal.
  clear. induction ms as [|x ms IH]; cbn [flat_map map]; [reflexivity|]. now rewrite IH.
Qed.

Theorem router_decision {T} : forall (calls : list (call (list T))) path m,
  (forall s m h, In (s, m, h) calls -> known_method m /\ h <> []) ->
  let '(t, R) := add_all empty_node calls in
  match route_request t path m with
  | TooLong => (4096 < length path)%nat
  | Run ps chain => (length path <= 4096)%nat /\ exists caps, Serves R path m caps chain /\ Decoded caps ps
  | NotAllowed _ allow => (length path <= 4096)%nat /\ ~ Allows R path m
      /\ exists ms, ms <> [] /\ Sorted.StronglySorted N.lt ms /\ (forall m', In m' ms <-> Allows R path (Z.of_N m'))
         /\ allow = intercalate [44; 32] (map method_name ms)
  | NotFound => (length path <= 4096)%nat /\ forall m', ~ Allows R path m'
  | NoChain => False
  end.
Proof.
  intros calls path m Hcalls. pose proof (match_serves calls path m) as A. pose proof (match_none calls path m) as B.
  pose proof (allowed_methods_exact calls path) as C.
  assert (HR : forall t, let '(_, R) := add_all t calls in forall s m h, In (s, m, h) R -> In (s, m, h) calls).
  { clear. induction calls as [|[[s m] h] calls IH]; intros t; cbn [add_all]; [auto|]. destruct (add_route t s m h) as [t1 ok].
    specialize (IH t1). destruct (add_all t1 calls) as [t2 acc]. intros s' m' h' Hin. destruct ok; [destruct Hin as [E|Hin]; [now left|]|]; right; auto. }
  specialize (HR empty_node).
  destruct (add_all empty_node calls) as [t R]. unfold route_request.
  destruct (4096 <? length path)%nat eqn:El; [now apply Nat.ltb_lt in El|]. apply Nat.ltb_ge in El.
  destruct (match_route t path m) as [[caps chain]|].
  - assert (S0 : Serves R path m caps chain) by now apply A.
    destruct chain as [|x chain].
    + destruct S0 as (p & (pre & s & post & -> & _) & _). destruct (Hcalls s m []) as [_ X]; [|congruence].
      apply HR. apply in_app_iff. right; now left.
    + split; [exact El|]. exists caps. split; [exact S0|]. apply decode_params_spec.
  - assert (Hn : ~ Allows R path m) by now apply B.
    destruct (allowed_methods t path) as [[ps [|m1 ms]]|].
    + destruct C as [C _]. congruence.
    + destruct C as (_ & C1 & C2). split; [exact El|]. split; [exact Hn|]. exists (m1 :: ms). repeat split; auto; try apply C2; try discriminate.
      apply allow_value. intros m' Hm'. apply C2 in Hm' as (p & h & c & (pre & s & post & -> & _) & _).
      destruct (Hcalls s (Z.of_N m') h) as [[X Y] _]; [apply HR, in_app_iff; right; now left|]. lia.
    + split; [exact El|exact C].
Qed.

(** ** Declaration trees *)

(** What a declaration tree declares, in order: for each route the path segments of its ancestors and its own,
    its method, and the middleware from the outermost group to the route itself followed by the handler. *)
Fixpoint leaves {T : Type} (d : decl T) : list (list (list N) * Z * list T) :=
  match d with
  | RouteDecl seg m mw h => [([seg], m, mw ++ [h])]
  | GroupDecl seg mw ch => map (fun '(segs, m, chain) => (seg :: segs, m, mw ++ chain)) (flat_map leaves ch)
  end.

(** [Denotes path segs]: the segments of path are those of the pieces, in order. *)
Definition Denotes (path : list N) (pieces : list (list N)) : Prop :=
  exists tss, Forall2 (fun ts s => Tokens slash ts s) tss pieces /\ Tokens slash (concat tss) path.

Lemma tokens_app_slash ts s us u : Tokens slash ts s -> Tokens slash us u -> Tokens slash (ts ++ us) (s ++ 47 :: u).
Proof.
  intros A B. induction A as [|d ts s Hd A IH|t Ht Hf|t d ts s Ht Hf Hd A IH]; cbn [app].
  - now apply tok_delim.
  - apply tok_delim; [exact Hd|exact IH].
  - now apply tok_more.
  - rewrite <- app_assoc. cbn [app]. now apply tok_more.
Qed.

Lemma tokens_drop ts s : Tokens slash ts s -> Tokens slash ts (drop_slashes s).
Proof.
  induction 1 as [|d ts s Hd A IH|t Ht Hf|t d ts s Ht Hf Hd A IH]; cbn [drop_slashes].
  - constructor.
  - unfold slash in Hd. rewrite Hd. exact IH.
  - destruct t as [|x t]; [congruence|]. assert (E : x =? 47 = false) by (inversion Hf; assumption). cbn. rewrite E. now apply tok_last.
  - destruct t as [|x t]; [congruence|]. assert (E : x =? 47 = false) by (inversion Hf; assumption). cbn. rewrite E.
    change (x :: t ++ d :: s) with ((x :: t) ++ d :: s). now apply tok_more.
Qed.

Lemma drop_slashes_spec s : exists sl, s = sl ++ drop_slashes s /\ slashes sl /\ (forall c r, drop_slashes s = c :: r -> c <> 47).
Proof.
  induction s as [|c s (sl & E & H1 & H2)]; cbn [drop_slashes]; [exists []; repeat split; [constructor|discriminate]|].
  destruct (c =? 47) eqn:Ec.
  - apply N.eqb_eq in Ec as ->. exists (47 :: sl). rewrite E at 1. repeat split; auto. now constructor.
  - exists []. repeat split; [constructor|]. intros c' r X. injection X as <- _. now apply N.eqb_neq in Ec.
Qed.

Lemma tokens_trailing sl : slashes sl -> forall ts s, Tokens slash ts (s ++ sl) <-> Tokens slash ts s.
Proof.
  intros Hsl ts s. assert (A : forall ts, Tokens slash ts s -> Tokens slash ts (s ++ sl)).
  { clear ts. intros ts A. induction Hsl as [|c sl -> Hsl IH] in s, A |- *; [now rewrite app_nil_r|].
    replace (s ++ 47 :: sl) with ((s ++ [47]) ++ sl) by (rewrite <- app_assoc; reflexivity). apply IH.
    rewrite <- (app_nil_r ts). apply tokens_app_slash; [exact A|constructor]. }
  split; [|apply A]. intros B. pose proof (split_path_tokens s) as C. now rewrite (tokens_unique _ _ _ _ B (A _ C)).
Qed.

Lemma tokens_normalize ts s : Tokens slash ts s -> Tokens slash ts (normalize_path_segment s).
Proof.
  intros A. unfold normalize_path_segment. apply tokens_drop in A. destruct (drop_slashes_spec (rev (drop_slashes s))) as (sl & E & H1 & _).
  apply (f_equal (@rev N)) in E. rewrite rev_involutive, rev_app_distr in E. rewrite E in A. rewrite (tokens_trailing (rev sl)) in A; [exact A|].
  now apply Forall_rev.
Qed.

Lemma tokens_join ts parent us seg : Tokens slash ts parent -> Tokens slash us seg -> Tokens slash (ts ++ us) (join_paths parent seg).
Proof.
  intros A B. apply tokens_normalize in A, B. unfold join_paths.
  revert A B. generalize (normalize_path_segment parent) as p, (normalize_path_segment seg) as s. intros p s A B.
  assert (Hnil : forall ts, Tokens slash ts [] -> ts = []).
  { clear. intros ts A. exact (tokens_unique _ _ _ _ A (tok_nil _)). }
  destruct p as [|x p]; [apply Hnil in A as ->|]; destruct s as [|y s]; [apply Hnil in B as -> | | apply Hnil in B as -> |].
  - apply tok_delim; [reflexivity|constructor].
  - cbn [app]. apply tok_delim; [reflexivity|exact B].
  - rewrite !app_nil_r. cbn [app]. apply tok_delim; [reflexivity|exact A].
  - cbn [app]. apply tok_delim; [reflexivity|]. change (x :: p ++ 47 :: y :: s) with ((x :: p) ++ 47 :: y :: s). now apply tokens_app_slash.
Qed.

Lemma app_inj_1' {A} (a b c d : list A) : length a = length c -> a ++ b = c ++ d -> a = c /\ b = d.
Proof.
  revert c; induction a as [|x a IH]; intros [|y c] L E; try discriminate; [now split|]. injection L as L. cbn in E. injection E as -> E.
  destruct (IH c L E) as [-> ->]. now split.
Qed.

Section DeclInd.
Context {T : Type} (P : decl T -> Prop).
Hypothesis HR : forall seg m mw h, P (RouteDecl seg m mw h).
Hypothesis HG : forall seg mw ch, Forall P ch -> P (GroupDecl seg mw ch).
Fixpoint decl_ind' (d : decl T) : P d :=
  match d with
  | RouteDecl seg m mw h => HR seg m mw h
  | GroupDecl seg mw ch => HG seg mw ch ((fix go (l : list (decl T)) : Forall P l := match l with [] => Forall_nil _ | x :: r => Forall_cons _ (decl_ind' x) (go r) end) ch)
  end.
End DeclInd.

Definition same_route {T} (anc : list (list N)) (inherited : list T) (reg : list N * Z * list T) (leaf : list (list N) * Z * list T) : Prop :=
  let '(path, m, chain) := reg in let '(segs, m', chain') := leaf in
  m = m' /\ chain = inherited ++ chain' /\ Denotes path (anc ++ segs).

Lemma denotes_join built anc seg : Denotes built anc -> Denotes (join_paths built seg) (anc ++ [seg]).
Proof.
  intros (tss & F & A). pose proof (split_path_tokens seg) as B.
  exists (tss ++ [map (substr seg) (split_path_to_segments seg)]). split.
  - apply Forall2_app; [exact F|]. repeat constructor. exact B.
  - rewrite concat_app. cbn [concat]. rewrite app_nil_r. now apply tokens_join.
Qed.

Lemma compile_leaves {T} (d : decl T) : forall built anc inherited, Denotes built anc ->
  Forall2 (same_route anc inherited) (compile built inherited d) (leaves d).
Proof.
  induction d as [seg m mw h|seg mw ch IH] using decl_ind'; intros built anc inherited Hb; cbn [compile leaves].
  - repeat constructor. now apply denotes_join.
  - apply (denotes_join _ _ seg) in Hb.
    induction IH as [|d ch Hd Hch IHc]; cbn [flat_map map]; [constructor|]. rewrite map_app. apply Forall2_app; [|exact IHc].
    specialize (Hd _ _ (inherited ++ mw) Hb). revert Hd. generalize (compile (join_paths built seg) (inherited ++ mw) d), (leaves d).
    intros l1 l2 F. induction F as [|[[p1 m1] c1] [[s2 m2] c2] l1 l2 (E1 & E2 & E3) F IHF]; cbn [map]; constructor; auto.
    split; [exact E1|]. split; [rewrite E2, app_assoc; reflexivity|]. rewrite <- app_assoc in E3. exact E3.
Qed.

Lemma register_all_ok {T} regs : forall (t t' : node (list T)), register_all t regs = (t', true) -> add_all t regs = (t', regs).
Proof.
  induction regs as [|[[s m] h] regs IH]; intros t t' E; cbn [register_all add_all] in *; [now injection E as ->|].
  destruct (add_route t s m h) as [t1 ok]. destruct ok; [|discriminate]. apply IH in E. now rewrite E.
Qed.

Lemma register_all_acc {T} regs : forall (t t' : node (list T)), register_all t regs = (t', true) <-> add_all t regs = (t', regs).
Proof.
  intros t t'. split; [apply register_all_ok|]. revert t. induction regs as [|[[s m] h] regs IH]; intros t E; cbn [register_all add_all] in *; [now injection E as ->|].
  destruct (add_route t s m h) as [t1 ok] eqn:Ea. specialize (IH t1). destruct (add_all t1 regs) as [t2 acc] eqn:E2. destruct ok.
  - injection E as -> ->. now apply IH.
  - exfalso. injection E as -> E. assert (Hle : forall c (t : node (list T)), (length (snd (add_all t c)) <= length c)%nat).
    { clear. induction c as [|[[s m] h] c IHc]; intros t0; cbn [add_all]; [reflexivity|]. destruct (add_route t0 s m h) as [t1 ok1].
      specialize (IHc t1). destruct (add_all t1 c) as [t2 acc]. destruct ok1; cbn in *; lia. }
    specialize (Hle regs t1). rewrite E2 in Hle. cbn in Hle. apply (f_equal (@length _)) in E. cbn in E. lia.
Qed.

(** C60: compiling a declaration tree registers exactly its routes, in declaration order, each under the
    concatenation of the paths above it and behind the middleware above it, outermost first. *)
Theorem declarations_registered {T} : forall (top : list (decl T)) t, compile_all_routes top = (t, true) ->
  exists R, add_all empty_node R = (t, R)
    /\ Forall2 (fun reg leaf => let '(path, m, chain) := reg in let '(segs, m', chain') := leaf in
                  m = m' /\ chain = chain' /\ Denotes path segs) R (flat_map leaves top).
Proof.
  intros top t E. exists (flat_map (compile [] []) top). split; [now apply register_all_acc|].
  clear. induction top as [|d top IH]; cbn [flat_map]; [constructor|]. apply Forall2_app; [|exact IH].
  assert (D : Denotes [] []) by (exists []; split; constructor).
  pose proof (compile_leaves d [] [] [] D) as F. induction F as [|[[p m] c] [[s m'] c'] l1 l2 (A & B & C) F IHF]; constructor; auto.
Qed.

(** ... and it fails only if one of the routes is malformed or clashes with an earlier one. *)
Theorem declarations_accepted {T} : forall (top : list (decl T)),
  let regs := flat_map (compile [] []) top in
  snd (compile_all_routes top) = true <->
  (forall s m h p, In (s, m, h) regs -> Pattern s p -> (0 <= m < 64)%Z /\ WellFormed p)
  /\ (forall a s m h b s' m' h' c p p', regs = a ++ (s', m', h') :: b ++ (s, m, h) :: c -> Pattern s p -> Pattern s' p' -> ~ Clash p p').
Proof.
  intros top regs. unfold compile_all_routes. fold regs. clearbody regs. clear top.
  enough (G : forall done rest t, add_all empty_node done = (t, done) -> regs = done ++ rest ->
    (forall s m h p, In (s, m, h) done -> Pattern s p -> (0 <= m < 64)%Z /\ WellFormed p) ->
    (snd (register_all t rest) = true <->
     (forall s m h p, In (s, m, h) rest -> Pattern s p -> (0 <= m < 64)%Z /\ WellFormed p)
     /\ (forall a s m h b s' m' h' c p p', regs = a ++ (s', m', h') :: b ++ (s, m, h) :: c -> (length done <= length (a ++ (s', m', h') :: b))%nat ->
           Pattern s p -> Pattern s' p' -> ~ Clash p p'))).
  { rewrite (G [] regs empty_node); [|reflexivity|reflexivity|intros s m h p []].
    split; intros [X Y]; (split; [exact X|]); intros a s m h b s' m' h' c p p' E; intros; eapply Y; eauto. cbn. lia. }
  intros done rest. revert done. induction rest as [|[[s m] h] rest IH]; intros done t Ht Er Hd; cbn [register_all].
  - cbn. split; [|reflexivity]. intros _. split; [intros s m h p []|]. intros a s m h b s' m' h' c p p' E Hlen.
    exfalso. rewrite app_nil_r in Er. rewrite <- Er, E in Hlen. rewrite !app_length in Hlen. cbn in Hlen. rewrite !app_length in Hlen. cbn in Hlen. lia.
  - pose proof (registration_exact done s m h _ (pattern_of_string s)) as RE. rewrite Ht in RE.
    set (ps := map read_segment (map (substr s) (split_path_to_segments s))) in *.
    destruct (add_route t s m h) as [t1 ok] eqn:Ea. destruct RE as (R1 & R2 & _).
    destruct ok.
    + destruct (R1 eq_refl) as (X1 & X2 & X3).
      specialize (IH (done ++ [(s, m, h)]) t1). rewrite IH; clear IH.
      * split.
        -- intros [A B]. split.
           ++ intros s0 m0 h0 p0 [E|Hin] Hp; [|eauto]. injection E as -> -> ->. rewrite (pattern_is _ _ Hp). split; [lia|exact X2].
           ++ intros a s0 m0 h0 b s' m' h' c p p' E Hlen Hp Hp'.
              destruct (Nat.eq_dec (length (a ++ (s', m', h') :: b)) (length done)) as [El|El].
              ** assert (Hs : a ++ (s', m', h') :: b = done /\ (s0, m0, h0) :: c = (s, m, h) :: rest).
                 { apply app_inj_1'. - exact El. - rewrite <- Er, E, <- app_assoc. reflexivity. }
                 destruct Hs as [Hs1 Hs2]. injection Hs2 as -> -> -> ->. rewrite (pattern_is _ _ Hp). fold ps. apply (X3 s' m' h' p'); [|exact Hp'].
                 rewrite <- Hs1. apply in_app_iff. right; now left.
              ** apply (B a s0 m0 h0 b s' m' h' c p p'); auto. rewrite app_length. cbn. lia.
        -- intros [A B]. split; [intros s0 m0 h0 p0 Hin; apply (A s0 m0 h0 p0); now right|].
           intros a s0 m0 h0 b s' m' h' c p p' E Hlen. apply (B a s0 m0 h0 b s' m' h' c p p' E). rewrite app_length in Hlen. cbn in Hlen. lia.
      * rewrite add_all_app, Ht. cbn [add_all]. now rewrite Ea.
      * rewrite <- app_assoc. exact Er.
      * intros s0 m0 h0 p0 Hin Hp. apply in_app_iff in Hin as [Hin|[E|[]]]; [eauto|]. injection E as -> -> ->. rewrite (pattern_is _ _ Hp). split; [lia|exact X2].
    + cbn. split; [discriminate|]. intros [A B]. enough (false = true) by discriminate. apply R2; [reflexivity| | |].
      * apply (A s m h ps); [now left|apply pattern_of_string].
      * apply (A s m h ps); [now left|apply pattern_of_string].
      * intros s' m' h' p' Hin Hp'. apply in_split in Hin as (a & b & Hab).
        apply (B a s m h b s' m' h' rest ps p').
        -- rewrite Er, Hab, <- app_assoc. reflexivity.
        -- rewrite Hab. lia.
        -- apply pattern_of_string.
        -- exact Hp'.
Qed.

(** ** Concrete cases *)

Definition ex_calls : list (call (list N)) :=
  [(str "/users/:id", 1%Z, [10]); (str "/users/me", 1%Z, [11]); (str "files/*path/", 1%Z, [12]);
   (str "/users/:id", 3%Z, [13]); (str "/users/:name/x", 1%Z, [14]); (str "/users/:id", 1%Z, [15])].

(* the fifth call clashes with the first one and is rejected; the sixth replaces the first *)
Example ex_accepted : map snd (snd (add_all empty_node ex_calls)) = [[10]; [11]; [12]; [13]; [15]].
Proof. vm_compute. reflexivity. Qed.

Example ex_match :
  let t := fst (add_all empty_node ex_calls) in
  match_route t (str "/users/me") 1 = Some ([], [11])
  /\ match_route t (str "//users/42/") 1 = Some ([(str "id", str "42")], [15])
  /\ match_route t (str "/users/me") 3 = Some ([(str "id", str "me")], [13])
  /\ match_route t (str "/files//a//b/") 1 = Some ([(str "path", str "a//b")], [12])
  /\ match_route t (str "/files") 1 = Some ([(str "path", [])], [12])
  /\ match_route t (str "/users") 1 = None.
Proof. vm_compute. repeat split. Qed.

Example ex_serves : Serves (snd (add_all empty_node ex_calls)) (str "/users/me") 1 [] [11].
Proof.
  pose proof (match_serves ex_calls (str "/users/me") 1 [] [11]) as A. destruct (add_all empty_node ex_calls) as [t R] eqn:E.
  cbn [snd]. apply A. replace t with (fst (add_all empty_node ex_calls)) by now rewrite E. vm_compute. reflexivity.
Qed.

Example ex_decisions :
  let t := fst (add_all empty_node ex_calls) in
  route_request t (str "/users/a%20b") 1 = Run [(str "id", str "a b")] [15]
  /\ route_request t (str "/users/me") 4 = NotAllowed [] (str "GET, POST")
  /\ route_request t (str "/nothing") 4 = NotFound.
Proof. vm_compute. repeat split. Qed.

Definition ex_decls : list (decl N) :=
  [GroupDecl (str "/api/") [1] [GroupDecl (str "v1") [2; 3] [RouteDecl (str "/users/:id") 1 [4] 5]; RouteDecl (str "/") 1 [] 6]].

Example ex_compile : snd (compile_all_routes ex_decls) = true
  /\ match_route (fst (compile_all_routes ex_decls)) (str "/api/v1/users/7") 1 = Some ([(str "id", str "7")], [1; 2; 3; 4; 5])
  /\ match_route (fst (compile_all_routes ex_decls)) (str "/api") 1 = Some ([], [1; 6]).
Proof. vm_compute. repeat split. Qed.
