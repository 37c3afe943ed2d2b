(** Instances of C119-C123, and what does not hold. *)
From Verif Require Import Base UtilModel UtilSpec UtilProofs StaticModel Http1Model Http1Spec Http1Proofs RecvModel RecvInv WsSession HdrModel HdrSpec HdrProofs HdrProps HeaderOps CorsSpec CompModel CompSpec CompProps CompProps2.
From Coq Require Import ZifyBool ZifyN.
Local Open Scope N_scope.

(** ** A run-length coding as the library *)
Fixpoint rle (s : list N) : list N :=
  match s with
  | [] => []
  | c :: r => match rle r with
              | d :: n :: t => if c =? d then c :: (n + 1) :: t else c :: 1 :: d :: n :: t
              | t => c :: 1 :: t
              end
  end.
Fixpoint unrle (s : list N) : list N := match s with c :: n :: t => repeat c (N.to_nat n) ++ unrle t | _ => [] end.
Lemma rle_even s : exists t, rle s = flat_map (fun p => [fst p; snd p]) t.
Proof.
  induction s as [|c s [t E]]; [exists []; reflexivity|]. cbn [rle]. rewrite E. destruct t as [|[d n] t]; cbn [flat_map fst snd app].
  - exists [(c, 1)]. reflexivity.
  - destruct (c =? d); [exists ((c, n + 1) :: t)|exists ((c, 1) :: (d, n) :: t)]; reflexivity.
Qed.
Lemma unrle_rle s : unrle (rle s) = s.
Proof.
  induction s as [|c s IH]; [reflexivity|]. cbn [rle]. destruct (rle_even s) as [t E]. rewrite E in *. destruct t as [|[d n] t]; cbn [flat_map fst snd app] in *; [cbn; now rewrite <- IH|].
  destruct (N.eqb_spec c d) as [->|Hd].
  - cbn [unrle] in IH |- *. replace (N.to_nat (n + 1)) with (S (N.to_nat n)) by lia. cbn [repeat app]. f_equal. exact IH.
  - cbn [unrle] in IH |- *. change (N.to_nat 1) with 1%nat. cbn [repeat app]. f_equal. exact IH.
Qed.
(** Everything is worked out at the first call and handed out as there is room; the input counts as read at the end. *)
Definition batch (f : list N -> list N) : provider :=
  mkP (option (list N)) None (fun st input room =>
    let p := match st with Some p => p | None => f input end in
    if len p <=? room then Some (Some [], p, len input, true) else Some (Some (skipn (N.to_nat room) p), firstn (N.to_nat room) p, 0, false)).
Definition unbatch (f : list N -> list N) : provider :=
  mkP (option (list N)) None (fun st input room => match input with [] => None | _ => p_call (batch f) st input room end).
Definition all_of (f : list N -> list N) (st : option (list N)) (input : list N) : list N := match st with Some p => p | None => f input end.
Lemma batch_compressor f : Compressor (p_call (batch f)) (all_of f).
Proof.
  intros st input room st' o used done E. cbn [p_call batch] in E. fold (all_of f st input) in E. set (p := all_of f st input) in *. destruct (N.leb_spec (len p) room); injection E as <- <- <- <-.
  - unfold len in *. rewrite app_nil_r. repeat split; auto; try lia; discriminate.
  - unfold len in *. rewrite firstn_length. cbn [all_of]. rewrite firstn_skipn. repeat split; auto; try lia; try discriminate.
Qed.
Lemma unbatch_decompressor f : Decompressor (p_call (unbatch f)) (all_of f) /\ Prompt (p_call (unbatch f)) (all_of f).
Proof.
  split.
  - intros st input room st' o used done E. cbn [p_call unbatch] in E. destruct input as [|c input]; [discriminate E|].
    destruct (batch_compressor f _ _ _ _ _ _ _ E) as (H1 & H2 & H3 & H4 & H5). split; [exact H1|]. split; [exact H2|]. split; [exact H3|]. intros Hd. left. exact (H5 Hd).
  - intros st input room st' o used E Hu. cbn [p_call unbatch] in E. destruct input as [|c input]; [discriminate E|]. cbn [p_call batch] in E. destruct (_ <=? room); [discriminate E|]. injection E as _ _ E. subst used. cbn [length] in Hu. lia.
Qed.
Definition make1 (x : list N) : option provider := if iequals x (str "gzip") || iequals x (str "deflate") then Some (batch rle) else None.
Definition make2 (x : list N) : option provider := if iequals x (str "gzip") || iequals x (str "deflate") then Some (unbatch unrle) else None.
Example ex_codes : codes make1 (fun _ b => rle b) /\ decodes make2 (fun _ b => unrle b).
Proof.
  split; intros x P E; unfold make1, make2 in E; destruct (iequals x (str "gzip") || iequals x (str "deflate")); try discriminate E; injection E as <-.
  - exists (all_of rle). split; [apply batch_compressor|reflexivity].
  - exists (all_of unrle). destruct (unbatch_decompressor unrle) as [U1 U2]. split; [exact U1|]. split; [exact U2|reflexivity].
Qed.
Lemma ex_names : Forall Name (o_preferred options_new).
Proof. repeat constructor; try discriminate; try (apply str_ok); intros H; cbn in H; repeat (destruct H as [H|H]; [discriminate H|]); exact H. Qed.

(** ** C119 *)
(** Every header has a reading. *)
Lemma reading s : bytes_ok s -> Accepts s (map elem (words (str ",") s)).
Proof.
  intros HB. exists (words (str ",") s). pose proof (words_tokens (str ",") s) as HT. assert (HT2 : Tokens (fun c => c =? 44) (words (str ",") s) s).
  { change (str ",") with [44] in *. rewrite words_cut. apply cut_tokens. }
  split; [exact HT2|]. pose proof (tokens_bytes _ _ _ HT2 HB) as HF. clear HT HT2. induction HF as [|t l Ht HF IH]; [constructor|]. cbn [map]. constructor; [|exact IH]. apply elem_iff; [exact Ht|]. destruct (elem t); reflexivity.
Qed.
Definition accept1 : list N := str "br;q=1.0, deflate;q=0.5, *;q=0.2".
Definition es1 : list (list N * N) := [(str "br", 1000); (str "deflate", 500); (str "*", 200)].
Lemma accepts1 : Accepts accept1 es1.
Proof. pose proof (reading accept1 (str_ok _)) as H. replace (map elem (words (str ",") accept1)) with es1 in H by (vm_compute; reflexivity). exact H. Qed.
Example ex_choice : select_best_encoding accept1 options_new = str "deflate" /\ Choice es1 (o_preferred options_new) (str "deflate").
Proof.
  split; [vm_compute; reflexivity|]. replace (str "deflate") with (select_best_encoding accept1 options_new) by (vm_compute; reflexivity).
  apply c119_choice; [apply str_ok| |vm_compute; discriminate|exact accepts1]. eapply Forall_impl; [|exact ex_names]. intros x (H1 & H2 & _). auto.
Qed.
Example ex_excluded : select_best_encoding (str "gzip;q=0, deflate;q=0.000") options_new = [] /\ select_best_encoding (str "GZIP;q=0, *;q=0.5") options_new = str "deflate" /\
  select_best_encoding (str "identity") options_new = [] /\ select_best_encoding (str "*") options_new = str "gzip".
Proof. repeat split; vm_compute; reflexivity. Qed.

(** ** C120 *)
Definition r1 : response := mkR 200 (set_header (set_header hdrs_new (str "Content-Type") (str "text/html")) (str "vary") (str "Origin")) (repeat 65 1200 ++ repeat 66 800).
Lemma r1_map : HeaderMap (h_map (r_headers r1)).
Proof. apply (hops_map [OSet (str "Content-Type") (str "text/html"); OSet (str "vary") (str "Origin")] []); [repeat constructor; apply str_ok|split; constructor]. Qed.
Definition r1' : response := compress_response_body 3000 make1 options_new accept1 r1.
Example ex_hook : Encoded (str "deflate") [65; 1200; 66; 800] r1 r1' /\ sent "Vary" (h_map (r_headers r1')) = [str "Origin"; str "Accept-Encoding"].
Proof.
  assert (HE : Encoded (str "deflate") (rle (r_body r1)) r1 r1').
  { unfold r1'. apply (c120_applied make1 (fun _ b => rle b) options_new accept1 es1 (str "deflate") (batch rle) r1 3000).
    - apply ex_codes.
    - exact ex_names.
    - exact r1_map.
    - apply str_ok.
    - vm_compute; discriminate.
    - exact accepts1.
    - vm_compute; discriminate.
    - vm_compute; reflexivity.
    - vm_compute; reflexivity.
    - exact (proj2 ex_choice).
    - vm_compute; discriminate.
    - intros H; vm_compute in H; discriminate H.
    - intros H; vm_compute in H; discriminate H.
    - vm_compute; reflexivity.
    - intros st input room H. cbn [p_call batch] in H. destruct (_ <=? room); discriminate H.
    - vm_compute; split; reflexivity.
    - vm_compute; reflexivity. }
  replace (rle (r_body r1)) with [65; 1200; 66; 800] in HE by (vm_compute; reflexivity). split; [exact HE|]. destruct HE as (_ & _ & -> & _). vm_compute; reflexivity.
Qed.
Example ex_hook_hyps : forall x, In x (o_preferred options_new) -> N.of_nat (length (rle (r_body r1))) < N.of_nat 3000 /\ (r_body r1 <> [] -> rle (r_body r1) <> []).
Proof. intros x _. split; vm_compute; [reflexivity|intros _; discriminate]. Qed.
(** Not smaller: sent as it is, without a length of its own. *)
Definition r2 : response := mkR 200 (set_header hdrs_new (str "content-length") (str "4")) [1; 2; 3; 4].
Example ex_restored : compress_response_body 100 make1 (mkO true true 2 [str "gzip"]) (str "gzip") r2 = mkR 200 hdrs_new [1; 2; 3; 4].
Proof. vm_compute; reflexivity. Qed.
Example ex_skipped : compress_response_body 3000 make1 options_new (str "gzip;q=0") r1 = r1 /\ compress_response_body 3000 make1 options_new (str "gzip") r2 = r2.
Proof.
  split; apply c120_skipped.
  - exact r1_map.
  - vm_compute; repeat constructor.
  - right; right; right. split; [apply str_ok|]. split; [exact ex_names|]. exists [(str "gzip", 0)]. split.
    + pose proof (reading (str "gzip;q=0") (str_ok _)) as H. replace (map elem (words (str ",") (str "gzip;q=0"))) with [(str "gzip", 0)] in H by (vm_compute; reflexivity). exact H.
    + constructor; [|constructor; [|constructor]].
      * apply (q_named _ _ [] (str "gzip") 0 []); [reflexivity|reflexivity|constructor].
      * apply q_absent. constructor; [|constructor]. split; intros H; vm_compute in H; discriminate H.
  - apply (hops_map [OSet (str "content-length") (str "4")] []); [repeat constructor; apply str_ok|split; constructor].
  - vm_compute; repeat constructor.
  - left. vm_compute; reflexivity.
Qed.

(** ** C121-C123 *)
Definition q1 : request := mkQ (set_header (set_header hdrs_new (str "content-encoding") (str "gzip")) (str "Content-Length") (str "4")) [65; 3; 66; 2].
Lemma q1_map : HeaderMap (h_map (q_headers q1)).
Proof. apply (hops_map [OSet (str "content-encoding") (str "gzip"); OSet (str "Content-Length") (str "4")] []); [repeat constructor; apply str_ok|split; constructor]. Qed.
Example ex_request : process 10 make2 options_new q1 r1 = Some (mkQ (set_header hdrs_new (str "Content-Length") (str "5")) [65; 65; 65; 66; 66], r1, true, Continue).
Proof. vm_compute; reflexivity. Qed.
Example ex_request_hyps : first "Content-Encoding" (h_map (q_headers q1)) = str "gzip" /\ Name (str "gzip") /\ q_body q1 <> [] /\ o_decompress options_new = true /\ MAX_BODY_SIZE < N.of_nat (N.to_nat (MAX_BODY_SIZE + 1)).
Proof.
  split; [vm_compute; reflexivity|]. split; [pose proof ex_names as H; inversion H; assumption|]. split; [discriminate|]. split; [reflexivity|]. lia.
Qed.
(** A bomb: the client is told 500 (an unreadable body: 400). *)
Definition bomb : provider := mkP unit tt (fun _ _ _ => Some (tt, repeat 0 (N.to_nat (MAX_BODY_SIZE + 1)), 1, false)).
Definition broken : provider := mkP unit tt (fun _ _ _ => None).
Example ex_bomb : (exists r', process 10 (fun _ => Some bomb) options_new q1 r1 = Some (q1, r', false, Complete) /\ r_status r' = 500) /\
  (exists r', process 10 (fun _ => Some broken) options_new q1 r1 = Some (q1, r', false, Complete) /\ r_status r' = 400) /\
  (exists r', process 10 (fun _ => None) options_new q1 r1 = Some (q1, r', false, Complete) /\ r_status r' = 400).
Proof.
  assert (HU : exists b, uncompress 10 (fun _ => Some bomb) (first "Content-Encoding" (h_map (q_headers q1))) (q_body q1) = Threw false b).
  { unfold uncompress. change (first "Content-Encoding" (h_map (q_headers q1))) with (str "gzip"). pose proof ex_names as HN. inversion HN as [|? ? HN1 _]; subst. rewrite (name_decompressor (fun _ => Some bomb) (str "gzip") HN1).
    change (str "gzip") with [103; 122; 105; 112]. change (q_body q1) with [65; 3; 66; 2]. cbn [p_init bomb uncompress_loop p_call bomb app]. set (big := repeat 0 (N.to_nat (MAX_BODY_SIZE + 1))).
    assert (HL : len big = MAX_BODY_SIZE + 1) by (unfold big, len; rewrite repeat_length; lia). rewrite HL. replace (MAX_BODY_SIZE <? MAX_BODY_SIZE + 1) with true by lia. eauto. }
  assert (Hq : first "Content-Encoding" (h_map (q_headers q1)) <> []) by (vm_compute; discriminate).
  split; [destruct HU as [b HU]|split].
  - destruct (c122_errors (fun _ => Some bomb) options_new q1 r1 10 false b q1_map eq_refl Hq ltac:(discriminate) HU) as (r' & E & S'). eauto.
  - eexists. split; [vm_compute; reflexivity|reflexivity].
  - eexists. split; [vm_compute; reflexivity|reflexivity].
Qed.
Example ex_round_trip : exists q', process 1000 make2 options_new (mkQ (r_headers r1') (r_body r1')) r2 = Some (q', r2, true, Continue) /\ q_body q' = r_body r1.
Proof. eexists. split; [vm_compute; reflexivity|vm_compute; reflexivity]. Qed.
Example ex_round_trip_hyps : (forall x b, In x (o_preferred options_new) -> (fun _ b => unrle b) x ((fun _ b => rle b) x b) = b) /\ sent "Content-Encoding" (h_map (r_headers r1)) = [].
Proof. split; [intros x b _; apply unrle_rle|vm_compute; reflexivity]. Qed.

(** ** What does not hold *)
(** Compressing a body always gives the whole compressed form: a library that reads its input ahead of the output it has room for loses the end. *)
Definition ahead (f : list N -> list N) : provider :=
  mkP (option (list N)) None (fun st input room =>
    let p := match st with Some p => p | None => f input end in
    if len p <=? room then Some (Some [], p, len input, true) else Some (Some (skipn (N.to_nat room) p), firstn (N.to_nat room) p, len input, false)).
Lemma ahead_compressor f : Compressor (p_call (ahead f)) (all_of f).
Proof.
  intros st input room st' o used done E. cbn [p_call ahead] in E. fold (all_of f st input) in E. set (p := all_of f st input) in *. destruct (N.leb_spec (len p) room); injection E as <- <- <- <-.
  - unfold len in *. rewrite app_nil_r. repeat split; auto; try lia; discriminate.
  - unfold len in *. rewrite firstn_length. cbn [all_of]. rewrite firstn_skipn. repeat split; auto; try lia; try discriminate.
Qed.
Definition WholeOutput := forall make coded x body fuel out b, codes make coded -> Name x -> make x <> None -> body <> [] -> compress fuel make x body = Returned out b -> out = coded x body.
Theorem c120_refuted_truncated : ~ WholeOutput.
Proof.
  intros H. assert (HC : codes (fun x => if iequals x (str "gzip") then Some (ahead (fun s => flat_map (fun c => repeat c 40) s)) else None) (fun _ s => flat_map (fun c => repeat c 40) s)).
  { intros x P E. destruct (iequals x (str "gzip")); [|discriminate E]. injection E as <-. exists (all_of (fun s => flat_map (fun c => repeat c 40) s)). split; [apply ahead_compressor|reflexivity]. }
  pose proof ex_names as HN. inversion HN as [|? ? HN1 _]; subst.
  specialize (H _ _ (str "gzip") [7] 5%nat (repeat 7 33) 33 HC HN1 ltac:(discriminate) ltac:(discriminate) ltac:(vm_compute; reflexivity)). apply (f_equal (@length N)) in H. vm_compute in H. discriminate H.
Qed.
(** A compressed body that was cut off is refused; octets after its end are refused. *)
Definition marked : provider :=
  mkP bool false (fun _ input room =>
    let p := before 0 input in let whole := match after 0 input with Some _ => true | None => false end in
    if len p <=? room then Some (true, p, len p + (if whole then 1 else 0), whole) else Some (false, firstn (N.to_nat room) p, room, false)).
Example ex_cut_off : uncompress 10 (fun _ => Some marked) (str "gzip") [1; 2; 3; 0] = Returned [1; 2; 3] 8 /\
  uncompress 10 (fun _ => Some marked) (str "gzip") [1; 2; 3] = Returned [1; 2; 3] 6 /\ uncompress 10 (fun _ => Some marked) (str "gzip") [1; 2; 3; 0; 9; 9; 9] = Returned [1; 2; 3] 14.
Proof. repeat split; vm_compute; reflexivity. Qed.
(** A coding that is not known is refused: next to a known one it is passed over and its label dropped with the other. *)
Definition UnknownRefused := forall fuel make o q r a b rest, make a = None -> ~ Same a (str "identity") -> make b <> None -> header_at (q_headers q) (str "Content-Encoding") 0 [] = a ++ str ", " ++ b -> q_body q <> [] -> o_decompress o = true ->
  process fuel make o q r <> Some (rest, r, o_compress o, Continue).
Theorem c122_refuted_unknown : ~ UnknownRefused.
Proof.
  intros H. refine (H 10%nat make2 options_new (mkQ (set_header hdrs_new (str "Content-Encoding") (str "br, gzip")) [65; 3]) r2 (str "br") (str "gzip") _ eq_refl _ _ _ _ eq_refl _).
  - intros E; vm_compute in E; discriminate E.
  - vm_compute; discriminate.
  - vm_compute; reflexivity.
  - discriminate.
  - vm_compute; reflexivity.
Qed.
