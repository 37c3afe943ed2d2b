(** Properties of the static file middleware (C70-C76): every file system without concurrent changes (finite or
    not, with any links), every request, every configuration. *)
From Verif Require Import Base UtilModel UtilSpec UtilProofs StaticModel StaticSpec StaticFs StaticProofs.
Open Scope N_scope.

(** C70: a Range header is honoured exactly if it is one well-formed byte range selecting something; the octets
    taken are those selected. *)
Theorem static_range_exact : forall header total, bytes_ok header ->
  (forall off len, parse_byte_range header total = Some (off, len) ->
     (0 <= off /\ 0 < len /\ off + len <= total)%Z /\
     exists r, RangeHeader header r /\ forall i, (off <= i < off + len)%Z <-> Selected total r i) /\
  (parse_byte_range header total = None -> forall r, RangeHeader header r -> forall i, ~ Selected total r i).
Proof. exact range_exact. Qed.
Print Assumptions static_range_exact.

Example ex_range :
  parse_byte_range (str "bytes=10-999") 100 = Some (10, 90)%Z /\ parse_byte_range (str "bytes=-30") 100 = Some (70, 30)%Z /\
  parse_byte_range (str "bytes=99-") 100 = Some (99, 1)%Z /\ parse_byte_range (str "bytes=100-") 100 = None /\
  parse_byte_range (str "bytes=0-1,3-4") 100 = None /\ parse_byte_range (str "bytes=0-9223372036854775808") 100 = None.
Proof. repeat split; vm_compute; reflexivity. Qed.

(** C71: If-None-Match matches exactly if it is or lists "*" or a tag equal to the current one but for weakness. *)
Theorem static_if_none_match : forall header tag, trim_http_whitespace tag <> [] ->
  exists b, if_none_match_contains header tag = Some b /\
  (b = true <-> exists e, Element (trim_http_whitespace header) e /\
     (trim_http_whitespace e = str "*" \/ WeakMatch (trim_http_whitespace e) (trim_http_whitespace tag))).
Proof. exact inm_spec. Qed.
Print Assumptions static_if_none_match.

Example ex_inm :
  if_none_match_contains (str "W/""x"", ""10-5"" ") (str """10-5""") = Some true /\
  if_none_match_contains (str "W/""10-5""") (str """10-5""") = Some true /\
  if_none_match_contains (str """10-55""") (str """10-5""") = Some false.
Proof. repeat split; vm_compute; reflexivity. Qed.

(** C72: whatever the request, the file whose content is sent is a real file under the root directory, except
    through an index file that is a symbolic link. *)
Theorem static_contained : forall fs o listing q s1 s2 out target,
  wf_fs fs -> RealDir fs (root o) -> (index_name o = [] \/ name_ok (index_name o)) ->
  process fs o listing q s1 s2 = Some (out, Some target) ->
  exists r content mtime, stat fs target = Found r /\ fs r = Some (File content mtime) /\
    serve_file o q content mtime s1 s2 = Some out /\
    (Under (root o) r \/
     exists dir, Under (root o) dir /\ RealDir fs dir /\ target = dir ++ [index_name o] /\
       exists ab t, fs (dir ++ [index_name o]) = Some (Link ab t)).
Proof.
  intros fs o listing q s1 s2 out target Hw Hr Hi H.
  destruct (process_served fs o listing q s1 s2 out target Hw Hr H)
    as [_ [t [d [r [c [m [Rt [Ut [_ [_ [_ [H1 [H2 [H3 H4]]]]]]]]]]]]]].
  exists r, c, m. repeat (split; [assumption|]). destruct H4 as [->|[Rd [_ [Hne ->]]]].
  - left. rewrite (real_stat fs t Hw Rt) in H1. injection H1 as <-. exact Ut.
  - destruct Hi as [Hi|Hi]; [congruence|]. rewrite (elements_name _ Hi) in *.
    destruct (fs (t ++ [index_name o])) as [n|] eqn:F.
    + destruct n as [|c' m'| |ab tg].
      * left. pose proof (realdir_snoc fs t _ Rd F) as Rx. rewrite (real_stat fs _ Hw (proj1 Rx)) in H1. injection H1 as <-.
        destruct Ut as [s ->]. exists (s ++ [index_name o]). now rewrite <- app_assoc.
      * left. assert (Real fs (t ++ [index_name o])) as Rx by (apply (real_snoc fs t _ _ Rd F); discriminate).
        rewrite (real_stat fs _ Hw Rx) in H1. injection H1 as <-. destruct Ut as [s ->]. exists (s ++ [index_name o]). now rewrite <- app_assoc.
      * left. assert (Real fs (t ++ [index_name o])) as Rx by (apply (real_snoc fs t _ _ Rd F); discriminate).
        rewrite (real_stat fs _ Hw Rx) in H1. injection H1 as <-. destruct Ut as [s ->]. exists (s ++ [index_name o]). now rewrite <- app_assoc.
      * right. exists t. repeat (split; [assumption|]). split; [reflexivity|]. now exists ab, tg.
    + exfalso. unfold stat in H1. rewrite (resolve_real_app fs MAX_LINKS Hw t []) in H1; [|apply Rt|right; apply Rd].
      cbn [app] in H1. rewrite resolve_cons in H1. destruct (plain_beq _ (name_plain _ Hi)) as [E1 E2]. rewrite E1, E2, F in H1. discriminate.
Qed.
Print Assumptions static_contained.

(** Concrete file systems. *)
Fixpoint fs_of (l : list (list name * node)) (p : list name) : option node :=
  match l with [] => None | (k, n) :: r => if list_eq_dec (list_eq_dec N.eq_dec) k p then Some n else fs_of r p end.

Lemma fs_of_wf l : Forall (fun kn => exists p x, fst kn = p ++ [x] /\ name_ok x) l -> wf_fs (fs_of l).
Proof.
  intros H p x n. induction H as [|[k m] r [p' [x' [E Hx]]] H IH]; cbn [fs_of]; [discriminate|].
  destruct (list_eq_dec _ _ _) as [->|_]; [|exact IH]. intros _. cbn [fst] in E. apply app_inj_tail in E. destruct E as [_ ->]. exact Hx.
Qed.

Definition S_ (s : string) : name := str s.
Definition ex_fs : fsys := fs_of
  [([S_ "srv"], Dir); ([S_ "srv"; S_ "a.txt"], File (str "hello world") 5000000000);
   ([S_ "srv"; S_ "evil"], Link true [S_ "etc"]);
   ([S_ "srv"; S_ "ln"], Link false [S_ "a.txt"]);
   ([S_ "srv"; S_ "sub"], Dir); ([S_ "srv"; S_ "sub"; S_ "index.html"], Link true [S_ "etc"; S_ "passwd"]);
   ([S_ "srvx"], File (str "outside") 0);
   ([S_ "etc"], Dir); ([S_ "etc"; S_ "passwd"], File (str "root:x:0") 0)].

Lemma ex_fs_wf : wf_fs ex_fs.
Proof.
  assert (forall s, (negb (existsb (fun c => c =? 47) (S_ s)) && negb (beq (S_ s) []) && negb (beq (S_ s) DOT) && negb (beq (S_ s) DOTDOT)) = true -> name_ok (S_ s)) as K.
  { intros s H. rewrite !andb_true_iff, !negb_true_iff in H. destruct H as [[[H1 H2] H3] H4]. refine (conj _ (conj _ (conj _ _)));
      try (now apply beq_neq). intros I. assert (existsb (fun c => c =? 47) (S_ s) = true); [|congruence]. apply existsb_exists. now exists 47. }
  apply fs_of_wf. repeat apply Forall_cons; try apply Forall_nil; cbn [fst].
  - exists [], (S_ "srv"). split; [reflexivity|]. now apply K.
  - exists [S_ "srv"], (S_ "a.txt"). split; [reflexivity|]. now apply K.
  - exists [S_ "srv"], (S_ "evil"). split; [reflexivity|]. now apply K.
  - exists [S_ "srv"], (S_ "ln"). split; [reflexivity|]. now apply K.
  - exists [S_ "srv"], (S_ "sub"). split; [reflexivity|]. now apply K.
  - exists [S_ "srv"; S_ "sub"], (S_ "index.html"). split; [reflexivity|]. now apply K.
  - exists [], (S_ "srvx"). split; [reflexivity|]. now apply K.
  - exists [], (S_ "etc"). split; [reflexivity|]. now apply K.
  - exists [S_ "etc"], (S_ "passwd"). split; [reflexivity|]. now apply K.
Qed.

Lemma ex_root_real : RealDir ex_fs [S_ "srv"].
Proof. apply (realdir_snoc ex_fs []); [apply realdir_nil|vm_compute; reflexivity]. Qed.

Definition ex_options (links : bool) : options :=
  mkOptions [S_ "srv"] true (str "index.html") (str "/static") true true true false 0 links.
Definition get (p : string) : request := mkRequest false (str p) [] None [].
Definition result (o : options) (q : request) : option (N * list N) :=
  match process ex_fs o (fun _ => []) q 0 0 with Some (Answer r, _) => Some (status r, body r) | _ => None end.

Example ex_static :
  result (ex_options false) (get "/static/a.txt") = Some (200, str "hello world") /\
  result (ex_options false) (get "/static/%2e%2e/srvx") = Some (403, []) /\
  result (ex_options false) (get "/static/evil/passwd") = Some (403, []) /\
  result (ex_options false) (get "/static/ln") = Some (200, str "hello world") /\
  result (ex_options true) (get "/static/ln") = Some (403, []) /\
  result (ex_options false) (get "/static/none") = Some (404, []) /\
  result (ex_options false) (mkRequest false (str "/static/a.txt") [] None (str "bytes=6-")) = Some (206, str "world").
Proof. repeat split; vm_compute; reflexivity. Qed.

(** The exception is real: an index file that is a link is followed out of the root, even with links refused. *)
Theorem static_contained_refuted :
  exists fs o q out target r, wf_fs fs /\ RealDir fs (root o) /\ name_ok (index_name o) /\ reject_symlinks o = true /\
    process fs o (fun _ => []) q 0 0 = Some (Answer out, Some target) /\ status out = 200 /\
    stat fs target = Found r /\ ~ Under (root o) r /\ body out = str "root:x:0".
Proof.
  exists ex_fs, (ex_options true), (get "/static/sub/"). eexists. eexists. exists [S_ "etc"; S_ "passwd"].
  refine (conj ex_fs_wf (conj ex_root_real (conj _ (conj eq_refl (conj _ (conj _ (conj _ (conj _ _)))))))).
  - repeat split; try discriminate. vm_compute. intuition discriminate.
  - vm_compute. reflexivity.
  - reflexivity.
  - vm_compute. reflexivity.
  - intros [s H]. vm_compute in H. discriminate.
  - reflexivity.
Qed.
Print Assumptions static_contained_refuted.

(** C73: with links refused, and no ".." in the request path, the file sent is the one literally named by the path
    (or its index file): no link was followed. *)
Theorem static_no_links : forall fs o listing q s1 s2 out target d,
  wf_fs fs -> RealDir fs (root o) -> reject_symlinks o = true ->
  decode_path_component (skipn (length (prefix_to_strip o)) (path q)) = Some d ->
  ~ In DOTDOT (elements (drop_slashes d)) ->
  process fs o listing q s1 s2 = Some (out, Some target) ->
  let named := root o ++ filter (fun x => negb (beq x [] || beq x DOT)) (elements (drop_slashes d)) in
  Real fs named /\ (target = named \/ serve_index o = true /\ target = named ++ elements (index_name o)).
Proof.
  intros fs o listing q s1 s2 out target d Hw Hr Hl Hd Hu H. cbv zeta.
  destruct (process_served fs o listing q s1 s2 out target Hw Hr H)
    as [_ [t [d' [r [c [m [Rt [Ut [D [St [HW [H1 [H2 [H3 H4]]]]]]]]]]]]]].
  rewrite Hd in D. injection D as <-.
  pose proof (walk_exact fs (root o) (drop_slashes d) t Hw Hr Hu (HW Hl) St) as E. unfold keep in E. rewrite <- E.
  split; [exact Rt|]. destruct H4 as [->|[_ [Hs [_ ->]]]]; [now left|now right].
Qed.
Print Assumptions static_no_links.

(** Without the hypothesis on ".." it is false: a path through a name that does not exist hides the link from the
    check, but not from the lexical normalisation. *)
Theorem static_no_links_refuted :
  exists fs o q out target r, wf_fs fs /\ RealDir fs (root o) /\ reject_symlinks o = true /\
    process fs o (fun _ => []) q 0 0 = Some (Answer out, Some target) /\ status out = 200 /\
    path q = str "/static/none/../ln" /\ fs (root o ++ [str "ln"]) = Some (Link false [r]) /\ target = root o ++ [r].
Proof.
  exists ex_fs, (ex_options true), (get "/static/none/../ln"). eexists. eexists. exists (S_ "a.txt").
  refine (conj ex_fs_wf (conj ex_root_real (conj eq_refl (conj _ (conj _ (conj eq_refl (conj _ _))))))); vm_compute; reflexivity.
Qed.
Print Assumptions static_no_links_refuted.

(** C74: the response to a request for a file: complete, exactly the selected part, or none of it. *)
Theorem static_response : forall o q content mtime s1 s2, bytes_ok (range q) ->
  let size := Z.of_nat (length content) in
  exists r, serve_file o q content mtime s1 s2 = Some (Answer r) /\
  ( status r = 304 /\ body r = [] /\ content_length r = None /\ content_range r = None
  \/ status r = 413 /\ body r = [] /\ max_file_size o <> 0 /\ max_file_size o < N.of_nat (length content)
  \/ status r = 200 /\ content_length r = Some size /\ content_range r = None /\ body r = (if head q then [] else content)
     /\ (max_file_size o = 0 \/ N.of_nat (length content) <= max_file_size o)
     /\ (ranges o = true -> head q = false -> range q = [])
  \/ status r = 206 /\ ranges o = true /\ head q = false /\ (max_file_size o = 0 \/ N.of_nat (length content) <= max_file_size o)
     /\ (exists spec pre post, RangeHeader (range q) spec /\ content = pre ++ body r ++ post /\ body r <> []
         /\ let a := Z.of_nat (length pre) in let n := Z.of_nat (length (body r)) in
            content_length r = Some n /\ content_range r = Some (Some (a, a + n - 1)%Z, size)
            /\ forall i, (a <= i < a + n)%Z <-> Selected size spec i)
  \/ status r = 416 /\ ranges o = true /\ head q = false /\ body r = [] /\ content_range r = Some (None, size) /\ range q <> []
     /\ forall spec, RangeHeader (range q) spec -> forall i, ~ Selected size spec i).
Proof.
  intros o q content mtime s1 s2 Hb. cbv zeta. unfold serve_file.
  set (size := Z.of_nat (length content)). set (tag := make_etag _ _). cbv zeta.
  assert (exists b, (if etags o then match inm q with [] => Some false | n :: l => if_none_match_contains (n :: l) tag end else Some false) = Some b) as [b Eb].
  { destruct (etags o); [|now exists false]. destruct (inm q) as [|x l]; [now exists false|].
    destruct (inm_spec (x :: l) tag) as [b [H _]]; [unfold tag; rewrite make_etag_trim; discriminate|]. now exists b. }
  rewrite Eb. destruct b; [eexists; split; [reflexivity|]; left; repeat split|].
  destruct (last_modified o && _); [eexists; split; [reflexivity|]; left; repeat split|].
  destruct (negb (max_file_size o =? 0) && (max_file_size o <? N.of_nat (length content))) eqn:M.
  { eexists. split; [reflexivity|]. right. left. apply andb_true_iff in M. destruct M as [M1 M2].
    apply negb_true_iff, N.eqb_neq in M1. apply N.ltb_lt in M2. repeat split; assumption. }
  assert (max_file_size o = 0 \/ N.of_nat (length content) <= max_file_size o) as HM.
  { apply andb_false_iff in M. destruct M as [M|M]; [left; apply negb_false_iff, N.eqb_eq in M; exact M|right; apply N.ltb_ge in M; exact M]. }
  destruct (ranges o && negb (head q)) eqn:R.
  2:{ eexists. split; [reflexivity|]. right. right. left. repeat split; auto. intros R1 R2. rewrite R1, R2 in R. discriminate. }
  apply andb_true_iff in R. destruct R as [R1 R2]. apply negb_true_iff in R2.
  destruct (range q) as [|x h] eqn:Q.
  { eexists. split; [reflexivity|]. right. right. left. repeat split; auto. }
  destruct (range_exact (x :: h) size Hb) as [X1 X2].
  destruct (parse_byte_range (x :: h) size) as [[off len]|] eqn:P.
  - destruct (X1 off len eq_refl) as [[B1 [B2 B3]] [spec [B4 B5]]].
    replace (negb (max_file_size o =? 0) && (Z.of_N (max_file_size o) <? len)%Z) with false.
    2:{ symmetry. destruct HM as [-> |HM]; [reflexivity|]. apply andb_false_iff. right. apply Z.ltb_ge. unfold size in B3. lia. }
    eexists. split; [reflexivity|]. right. right. right. left. repeat (split; [auto; fail|]).
    destruct (slice_spec content off len B1 B2 B3) as [pre [post [C1 [C2 C3]]]].
    exists spec, pre, post. cbn [body content_length content_range]. rewrite C2, C3. split; [exact B4|]. split; [exact C1|].
    split; [intros E; rewrite E in C3; cbn in C3; lia|]. repeat (split; [reflexivity|]). exact B5.
  - eexists. split; [reflexivity|]. do 4 right. repeat split; auto. discriminate.
Qed.
Print Assumptions static_response.

(** HEAD gives the header GET would give without a Range, and no body. *)
Theorem static_head : forall o q content mtime s1 s2 r,
  serve_file o (mkRequest false (path q) (inm q) (ims q) []) content mtime s1 s2 = Some (Answer r) ->
  serve_file o (mkRequest true (path q) (inm q) (ims q) (range q)) content mtime s1 s2 =
    Some (Answer (mkResponse (status r) [] (content_length r) (content_range r) (etag r) (modified r) (accept_ranges r) (text r))).
Proof.
  intros o q content mtime s1 s2 r. unfold serve_file. cbn [inm ims range head]. cbv zeta.
  destruct (if etags o then _ else _) as [[|]|]; [| |discriminate].
  - intros [= <-]. reflexivity.
  - destruct (last_modified o && _); [intros [= <-]; reflexivity|].
    destruct (negb _ && _); [unfold error; intros [= <-]; reflexivity|].
    rewrite andb_false_r. destruct (ranges o); cbn [andb negb]; intros [= <-]; reflexivity.
Qed.
Print Assumptions static_head.

(** C75: when 304 is given. *)
Definition tag_of (content : list N) (mtime skew : Z) : list N :=
  make_etag (Z.of_nat (length content)) (Z.quot (mtime + skew) 1000000000).
Definition TagMatch (h tag : list N) : Prop :=
  exists e, Element (trim_http_whitespace h) e /\ (trim_http_whitespace e = str "*" \/ WeakMatch (trim_http_whitespace e) tag).

Theorem static_conditional : forall o q content mtime s1 s2 r,
  serve_file o q content mtime s1 s2 = Some (Answer r) ->
  (status r = 304 <->
     etags o = true /\ inm q <> [] /\ TagMatch (inm q) (tag_of content mtime s1)
     \/ last_modified o = true /\ exists t, ims q = Some t /\ (Z.quot (mtime + s2) 1000000000 <= Z.quot t 1000000000)%Z).
Proof.
  intros o q content mtime s1 s2 r H. unfold serve_file in H. fold (tag_of content mtime s1) in H.
  set (size := Z.of_nat (length content)) in H. set (tag := tag_of _ _ _) in *. cbv zeta in H.
  assert (exists b, (if etags o then match inm q with [] => Some false | n :: l => if_none_match_contains (n :: l) tag end else Some false) = Some b
    /\ (b = true <-> etags o = true /\ inm q <> [] /\ TagMatch (inm q) tag)) as [b [Eb Hb]].
  { destruct (etags o); [|exists false; split; [reflexivity|]; split; [discriminate|intros [H0 _]; discriminate]].
    destruct (inm q) as [|x l]; [exists false; split; [reflexivity|]; split; [discriminate|intros [_ [H0 _]]; congruence]|].
    destruct (inm_spec (x :: l) tag) as [b [H1 H2]]; [unfold tag, tag_of; rewrite make_etag_trim; discriminate|].
    exists b. split; [exact H1|]. rewrite H2. unfold TagMatch.
    replace (trim_http_whitespace tag) with tag by (unfold tag, tag_of; now rewrite make_etag_trim).
    split; [intros HH; repeat split; [discriminate|exact HH]|intros [_ [_ HH]]; exact HH]. }
  rewrite Eb in H. destruct b.
  { injection H as <-. cbn [status]. split; [|reflexivity]. intros _. left. now apply Hb. }
  assert (~ (etags o = true /\ inm q <> [] /\ TagMatch (inm q) tag)) as Hn by (intros HH; apply Hb in HH; discriminate).
  assert ((last_modified o && match ims q with Some t => (Z.quot (mtime + s2) 1000000000 <=? Z.quot t 1000000000)%Z | None => false end) = true <->
     last_modified o = true /\ exists t, ims q = Some t /\ (Z.quot (mtime + s2) 1000000000 <= Z.quot t 1000000000)%Z) as Hi.
  { rewrite andb_true_iff. destruct (ims q) as [t|].
    - rewrite Z.leb_le. split; [intros [H1 H2]; split; [exact H1|now exists t]|intros [H1 [t' [[= <-] H2]]]; now split].
    - split; [intros [_ H0]; discriminate|intros [_ [t [H0 _]]]; discriminate]. }
  destruct (last_modified o && _) eqn:L.
  { injection H as <-. cbn [status]. split; [|reflexivity]. intros _. right. now apply Hi. }
  assert (status r <> 304) as Hs.
  { destruct (negb _ && _); [unfold error in H; injection H as <-; discriminate|].
    destruct (ranges o && negb (head q)); [|injection H as <-; discriminate].
    destruct (range q); [injection H as <-; discriminate|].
    destruct (parse_byte_range _ _) as [[off len]|]; [|injection H as <-; discriminate].
    destruct (negb _ && _); unfold error in H; injection H as <-; discriminate. }
  split; [congruence|]. intros [HH|HH]; [tauto|]. apply Hi in HH. discriminate.
Qed.
Print Assumptions static_conditional.

(** RFC 9110, 13.1.3 (a recipient MUST ignore If-Modified-Since if the request has If-None-Match) is violated: the
    tag differs, yet 304 is given. *)
Theorem static_precedence_refuted :
  exists o q content mtime r, etags o = true /\ inm q <> [] /\ ~ TagMatch (inm q) (tag_of content mtime 0) /\
    serve_file o q content mtime 0 0 = Some (Answer r) /\ status r = 304.
Proof.
  exists (ex_options false), (mkRequest false (str "/a") (str """3-5""") (Some 5000000000%Z) []), (str "hello"), 5000000000%Z. eexists.
  split; [reflexivity|]. split; [discriminate|]. split; [|split; vm_compute; reflexivity].
  destruct (inm_spec (str """3-5""") (tag_of (str "hello") 5000000000 0)) as [b [H1 H2]]; [vm_compute; discriminate|].
  vm_compute in H1. injection H1 as <-. intros HT. assert (false = true); [|discriminate]. apply H2. exact HT.
Qed.
Print Assumptions static_precedence_refuted.

(** C76: the prefix is stripped at a boundary of path segments only; other paths are left to the next handler. *)
Theorem static_prefix : forall fs o listing q s1 s2,
  (process fs o listing q s1 s2 = Some (NextHandler, None) <->
   ~ (prefix_to_strip o = [] \/ path q = prefix_to_strip o \/
      exists rest, path q = prefix_to_strip o ++ rest /\
        ((exists p, prefix_to_strip o = p ++ [47]) \/ exists rest', rest = 47 :: rest'))).
Proof.
  intros fs o listing q s1 s2.
  assert (path_prefix_matches (path q) (prefix_to_strip o) = true <->
     (prefix_to_strip o = [] \/ path q = prefix_to_strip o \/
      exists rest, path q = prefix_to_strip o ++ rest /\
        ((exists p, prefix_to_strip o = p ++ [47]) \/ exists rest', rest = 47 :: rest'))) as K.
  { unfold path_prefix_matches. destruct (prefix_to_strip o) as [|x p] eqn:E; [split; [now left|reflexivity]|].
    rewrite andb_true_iff, is_prefix_spec. set (P := x :: p). split.
    - intros [[rest E1] H]. right. rewrite E1, skipn_length_app in H. destruct rest as [|c rest].
      + left. now rewrite app_nil_r in E1.
      + right. exists (c :: rest). split; [exact E1|]. apply orb_true_iff in H. destruct H as [H|H]; apply N.eqb_eq in H.
        * left. exists (removelast P). rewrite <- H. apply app_removelast_last. discriminate.
        * right. exists rest. now rewrite H.
    - intros [H|[H|[rest [H1 H2]]]]; [discriminate| |].
      + rewrite H. split; [exists []; now rewrite app_nil_r|]. rewrite skipn_all. reflexivity.
      + rewrite H1, skipn_length_app. split; [now exists rest|]. destruct rest as [|c rest]; [reflexivity|].
        apply orb_true_iff. destruct H2 as [[p' H2]|[rest' H2]].
        * left. rewrite H2, last_last. reflexivity.
        * right. injection H2 as -> _. reflexivity. }
  rewrite <- K. unfold process. destruct (path_prefix_matches _ _); cbn [negb].
  - split; [|congruence]. intros H. exfalso. cbv zeta in H.
    destruct (sanitize_and_resolve_path _ _ _) as [t|]; [|discriminate]. destruct (reject_symlinks o && _); [discriminate|].
    assert (forall p, match stat fs p with
     | Found r0 => match fs r0 with
       | Some (File content mtime) => option_map (fun x => (x, Some p)) (serve_file o q content mtime s1 s2)
       | _ => Some (error 404 None None false, None) end
     | _ => Some (error 404 None None false, None) end <> Some (NextHandler, None)) as KK.
    { intros p Hp. destruct (stat fs p) as [r| |]; try discriminate. destruct (fs r) as [[|c m| |ab tg]|]; try discriminate.
      destruct (serve_file _ _ _ _ _ _); discriminate. }
    destruct (stat fs t) as [r| |] eqn:St; try discriminate.
    destruct (match r with [] => true | _ => _ end).
    + destruct (serve_index o && negb _ && _); [now apply KK in H|]. destruct (listing_on o); discriminate.
    + specialize (KK t). rewrite St in KK. now apply KK.
  - split; [discriminate|reflexivity].
Qed.
Print Assumptions static_prefix.
