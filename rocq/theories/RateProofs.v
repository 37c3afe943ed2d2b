(** Invariants of the rate limiter. *)
From Verif Require Import Base RateModel RateSpec.
Open Scope N_scope.

(** * The map *)

Lemma find_put_same id d l : find id (put id d l) = Some d.
Proof.
  induction l as [|[k e] r IH]; cbn [put find]; [now rewrite beq_refl|].
  destruct (beq k id) eqn:E; cbn [find]; rewrite E; auto.
Qed.

Lemma find_put_other id id' d l : id <> id' -> find id (put id' d l) = find id l.
Proof.
  intros Hn. induction l as [|[k e] r IH]; cbn [put find].
  - destruct (beq id' id) eqn:E; [|reflexivity]. apply beq_eq in E. congruence.
  - destruct (beq k id') eqn:E; cbn [find]; [|rewrite IH; reflexivity].
    apply beq_eq in E. subst k. destruct (beq id' id) eqn:E2; [|reflexivity]. apply beq_eq in E2. congruence.
Qed.

Lemma put_keys id d l : map fst (put id d l) = map fst l ++ (match find id l with Some _ => [] | None => [id] end).
Proof.
  induction l as [|[k e] r IH]; cbn [put find map fst app]; [reflexivity|].
  destruct (beq k id) eqn:E; cbn [map fst]; [now rewrite app_nil_r|]. now rewrite IH.
Qed.

Lemma find_none id l : find id l = None <-> ~ In id (map fst l).
Proof.
  induction l as [|[k e] r IH]; cbn [find map fst In]; [tauto|].
  destruct (beq k id) eqn:E.
  - apply beq_eq in E. subst. split; [discriminate|intros H; exfalso; apply H; now left].
  - apply beq_neq in E. rewrite IH. tauto.
Qed.

Lemma find_in id d l : NoDup (map fst l) -> (find id l = Some d <-> In (id, d) l).
Proof.
  induction l as [|[k e] r IH]; cbn [find map fst In]; intros ND; [split; [discriminate|tauto]|].
  apply NoDup_cons_iff in ND. destruct ND as [Hk ND]. destruct (beq k id) eqn:E.
  - apply beq_eq in E. subst k. split.
    + intros [= ->]. now left.
    + intros [[= ->]|H]; [reflexivity|]. exfalso. apply Hk. now apply (in_map fst) in H.
  - apply beq_neq in E. rewrite (IH ND). split; [tauto|]. intros [[= -> ->]|H]; [congruence|exact H].
Qed.

Lemma keys_filter (f : list N * client_data -> bool) l : NoDup (map fst l) -> NoDup (map fst (filter f l)).
Proof.
  induction l as [|x r IH]; cbn [filter map]; intros ND; [constructor|].
  apply NoDup_cons_iff in ND. destruct ND as [Hk ND]. destruct (f x); cbn [map]; [|auto].
  constructor; [|auto]. intros H. apply Hk. apply in_map_iff in H. destruct H as [y [<- H]].
  apply filter_In in H. now apply in_map.
Qed.

Lemma find_filter f id l : NoDup (map fst l) ->
  find id (filter f l) = match find id l with Some d => if f (id, d) then Some d else None | None => None end.
Proof.
  intros ND. destruct (find id l) as [d|] eqn:E.
  - apply (find_in id d l ND) in E. destruct (f (id, d)) eqn:F.
    + apply find_in; [now apply keys_filter|]. now apply filter_In.
    + apply find_none. intros H. apply in_map_iff in H. destruct H as [[k e] [H1 H2]]. cbn in H1. subst k.
      apply filter_In in H2. destruct H2 as [H2 H3].
      apply (find_in id e l ND) in H2. apply (find_in id d l ND) in E. congruence.
  - apply find_none. apply find_none in E. intros H. apply E. apply in_map_iff in H. destruct H as [y [<- H]].
    apply filter_In in H. now apply in_map.
Qed.

Lemma filter_length_le {A} (f : A -> bool) l : (length (filter f l) <= length l)%nat.
Proof. induction l as [|x r IH]; cbn; [lia|]. destruct (f x); cbn; lia. Qed.

(** * The clock *)

Lemma elapsed_pos window d : (0 < window)%Z -> elapsed window d = true -> (window <= d)%Z.
Proof.
  unfold elapsed. intros Hw H. apply Z.leb_le in H.
  destruct (Z.le_gt_cases 0 d) as [Hd|Hd].
  - rewrite Z.quot_div_nonneg in H by lia. pose proof (Z.mul_div_le d 1000000). lia.
  - assert (Z.quot d 1000000 <= 0)%Z; [|lia].
    replace d with (- (- d))%Z by lia. rewrite Z.quot_opp_l by lia.
    pose proof (Z.quot_pos (- d) 1000000). lia.
Qed.

Lemma elapsed_not window d m : (m <= d)%Z -> elapsed window d = false -> (0 < window)%Z ->
  (m / 1000000 * 1000000 < window)%Z.
Proof.
  unfold elapsed. intros Hm H Hw. apply Z.leb_gt in H.
  destruct (Z.le_gt_cases 0 m) as [Hd|Hd].
  - rewrite Z.quot_div_nonneg in H by lia. pose proof (Z.div_le_mono m d 1000000). lia.
  - pose proof (Z.div_lt_upper_bound m 1000000 0). lia.
Qed.

(** * Well-formed maps and their size *)

Definition Small (st : state) : Prop :=
  NoDup (map fst (clients st)) /\ N.of_nat (length (clients st)) <= MAX_TRACKED_CLIENTS.

Lemma small_filter f st : Small st -> Small (mkState (filter f (clients st)) (next_cleanup st)).
Proof.
  intros [H1 H2]. split; cbn [clients]; [now apply keys_filter|].
  pose proof (filter_length_le f (clients st)). lia.
Qed.

(** The state after the opportunistic sweep of [process]. *)
Definition swept (window : Z) (st : state) (now : Z) : state :=
  if (next_cleanup st <=? now)%Z || (MAX_TRACKED_CLIENTS * 9 <=? N.of_nat (length (clients st)) * 10)
  then mkState (evict window now (clients st)) (now + CLEANUP_INTERVAL) else st.

Lemma small_swept window st now : Small st -> Small (swept window st now).
Proof.
  intros H. unfold swept. destruct (_ || _); [|exact H].
  apply (small_filter (fun kd => negb (elapsed window (now - snd (snd kd))))) in H. exact H.
Qed.

(** What [process] does to the entry of the requesting client, once it gets one. *)
Definition served (max : N) (window : Z) (e : client_data) (now : Z) : client_data * outcome :=
  let '(count, reset) := if elapsed window (now - snd e) then (0, now) else e in
  if max <=? count then ((count, reset), Limited (if count <? max then max - count else 0))
  else ((count + 1, reset), Admitted (if count + 1 <? max then max - (count + 1) else 0)).

Lemma process_cases max window st id now created :
  (MAX_CLIENT_ID_LENGTH < N.of_nat (length id) /\ process max window st id now created = (st, BadId)) \/
  (N.of_nat (length id) <= MAX_CLIENT_ID_LENGTH /\ MAX_TRACKED_CLIENTS <= N.of_nat (length (clients (swept window st now)))
   /\ find id (clients (swept window st now)) = None
   /\ process max window st id now created = (swept window st now, Capacity)) \/
  (exists e, (find id (clients (swept window st now)) = Some e \/
              find id (clients (swept window st now)) = None /\ e = (0, created) /\
              N.of_nat (length (clients (swept window st now))) < MAX_TRACKED_CLIENTS) /\
     process max window st id now created =
       (mkState (put id (fst (served max window e now)) (clients (swept window st now))) (next_cleanup (swept window st now)),
        snd (served max window e now))).
Proof.
  unfold process. destruct (MAX_CLIENT_ID_LENGTH <? N.of_nat (length id)) eqn:L.
  { left. apply N.ltb_lt in L. now split. }
  apply N.ltb_ge in L. right. cbv zeta. fold (swept window st now).
  set (st1 := swept window st now).
  destruct (find id (clients st1)) as [[n s]|] eqn:F.
  - right. exists (n, s). split; [now left|]. rewrite andb_false_r. unfold served. cbn [snd].
    destruct (elapsed window (now - s)); destruct (max <=? _); reflexivity.
  - rewrite andb_true_r. destruct (MAX_TRACKED_CLIENTS <=? N.of_nat (length (clients st1))) eqn:M.
    + left. apply N.leb_le in M. now repeat split.
    + right. exists (0, created). apply N.leb_gt in M. split; [right; now repeat split|]. unfold served. cbn [snd].
      destruct (elapsed window (now - created)); destruct (max <=? _); reflexivity.
Qed.

Lemma small_put id d st c :
  Small st -> (find id (clients st) <> None \/ N.of_nat (length (clients st)) < MAX_TRACKED_CLIENTS) ->
  Small (mkState (put id d (clients st)) c).
Proof.
  intros [H1 H2] H. unfold Small. cbn [clients].
  rewrite <- (map_length fst (put _ _ _)), put_keys, app_length, map_length.
  destruct (find id (clients st)) as [e|] eqn:F.
  - rewrite app_nil_r. cbn [length]. split; [exact H1|lia].
  - destruct H as [H|H]; [congruence|]. cbn [length]. split; [|lia].
    apply NoDup_Add with (a := id) (l := map fst (clients st)).
    + rewrite <- (app_nil_r (map fst (clients st))) at 1. apply Add_app.
    + split; [exact H1|]. now apply find_none.
Qed.

Lemma small_step max window st o : Small st -> Small (fst (step max window st o)).
Proof.
  intros H. destruct o as [id now created| |id|now]; cbn [step].
  - destruct (process_cases max window st id now created) as [[_ ->]|[[_ [_ [_ ->]]]|[e [He ->]]]]; cbn [fst].
    + exact H.
    + now apply small_swept.
    + apply small_put; [now apply small_swept|]. destruct He as [->|[_ [_ He]]]; [left; discriminate|now right].
  - split; cbn; [constructor|lia].
  - now apply small_filter.
  - now apply small_filter.
Qed.

(** * Histories *)

Lemma of_client_app id h k : of_client id (h ++ k) = of_client id h ++ of_client id k.
Proof. apply filter_app. Qed.

Lemma within_app window t l k : within window t (l ++ k) = (within window t l + within window t k)%nat.
Proof. unfold within. now rewrite filter_app, app_length. Qed.

Lemma within_le window t l : (within window t l <= length l)%nat.
Proof. apply filter_length_le. Qed.

Lemma within_old window t l b : Forall (fun a => (at_ a + window <= b)%Z) l -> (b < t + window)%Z ->
  within window t l = 0%nat.
Proof.
  intros H Hb. unfold within. induction H as [|a r Ha H IH]; [reflexivity|]. cbn [filter].
  replace (t <=? at_ a)%Z with false by lia. exact IH.
Qed.

(** * Requests of one client: the current window, the one before, and older ones *)

Record Track (max : N) (window T : Z) (e : option client_data) (l : list answer) : Prop := {
  tr_past : Forall (fun a => (at_ a <= T)%Z) l;
  tr_split : exists old prev cur, l = old ++ prev ++ cur
    /\ N.of_nat (length prev) <= max
    /\ Forall (fun a => (at_ a + window <= T)%Z) old
    /\ match e with
       | Some (n, s) => N.of_nat (length cur) = n /\ n <= max /\ Forall (fun a => (at_ a <= s)%Z) prev
       | None => cur = []
       end;
  tr_bound : forall t, N.of_nat (within window t l) <= 2 * max }.

Lemma track_later max window T T' e l : (T <= T')%Z -> Track max window T e l -> Track max window T' e l.
Proof.
  intros HT [H1 [old [prev [cur [-> [H3 [H4 H5]]]]]] H6]. split; [| |exact H6].
  - revert H1. apply Forall_impl. intros a. lia.
  - exists old, prev, cur. refine (conj eq_refl (conj H3 (conj _ _))).
    + revert H4. apply Forall_impl. intros a. lia.
    + exact H5.
Qed.

(** The window of an entry is over: it is dropped. *)
Lemma track_drop max window T n s l : (s + window <= T)%Z ->
  Track max window T (Some (n, s)) l -> Track max window T None l.
Proof.
  intros HT [H1 [old [prev [cur [E [H3 [H4 [H5 [H6 H7]]]]]]]] H9]. split; [exact H1| |exact H9].
  exists (old ++ prev), cur, []. rewrite app_nil_r, E, <- app_assoc. refine (conj eq_refl (conj _ (conj _ eq_refl))).
  - lia.
  - apply Forall_app. split; [exact H4|]. revert H7. apply Forall_impl. intros a. lia.
Qed.

(** A new entry. *)
Lemma track_new max window T s l : (T <= s)%Z -> Track max window T None l -> Track max window T (Some (0, s)) l.
Proof.
  intros HT [H1 [old [prev [cur [E [H3 [H4 ->]]]]]] H9]. split; [exact H1| |exact H9].
  exists old, prev, []. refine (conj E (conj H3 (conj H4 _))). repeat split.
  - lia.
  - rewrite E in H1. apply Forall_app in H1. destruct H1 as [_ H1]. apply Forall_app in H1. destruct H1 as [H1 _].
    revert H1. apply Forall_impl. intros a. lia.
Qed.

(** One more admitted request. *)
Lemma track_add max window T n s l a : (0 < window)%Z -> n < max -> at_ a = T ->
  Track max window T (Some (n, s)) l -> Track max window T (Some (n + 1, s)) (l ++ [a]).
Proof.
  intros Hw Hn Ha [H1 [old [prev [cur [E [H3 [H4 [H5 [H6 H7]]]]]]]] H9]. split.
  - apply Forall_app. split; [exact H1|]. constructor; [lia|constructor].
  - exists old, prev, (cur ++ [a]). rewrite E, <- !app_assoc. refine (conj eq_refl (conj H3 (conj H4 _))).
    rewrite app_length. cbn [length]. repeat split; [lia|lia|exact H7].
  - intros t. destruct ((t <=? at_ a)%Z && (at_ a <? t + window)%Z) eqn:I.
    + rewrite E, !within_app. rewrite (within_old window t old (at_ a)).
      * pose proof (within_le window t prev). pose proof (within_le window t cur). pose proof (within_le window t [a]).
        cbn [length] in *. lia.
      * rewrite Ha. exact H4.
      * lia.
    + rewrite within_app. unfold within at 2. cbn [filter]. rewrite I. cbn [length].
      specialize (H9 t). lia.
Qed.

Lemma process_result max window st id now created :
  step max window st (Request id now created) =
  (fst (process max window st id now created), [mkAnswer id now created (snd (process max window st id now created))]).
Proof. cbn [step]. now destruct (process _ _ _ _ _ _). Qed.

Lemma track_evict max window now st id l : (0 < window)%Z -> NoDup (map fst (clients st)) ->
  Track max window now (find id (clients st)) l ->
  Track max window now (find id (evict window now (clients st))) l.
Proof.
  intros Hw ND H. unfold evict. rewrite find_filter by exact ND.
  destruct (find id (clients st)) as [[n s]|] eqn:F; [|exact H]. cbn [snd].
  destruct (elapsed window (now - s)) eqn:E; cbn [negb]; [|exact H].
  apply elapsed_pos in E; [|exact Hw]. apply (track_drop max window now n s); [lia|exact H].
Qed.

Lemma find_evict_some window now id l d : NoDup (map fst l) -> find id (evict window now l) = Some d -> find id l = Some d.
Proof.
  intros ND. unfold evict. rewrite find_filter by exact ND. destruct (find id l); [|discriminate].
  destruct (negb _); [auto|discriminate].
Qed.

Lemma track_swept max window now st id l : (0 < window)%Z -> Small st ->
  Track max window now (find id (clients st)) l -> Track max window now (find id (clients (swept window st now))) l.
Proof. intros Hw [ND _] H. unfold swept. destruct (_ || _); [|exact H]. cbn [clients]. now apply track_evict. Qed.

Lemma track_served max window now e id created l : (0 < window)%Z ->
  Track max window now (Some e) l ->
  Track max window now (Some (fst (served max window e now)))
    (l ++ of_client id [mkAnswer id now created (snd (served max window e now))]).
Proof.
  intros Hw H. destruct e as [n s]. unfold served. cbn [snd].
  assert (Track max window now (Some (if elapsed window (now - s) then (0, now) else (n, s))) l) as H'.
  { destruct (elapsed window (now - s)) eqn:E; [|exact H]. apply elapsed_pos in E; [|exact Hw].
    apply track_new; [lia|]. apply (track_drop max window now n s); [lia|exact H]. }
  destruct (if elapsed window (now - s) then (0, now) else (n, s)) as [c r].
  destruct (max <=? c) eqn:M; cbn [fst snd of_client filter who admitted what]; rewrite beq_refl; cbn [andb].
  - rewrite app_nil_r. exact H'.
  - apply N.leb_gt in M. apply track_add; [exact Hw|exact M|reflexivity|exact H'].
Qed.

Lemma of_client_other id id' now created o : id <> id' -> of_client id [mkAnswer id' now created o] = [].
Proof.
  intros H. cbn [of_client filter who]. destruct (beq id' id) eqn:E; [|reflexivity]. apply beq_eq in E. congruence.
Qed.

Lemma track_step max window T T' st o id l : (0 < window)%Z -> Small st -> untouched id o ->
  (match o with Request _ now created => T <= now <= created /\ created = T'
              | EvictNow now => T <= now /\ now = T' | _ => T' = T end)%Z ->
  Track max window T (find id (clients st)) l ->
  Track max window T' (find id (clients (fst (step max window st o)))) (l ++ of_client id (snd (step max window st o))).
Proof.
  intros Hw Hs Hu HT H. destruct o as [id' now created| |id'|now]; cbn [untouched] in Hu.
  - rewrite process_result. cbn [fst snd]. destruct HT as [HT <-].
    assert (Track max window now (find id (clients st)) l) as H1 by (apply (track_later _ _ T); [lia|exact H]).
    pose proof (track_swept _ _ _ _ _ _ Hw Hs H1) as H2.
    destruct (process_cases max window st id' now created) as [[_ ->]|[[_ [_ [_ ->]]]|[e [He ->]]]]; cbn [fst snd].
    + cbn [of_client filter admitted what]. rewrite andb_false_r, app_nil_r. apply (track_later _ _ now); [lia|exact H1].
    + cbn [of_client filter admitted what]. rewrite andb_false_r, app_nil_r. apply (track_later _ _ now); [lia|exact H2].
    + cbn [clients]. apply (track_later _ _ now); [lia|]. destruct (bytes_eq_dec id id') as [<-|Hn].
      * rewrite find_put_same. apply track_served; [exact Hw|].
        destruct He as [He|[He [-> _]]]; rewrite He in H2; [exact H2|]. apply track_new; [lia|exact H2].
      * rewrite find_put_other, of_client_other, app_nil_r by exact Hn. exact H2.
  - tauto.
  - subst T'. cbn [step fst snd of_client filter clients]. rewrite app_nil_r. unfold erase.
    rewrite find_filter by apply Hs. destruct (find id (clients st)) as [d|] eqn:F; [|exact H]. cbn [fst].
    replace (beq id id') with false; [exact H|]. symmetry. apply beq_neq. congruence.
  - destruct HT as [HT <-]. cbn [step fst snd of_client filter clients]. rewrite app_nil_r.
    apply track_evict; [exact Hw|apply Hs|]. apply (track_later _ _ T); [lia|exact H].
Qed.

Lemma run_cons max window st o r :
  run max window st (o :: r) =
  (fst (run max window (fst (step max window st o)) r),
   snd (step max window st o) ++ snd (run max window (fst (step max window st o)) r)).
Proof. cbn [run]. destruct (step max window st o) as [s a]. cbn [fst snd]. now destruct (run max window s r). Qed.

Lemma run_track max window ops : forall T st id l, (0 < window)%Z -> Small st -> clocked T ops -> Forall (untouched id) ops ->
  Track max window T (find id (clients st)) l ->
  exists T', Track max window T' (find id (clients (fst (run max window st ops))))
               (l ++ of_client id (snd (run max window st ops))).
Proof.
  induction ops as [|o r IH]; intros T st id l Hw Hs Hc Hu H.
  - exists T. cbn [run fst snd of_client filter]. now rewrite app_nil_r.
  - rewrite run_cons. cbn [fst snd]. rewrite of_client_app, app_assoc. inversion Hu as [|? ? Ho Hr]; subst.
    set (T1 := match o with Request _ _ created => created | EvictNow now => now | _ => T end).
    apply (IH T1).
    + exact Hw.
    + now apply small_step.
    + destruct o; cbn [clocked] in Hc; try exact Hc; apply Hc.
    + exact Hr.
    + apply (track_step _ _ T); try assumption. unfold T1. destruct o; cbn [clocked] in Hc; try reflexivity; (split; [apply Hc|reflexivity]).
Qed.

Lemma small_initial t : Small (initial t).
Proof. split; cbn; [constructor|unfold MAX_TRACKED_CLIENTS; lia]. Qed.

Lemma small_run max window ops : forall st, Small st -> Small (fst (run max window st ops)).
Proof.
  induction ops as [|o r IH]; intros st H; [exact H|]. rewrite run_cons. cbn [fst]. now apply IH, small_step.
Qed.

Theorem window_bound max window t0 ops id t : (0 < window)%Z -> clocked t0 ops -> Forall (untouched id) ops ->
  N.of_nat (within window t (of_client id (snd (run max window (initial t0) ops)))) <= 2 * max.
Proof.
  intros Hw Hc Hu.
  destruct (run_track max window ops t0 (initial t0) id [] Hw (small_initial t0) Hc Hu) as [T' H].
  - cbn [find clients initial]. split; [constructor| |].
    + exists [], [], []. cbn. repeat split; try constructor. lia.
    + intros t'. unfold within. cbn. lia.
  - cbn [app] in H. apply (tr_bound _ _ _ _ _ H).
Qed.

(** * Why a request is refused *)

(** Every entry's count is covered by admitted requests made since its window began. *)
Definition since (s : Z) (l : list answer) : nat := length (filter (fun a => (s <=? made a)%Z) l).
Definition Backed (T : Z) (st : state) (h : list answer) : Prop :=
  forall id n s, find id (clients st) = Some (n, s) ->
    (s <= T)%Z /\ n <= N.of_nat (since s (of_client id h)) /\
    exists a, In a h /\ who a = id /\ counted a = true /\ (s <= made a)%Z.

Lemma since_app s l k : since s (l ++ k) = (since s l + since s k)%nat.
Proof. unfold since. now rewrite filter_app, app_length. Qed.

Lemma backed_more T T' st h k : (T <= T')%Z -> Backed T st h -> Backed T' st (h ++ k).
Proof.
  intros HT H id n s F. destruct (H id n s F) as [H1 [H2 [a [H3 H4]]]]. refine (conj _ (conj _ _)); [lia| |].
  - rewrite of_client_app, since_app. lia.
  - exists a. split; [apply in_or_app; now left|exact H4].
Qed.

Lemma backed_filter T st h f c : NoDup (map fst (clients st)) -> Backed T st h -> Backed T (mkState (filter f (clients st)) c) h.
Proof.
  intros ND H id n s F. cbn [clients] in F. rewrite find_filter in F by exact ND.
  destruct (find id (clients st)) as [d|] eqn:G; [|discriminate]. destruct (f (id, d)); [|discriminate].
  injection F as ->. now apply H.
Qed.

Lemma backed_swept T window st h now : NoDup (map fst (clients st)) -> Backed T st h -> Backed T (swept window st now) h.
Proof. intros ND H. unfold swept. destruct (_ || _); [|exact H]. now apply backed_filter. Qed.

(** The two refusals of one step, explained by the history before it. *)
Definition Explained (max : N) (window : Z) (h : list answer) (a : answer) : Prop :=
  match what a with
  | Limited r => r = 0 /\ max <= N.of_nat (length (filter (live window (at_ a)) (of_client (who a) h)))
  | Admitted r => r < max
  | Capacity => exists ids, NoDup ids /\ N.of_nat (length ids) = MAX_TRACKED_CLIENTS /\ ~ In (who a) ids /\
      forall id, In id ids -> exists b, In b h /\ who b = id /\ counted b = true /\ live window (at_ a) b = true
  | BadId => MAX_CLIENT_ID_LENGTH < N.of_nat (length (who a))
  end.

Lemma since_live window now s l : (0 < window)%Z -> elapsed window (now - s) = false ->
  (since s l <= length (filter (live window now) l))%nat.
Proof.
  intros Hw E. unfold since. induction l as [|a r IH]; cbn [filter length]; [lia|].
  destruct (s <=? made a)%Z eqn:S.
  - apply Z.leb_le in S. replace (live window now a) with true; [cbn [length]; lia|].
    symmetry. apply Z.ltb_lt. apply (elapsed_not window (now - s)); [lia|exact E|exact Hw].
  - destruct (live window now a); cbn [length]; lia.
Qed.

Lemma swept_full window st now : MAX_TRACKED_CLIENTS <= N.of_nat (length (clients (swept window st now))) ->
  clients (swept window st now) = evict window now (clients st).
Proof.
  unfold swept. destruct (_ || _) eqn:E; [reflexivity|]. apply orb_false_iff in E. destruct E as [_ E].
  apply N.leb_gt in E. unfold MAX_TRACKED_CLIENTS in *. lia.
Qed.

Lemma evict_live window now l : forall id n s, NoDup (map fst l) -> find id (evict window now l) = Some (n, s) ->
  elapsed window (now - s) = false.
Proof.
  intros id n s ND F. unfold evict in F. rewrite find_filter in F by exact ND.
  destruct (find id l) as [[n' s']|]; [|discriminate]. cbn [snd] in F.
  destruct (elapsed window (now - s')) eqn:E; [discriminate|]. cbn [negb] in F. congruence.
Qed.

Lemma firstn_nodup {A} n (l : list A) : NoDup l -> NoDup (firstn n l).
Proof.
  intros H. rewrite <- (firstn_skipn n l) in H. revert H. generalize (firstn n l) (skipn n l). intros a b.
  induction a as [|x a IH]; cbn [app]; intros H; [constructor|]. apply NoDup_cons_iff in H. destruct H as [H1 H2].
  constructor; [|auto]. intros H. apply H1, in_or_app. now left.
Qed.

Lemma process_explained max window T st id now created h : (0 < window)%Z -> (T <= now <= created)%Z ->
  Small st -> Backed T st h ->
  Explained max window h (mkAnswer id now created (snd (process max window st id now created))) /\
  Backed created (fst (process max window st id now created))
    (h ++ [mkAnswer id now created (snd (process max window st id now created))]).
Proof.
  intros Hw HT Hs Hb. pose proof (small_swept window st now Hs) as Hs'.
  pose proof (backed_swept T window st h now (proj1 Hs) Hb) as Hb'.
  destruct (process_cases max window st id now created) as [[HL ->]|[[_ [HM [HF ->]]]|[e [He ->]]]]; cbn [fst snd].
  - split; [exact HL|]. apply (backed_more T); [lia|exact Hb].
  - split; [|apply (backed_more T); [lia|exact Hb']]. unfold Explained. cbn [what at_ who].
    exists (map fst (clients (swept window st now))). destruct Hs' as [ND HS]. split; [exact ND|].
    rewrite map_length. split; [lia|]. split; [now apply find_none|]. intros k Hk.
    destruct (find k (clients (swept window st now))) as [[n s]|] eqn:F; [|apply find_none in F; tauto].
    destruct (Hb' k n s F) as [_ [_ [b [B1 [B2 [B3 B4]]]]]]. exists b. refine (conj B1 (conj B2 (conj B3 _))).
    apply Z.ltb_lt. apply (elapsed_not window (now - s)); [lia| |exact Hw].
    rewrite (swept_full _ _ _ HM) in F. apply (evict_live window now (clients st) k n); [apply Hs|exact F].
  - destruct e as [n s].
    assert (n <= N.of_nat (since s (of_client id h)) /\ (s <= created)%Z) as [Hn Hsc].
    { destruct He as [He|[He [[= -> ->] _]]]; [|lia]. destruct (Hb' id n s He) as [? [? _]]. lia. }
    unfold served. cbn [snd].
    destruct (elapsed window (now - s)) eqn:E.
    + (* a new window *)
      destruct (max <=? 0) eqn:M; cbn [fst snd].
      * apply N.leb_le in M. assert (max = 0) as -> by lia. split.
        { unfold Explained. cbn [what]. split; [reflexivity|]. lia. }
        intros id' n' s' F. cbn [clients] in F. destruct (bytes_eq_dec id' id) as [->|Hd].
        -- rewrite find_put_same in F. injection F as <- <-. refine (conj _ (conj _ _)); [lia|lia|].
           eexists. split; [apply in_or_app; right; now left|]. cbn. repeat split. lia.
        -- rewrite find_put_other in F by exact Hd. exact (backed_more T created _ h _ ltac:(lia) Hb' _ _ _ F).
      * apply N.leb_gt in M. split.
        { unfold Explained. cbn [what]. destruct (0 + 1 <? max) eqn:G; lia. }
        intros id' n' s' F. cbn [clients] in F. destruct (bytes_eq_dec id' id) as [->|Hd].
        -- rewrite find_put_same in F. injection F as <- <-. refine (conj _ (conj _ _)); [lia| |].
           ++ rewrite of_client_app, since_app. cbn [of_client filter who admitted what]. rewrite beq_refl. cbn [andb].
              unfold since at 2. cbn [filter made]. replace (now <=? created)%Z with true by lia. cbn [length]. lia.
           ++ eexists. split; [apply in_or_app; right; now left|]. cbn. repeat split. lia.
        -- rewrite find_put_other in F by exact Hd. exact (backed_more T created _ h _ ltac:(lia) Hb' _ _ _ F).
    + destruct (max <=? n) eqn:M; cbn [fst snd].
      * apply N.leb_le in M. split.
        { unfold Explained. cbn [what at_ who]. replace (n <? max) with false by lia. split; [reflexivity|].
          pose proof (since_live window now s (of_client id h) Hw E). lia. }
        intros id' n' s' F. cbn [clients] in F. destruct (bytes_eq_dec id' id) as [->|Hd].
        -- rewrite find_put_same in F. injection F as <- <-. refine (conj _ (conj _ _)); [lia| |].
           ++ rewrite of_client_app, since_app. lia.
           ++ eexists. split; [apply in_or_app; right; now left|]. cbn. repeat split. lia.
        -- rewrite find_put_other in F by exact Hd. exact (backed_more T created _ h _ ltac:(lia) Hb' _ _ _ F).
      * apply N.leb_gt in M. split.
        { unfold Explained. cbn [what]. destruct (n + 1 <? max) eqn:G; lia. }
        intros id' n' s' F. cbn [clients] in F. destruct (bytes_eq_dec id' id) as [->|Hd].
        -- rewrite find_put_same in F. injection F as <- <-. refine (conj _ (conj _ _)); [lia| |].
           ++ rewrite of_client_app, since_app. cbn [of_client filter who admitted what]. rewrite beq_refl. cbn [andb].
              unfold since at 2. cbn [filter made]. replace (s <=? created)%Z with true by lia. cbn [length]. lia.
           ++ eexists. split; [apply in_or_app; right; now left|]. cbn. repeat split. lia.
        -- rewrite find_put_other in F by exact Hd. exact (backed_more T created _ h _ ltac:(lia) Hb' _ _ _ F).
Qed.

Lemma run_explained max window ops : forall T st h, (0 < window)%Z -> clocked T ops -> Small st -> Backed T st h ->
  forall h1 a h2, snd (run max window st ops) = h1 ++ a :: h2 -> Explained max window (h ++ h1) a.
Proof.
  induction ops as [|o r IH]; intros T st h Hw Hc Hs Hb h1 a h2 E; [destruct h1; discriminate|].
  rewrite run_cons in E. cbn [snd] in E. destruct o as [id now created| |id|now]; cbn [clocked] in Hc.
  - rewrite process_result in E. cbn [fst snd app] in E. destruct Hc as [Hc1 Hc2].
    destruct (process_explained max window T st id now created h Hw Hc1 Hs Hb) as [H1 H2].
    destruct h1 as [|b h1]; cbn [app] in E.
    + injection E as <- _. rewrite app_nil_r. exact H1.
    + injection E as <- E. pose proof (small_step max window st (Request id now created) Hs) as Hs1.
      rewrite process_result in Hs1. cbn [fst] in Hs1.
      specialize (IH created _ _ Hw Hc2 Hs1 H2 h1 a h2 E). now rewrite <- app_assoc in IH.
  - cbn [step fst snd app] in E. apply (IH T _ h Hw Hc (small_step max window st ResetAll Hs)) with (h2 := h2); [|exact E].
    intros k n s F. discriminate.
  - cbn [step fst snd app] in E.
    apply (IH T _ h Hw Hc (small_step max window st (ResetClient id) Hs)) with (h2 := h2); [|exact E].
    apply backed_filter; [apply Hs|exact Hb].
  - cbn [step fst snd app] in E. destruct Hc as [Hc1 Hc2].
    apply (IH now _ h Hw Hc2 (small_step max window st (EvictNow now) Hs)) with (h2 := h2); [|exact E].
    cbn [step fst]. rewrite <- (app_nil_r h). apply (backed_more T); [exact Hc1|]. apply backed_filter; [apply Hs|exact Hb].
Qed.

Theorem explained max window t0 ops h1 a h2 : (0 < window)%Z -> clocked t0 ops ->
  snd (run max window (initial t0) ops) = h1 ++ a :: h2 -> Explained max window h1 a.
Proof.
  intros Hw Hc E. apply (run_explained max window ops t0 (initial t0) [] Hw Hc (small_initial t0)) with (h2 := h2); [|exact E].
  intros k n s F. discriminate.
Qed.

(** A request with an over-long identifier changes nothing. *)
Lemma bad_id_keeps max window st id now created : MAX_CLIENT_ID_LENGTH < N.of_nat (length id) ->
  process max window st id now created = (st, BadId).
Proof.
  intros H. unfold process. replace (MAX_CLIENT_ID_LENGTH <? N.of_nat (length id)) with true; [reflexivity|].
  symmetry. now apply N.ltb_lt.
Qed.
