(** The solver of conflicts between numbers, weak numbers of an anime, absolute episodes: specification and proofs (C69, C70, C71) *)
From Verif Require Import Py PyFacts Text TextFacts Sort Formatters Common Rebulk RebulkFacts RuleSpec Title TitleProofs TitleProps TitleMore EpisodeTitle EpisodeTitleProps HolesMore TitleConflictProps Episodes EpisodesProofs EpisodesProps EpisodeRules EpisodeRulesProps EpisodeWeakProps EpisodeMoreProps.
From Coq Require Import Arith ZifyBool Sorted Permutation.

(** ** C69: which of two overlapping matches goes *)
(** the text of the whole pattern of [m] holds an x *)
Definition with_x (s : str) (i : mt) : Prop := In 120%N (lower (slice (m_raw_start i) (m_raw_end i) s)).
Definition yields (s : str) (ini : mt -> mt) (m : mt) : Prop := tag "weak-episode" m \/ with_x s (ini m).
(** a season or an episode gives way to a codec, container, date; an episode to a year; both to channels that are not weak unless the
    number has a marker, and to a screen size that is not a mere number *)
Definition loses (s : str) (ini : mt -> mt) (kids : mt -> list mt) (m o : mt) : Prop :=
  (m_name m = lit "episode" /\ m_name o = lit "year") \/
  is_num m /\
  ((m_name o = lit "video_codec" \/ m_name o = lit "audio_codec" \/ m_name o = lit "container" \/ m_name o = lit "date") \/
   (m_name o = lit "audio_channels" /\ ~ tag "weak-audio_channels" o /\ ~ exists k, In k (kids (ini m)) /\ m_name k = m_name m ++ lit "Marker") \/
   (m_name o = lit "screen_size" /\ py_int (slice (m_raw_start o) (m_raw_end o) s) = None)).
Definition weak_made (i : mt) : Prop := m_name i = lit "weak_episode" \/ m_name i = lit "weak_duplicate".
(** a season and an episode of two patterns that are not both weak *)
Definition rivals (ini : mt -> mt) (m o : mt) : Prop :=
  is_num m /\ is_num o /\ m_name m <> m_name o /\ mkey (ini m) <> mkey (ini o) /\ ~ (weak_made (ini m) /\ weak_made (ini o)).

Lemma is_num_iff m : season_or_episode m = true <-> is_num m.
Proof. unfold season_or_episode, is_num. rewrite smem_In. cbn [In]. split; [intros [H|[H|[]]]; auto|intros [H|H]; auto]. Qed.
Lemma weak_made_iff i : weak_pattern i = true <-> weak_made i.
Proof. unfold weak_pattern, weak_made. rewrite smem_In. cbn [In]. split; [intros [H|[H|[]]]; auto|intros [H|H]; auto]. Qed.
Lemma yields_iff s ini m : gives_way s ini m = true <-> yields s ini m.
Proof. unfold gives_way, yields, with_x. rewrite Bool.orb_true_iff, cmem_In. unfold weak_ep, m_raw. rewrite has_tag_iff. reflexivity. Qed.
Lemma loses_dec s ini kids m o :
  (has_name (lit "episode") m && has_name (lit "year") o) ||
  (season_or_episode m && (smem (m_name o) strong_rivals ||
    ((has_name (lit "audio_channels") o && negb (has_tag (lit "weak-audio_channels") o) && negb (nonnil (named (m_name m ++ lit "Marker") (kids (ini m)))))
     || (has_name (lit "screen_size") o && negb (int_coercable (m_raw s o)))))) = true <-> loses s ini kids m o.
Proof.
  unfold loses. rewrite Bool.orb_true_iff, !Bool.andb_true_iff, !Bool.orb_true_iff, !Bool.andb_true_iff, !Bool.negb_true_iff, !has_name_iff, is_num_iff, has_tag_false, nonnil_no.
  assert (A : smem (m_name o) strong_rivals = true <-> (m_name o = lit "video_codec" \/ m_name o = lit "audio_codec" \/ m_name o = lit "container" \/ m_name o = lit "date")).
  { unfold strong_rivals. rewrite smem_In. cbn [In]. split; [intros [H|[H|[H|[H|[]]]]]; auto 6|intros [H|[H|[H|H]]]; auto 6]. }
  assert (B : (forall x, ~ In x (named (m_name m ++ lit "Marker") (kids (ini m)))) <-> ~ exists k, In k (kids (ini m)) /\ m_name k = m_name m ++ lit "Marker").
  { split; [intros H (k & K); apply (H k); apply named_In; exact K|intros H k K; apply H; exists k; apply named_In; exact K]. }
  assert (C : int_coercable (m_raw s o) = false <-> py_int (slice (m_raw_start o) (m_raw_end o) s) = None).
  { unfold int_coercable, m_raw. destruct (py_int _); split; auto; discriminate. }
  unfold tag. rewrite A, B, C. tauto.
Qed.
Lemma solver_eq s ini kids m o : conflict_solver s ini kids m o =
  if str_eqb (m_name m) (m_name o) then VDefault
  else if (has_name (lit "episode") m && has_name (lit "year") o) ||
  (season_or_episode m && (smem (m_name o) strong_rivals ||
    ((has_name (lit "audio_channels") o && negb (has_tag (lit "weak-audio_channels") o) && negb (nonnil (named (m_name m ++ lit "Marker") (kids (ini m)))))
     || (has_name (lit "screen_size") o && negb (int_coercable (m_raw s o)))))) then VFirst
  else if season_or_episode m && (season_or_episode o && negb (mt_eqb (ini m) (ini o))) then
    (if weak_pattern (ini m) && weak_pattern (ini o) then VDefault else if gives_way s ini m then VFirst else if gives_way s ini o then VSecond else VDefault)
  else VDefault.
Proof.
  unfold conflict_solver. destruct (str_eqb (m_name m) (m_name o)); [reflexivity|]. destruct (has_name (lit "episode") m && has_name (lit "year") o); [reflexivity|]. cbn [orb].
  destruct (season_or_episode m); [|reflexivity]. cbn [andb]. destruct (smem (m_name o) strong_rivals); [reflexivity|]. cbn [orb].
  destruct (has_name (lit "audio_channels") o && negb (has_tag (lit "weak-audio_channels") o) && negb (nonnil (named (m_name m ++ lit "Marker") (kids (ini m)))) || has_name (lit "screen_size") o && negb (int_coercable (m_raw s o))); reflexivity.
Qed.
Lemma rivals_dec ini m o : m_name m <> m_name o ->
  (season_or_episode m && (season_or_episode o && negb (mt_eqb (ini m) (ini o)))) && negb (weak_pattern (ini m) && weak_pattern (ini o)) = true <-> rivals ini m o.
Proof.
  intros N. unfold rivals. rewrite !Bool.andb_true_iff, !is_num_iff, !Bool.negb_true_iff.
  assert (A : mt_eqb (ini m) (ini o) = false <-> mkey (ini m) <> mkey (ini o)) by (rewrite <- Bool.not_true_iff_false, mt_eqb_eq; reflexivity).
  assert (B : weak_pattern (ini m) && weak_pattern (ini o) = false <-> ~ (weak_made (ini m) /\ weak_made (ini o))) by (rewrite <- Bool.not_true_iff_false, Bool.andb_true_iff, !weak_made_iff; reflexivity).
  rewrite A, B. tauto.
Qed.
Lemma no_both s ini kids m o : loses s ini kids m o -> rivals ini m o -> False.
Proof.
  intros L (_ & O & _). unfold is_num in O. destruct L as [[_ L]|[_ [[L|[L|[L|L]]]|[[L _]|[L _]]]]]; rewrite L in O; destruct O; discriminate.
Qed.
(** exactly when the number, the other match, or none of them is chosen to go *)
Theorem C69_first s ini kids m o : conflict_solver s ini kids m o = VFirst <-> m_name m <> m_name o /\ (loses s ini kids m o \/ rivals ini m o /\ yields s ini m).
Proof.
  rewrite solver_eq. destruct (str_eqb (m_name m) (m_name o)) eqn:N.
  { apply str_eqb_eq in N. split; [discriminate|intros [H _]; contradiction]. }
  assert (N' : m_name m <> m_name o) by (intros E; rewrite E, str_eqb_refl in N; discriminate).
  pose proof (loses_dec s ini kids m o) as L. destruct (_ || _) in L |- *; [split; [intros _; split; [exact N'|left; apply L; reflexivity]|reflexivity]|].
  pose proof (rivals_dec ini m o N') as R. pose proof (yields_iff s ini m) as Y. destruct (season_or_episode m && (season_or_episode o && negb (mt_eqb (ini m) (ini o)))), (weak_pattern (ini m) && weak_pattern (ini o)), (gives_way s ini m), (gives_way s ini o);
    cbn [andb negb] in R; split; intros H; try discriminate; try reflexivity; try (split; [exact N'|right; split; [apply R|apply Y]; reflexivity]);
    exfalso; destruct H as [_ [H|[H1 H2]]]; try (apply L in H; discriminate); try (apply R in H1; discriminate); try (apply Y in H2; discriminate).
Qed.
Theorem C69_second s ini kids m o : conflict_solver s ini kids m o = VSecond <-> rivals ini m o /\ ~ yields s ini m /\ yields s ini o.
Proof.
  rewrite solver_eq. destruct (str_eqb (m_name m) (m_name o)) eqn:N.
  { apply str_eqb_eq in N. split; [discriminate|intros [(_ & _ & H & _) _]; contradiction]. }
  assert (N' : m_name m <> m_name o) by (intros E; rewrite E, str_eqb_refl in N; discriminate).
  pose proof (loses_dec s ini kids m o) as L. destruct (_ || _) in L |- *; [split; [discriminate|intros [H _]; destruct (no_both s ini kids m o (proj1 L eq_refl) H)]|].
  pose proof (rivals_dec ini m o N') as R. pose proof (yields_iff s ini m) as Y. pose proof (yields_iff s ini o) as Z.
  destruct (season_or_episode m && (season_or_episode o && negb (mt_eqb (ini m) (ini o)))), (weak_pattern (ini m) && weak_pattern (ini o)), (gives_way s ini m), (gives_way s ini o);
    cbn [andb negb] in R; split; intros H; try discriminate; try reflexivity;
    try (split; [apply R; reflexivity|split; [intros H'; apply Y in H'; discriminate|apply Z; reflexivity]]);
    exfalso; destruct H as (H1 & H2 & H3); try (apply R in H1; discriminate); try (apply H2; apply Y; reflexivity); try (apply Z in H3; discriminate).
Qed.
(** between a season and an episode of different patterns, when only one of them is weak or made with an x, that one goes in whichever
    order they are given *)
Definition loser (v : verdict) (m o : mt) : option mt := match v with VFirst => Some m | VSecond => Some o | VDefault => None end.
Theorem C69_consistent s ini kids m o : rivals ini m o -> yields s ini m -> ~ yields s ini o ->
  loser (conflict_solver s ini kids m o) m o = Some m /\ loser (conflict_solver s ini kids o m) o m = Some m.
Proof.
  intros R Y N. assert (R' : rivals ini o m) by (destruct R as (A & B & C & D & E); unfold rivals; split; [exact B|]; split; [exact A|]; split; [congruence|]; split; [congruence|tauto]). split.
  - rewrite (proj2 (C69_first s ini kids m o)); [reflexivity|]. split; [apply R|right; auto].
  - rewrite (proj2 (C69_second s ini kids o m)); [reflexivity|]. auto.
Qed.
(** when both are, the one given first goes *)
Theorem C69_limit : exists s ini kids m o, rivals ini m o /\ loser (conflict_solver s ini kids m o) m o = Some m /\ loser (conflict_solver s ini kids o m) o m = Some o.
Proof.
  exists (lit "2x05x06"), (fun m => if has_name (lit "season") m then simple 0 4 (lit "a") (MvStr []) [] else simple 2 7 (lit "b") (MvStr []) []), (fun _ => []),
    (simple 2 4 (lit "season") (MvInt 5) []), (simple 2 4 (lit "episode") (MvInt 5) []).
  split; [|split; vm_compute; reflexivity]. split; [left; reflexivity|]. split; [right; reflexivity|]. split; [discriminate|]. split; [discriminate|]. intros [[H|H] _]; discriminate.
Qed.

(** ** C70: numbers of an anime *)
Lemma slice_whole (s : str) a b i j : a <= i -> i <= j -> j <= b -> b <= List.length s -> slice i j s = slice a b s -> i = a /\ j = b.
Proof.
  intros H1 H2 H3 H4 E. apply (f_equal (@List.length N)) in E. rewrite !slice_length in E by lia. lia.
Qed.
(** a version, a crc32, a group with a screen size, or a group at the start of a part without any match *)
Definition looks_anime (markers ms : list mt) : Prop :=
  (exists m, In m ms /\ (m_name m = lit "version" \/ m_name m = lit "crc32")) \/
  (exists g, In g markers /\ m_name g = lit "group" /\
     ((exists m, In m ms /\ m_name m = lit "screen_size" /\ touches g m) \/
      ((exists p, In p markers /\ m_name p = lit "path" /\ m_start p = m_start g) /\ forall j, m_start g <= j < m_end g -> ~ covered ms j))).
Theorem C70_anime s markers ms : ep_ok s markers ms -> (forall g, In g markers -> m_start g < m_end g /\ m_raw_start g = m_start g /\ m_raw_end g = m_end g) ->
  is_anime s markers ms = true <-> looks_anime markers ms.
Proof.
  intros W Wm. unfold is_anime, looks_anime. rewrite !Bool.orb_true_iff, !nonnil_ex, existsb_exists.
  assert (G : forall g, In g markers -> match holes s ms (m_start g) (m_end g) never None with h :: _ => (fst h <? snd h) && str_eqb (slice (fst h) (snd h) s) (m_raw s g) | [] => false end = true <->
    forall j, m_start g <= j < m_end g -> ~ covered ms j).
  { intros g Hg. destruct (Wm g Hg) as (G1 & G2 & G3). pose proof (eo_markers _ _ _ W g Hg) as G4. unfold m_raw. rewrite G2, G3.
    assert (E : Nat.min (max_end s ms) (m_end g) = m_end g) by (rewrite max_end_inside by apply W; lia).
    assert (Hab : m_start g < Nat.min (max_end s ms) (m_end g)) by lia. split.
    - destruct (holes s ms (m_start g) (m_end g) never None) as [|h r] eqn:Eh; [discriminate|]. intros H. apply Bool.andb_true_iff in H as [H1 H2]. apply Nat.ltb_lt in H1. apply str_eqb_eq in H2.
      destruct (holes_ordered s ms (m_start g) (m_end g) (eo_nonempty _ _ _ W) Hab) as [_ B]. destruct (B h) as (B1 & B2 & B3); [rewrite Eh; left; reflexivity|].
      destruct (slice_whole s (m_start g) (m_end g) (fst h) (snd h)) as [E1 E2]; auto; [lia|]. intros j Hj. apply (holes_cover s ms (m_start g) (m_end g) (eo_nonempty _ _ _ W) j). exists h. split; [rewrite Eh; left; reflexivity|lia].
    - intros H. destruct (holes_first s ms (m_start g) (m_end g) (eo_nonempty _ _ _ W) Hab (H (m_start g) ltac:(lia))) as (h & Hf & H1 & H2 & H3).
      destruct (holes s ms (m_start g) (m_end g) never None) as [|h' r] eqn:Eh; [discriminate|]. injection Hf as ->. rewrite E in H3.
      assert (snd h = m_end g).
      { destruct (holes_ordered s ms (m_start g) (m_end g) (eo_nonempty _ _ _ W) Hab) as [S B]. destruct (B h) as (B1 & B2 & B3); [rewrite Eh; left; reflexivity|].
        destruct (Nat.eq_dec (snd h) (m_end g)) as [|Ne]; [assumption|exfalso]. unfold free_run in H3. destruct H3 as (F1 & F2 & F3 & F4 & F5 & F6). destruct F6 as [F6|F6]; [lia|]. apply (H (snd h)); [lia|exact F6]. }
      rewrite H1, H0. apply Bool.andb_true_iff. split; [apply Nat.ltb_lt; lia|apply str_eqb_refl]. }
  split.
  - intros [[(m & H)|(m & H)]|(g & Hg & H)]; [left; exists m; apply named_In in H; tauto|left; exists m; apply named_In in H; tauto|right]. apply named_In in Hg as [Hg Ng]. exists g. split; [exact Hg|]. split; [exact Ng|].
    apply Bool.orb_true_iff in H as [H|H].
    + left. apply nonnil_ex in H as (m & H). apply range_In' in H as (A & B & C & D); [|apply W|apply (eo_markers _ _ _ W); exact Hg]. apply has_name_iff in D. exists m. split; [exact A|]. split; [exact D|]. split; assumption.
    + right. apply Bool.andb_true_iff in H as [H1 H2]. split; [|apply G; assumption]. apply existsb_exists in H1 as (p & P1 & P2). unfold starting in P1. apply filter_In in P1 as [P1 P3]. apply Nat.eqb_eq in P3. apply has_name_iff in P2. exists p. auto.
  - intros [(m & A & [B|B])|(g & Hg & Ng & H)]; [left; left; exists m; apply named_In; auto|left; right; exists m; apply named_In; auto|right]. exists g. split; [apply named_In; auto|]. apply Bool.orb_true_iff.
    destruct H as [(m & A & B & C & D)|[(p & A & B & C) D]].
    + left. apply nonnil_ex. exists m. apply range_In'; [apply W|apply (eo_markers _ _ _ W); exact Hg|]. apply has_name_iff in B. auto.
    + right. apply Bool.andb_true_iff. split; [|apply G; assumption]. apply existsb_exists. exists p. split; [unfold starting; apply filter_In; split; [exact A|apply Nat.eqb_eq; exact C]|apply has_name_iff; exact B].
Qed.

Lemma append_In L base m : (forall x y, In x L -> In y L -> mkey x = mkey y -> x = y) -> (forall x y, In x L -> In y base -> mkey x <> mkey y) ->
  In m (append_all L base) <-> In m base \/ In m L.
Proof.
  intros A B. split.
  - intros H. destruct (append_all_app L base) as (new & E & N). rewrite E in H. apply in_app_iff in H as [H|H]; auto.
  - intros [H|H]; [apply append_old; exact H|]. destruct (proj2 (append_all_keys L base (mkey m))) as (x & Hx & Ex); [exists m; auto|]. destruct (append_all_app L base) as (new & E & N). rewrite E in Hx |- *.
    apply in_app_iff in Hx as [Hx|Hx]; [destruct (B m x H Hx); congruence|]. rewrite <- (A x m (N x Hx) H Ex). apply in_app_iff. auto.
Qed.
Definition made_by (ini : mt -> mt) (n : string) (m : mt) : Prop := m_name (ini m) = lit n.
(** some match of the part is made by the pattern *)
Definition part_has (ini : mt -> mt) (n : string) (ms : list mt) (part : mt) : Prop := exists w, In w ms /\ touches part w /\ made_by ini n w.
Lemma set_tags_key e t : mkey (set_tags e t) = mkey e.
Proof. reflexivity. Qed.
(** in an anime: where the part has a number of three digits, those split into a season and an episode go and the other episodes are
    marked *)
Theorem C70_marked context s ini kids markers ms m : ep_ok s markers ms -> ~ asked context "movie" -> is_anime s markers ms = true ->
  In m (WeakConflictSolver context s ini kids markers ms) <->
  (In m ms /\ ~ exists part, path_part markers part /\ part_has ini "weak_episode" ms part /\ touches part m /\ (made_by ini "weak_duplicate" m \/ m_name m = lit "episode")) \/
  exists part e, path_part markers part /\ part_has ini "weak_episode" ms part /\ In e ms /\ touches part e /\ m_name e = lit "episode" /\ ~ made_by ini "weak_duplicate" e /\
    m = set_tags e (m_tags e ++ [lit "anime"]).
Proof.
  intros W T A. apply type_is_not in T. unfold WeakConflictSolver. rewrite T. unfold weak_conflict. rewrite A. unfold apply_change.
  set (weakp := fun m => has_name (lit "weak_episode") (ini m)). set (dupp := fun m => has_name (lit "weak_duplicate") (ini m)). set (epp := fun m => has_name (lit "episode") m && negb (has_name (lit "weak_duplicate") (ini m))).
  assert (F : forall l st, (forall p, In p l -> path_part markers p) ->
    (forall x, In x (fst (fold_left (weak_conflict_part s ini kids true ms) l st)) <-> In x (fst st) \/ exists part, In part l /\ part_has ini "weak_episode" ms part /\ In x ms /\ touches part x /\ (made_by ini "weak_duplicate" x \/ m_name x = lit "episode")) /\
    (forall x, In x (snd (fold_left (weak_conflict_part s ini kids true ms) l st)) <-> In x (snd st) \/ exists part e, In part l /\ part_has ini "weak_episode" ms part /\ In e ms /\ touches part e /\ m_name e = lit "episode" /\ ~ made_by ini "weak_duplicate" e /\ x = set_tags e (m_tags e ++ [lit "anime"]))).
  { induction l as [|p l IH]; intros st Hl; cbn [fold_left]; [split; intros x; (split; [auto|intros [H|H]; [exact H|]]); [destruct H as (? & [] & _)|destruct H as (? & ? & [] & _)]|].
    assert (HP : path_part markers p) by (apply Hl; left; reflexivity).
    assert (Hw : nonnil (in_part_of s ms p weakp) = true <-> part_has ini "weak_episode" ms p).
    { rewrite nonnil_ex. unfold part_has, made_by. split; intros (w & H); exists w; [apply (part_In s markers) in H; [|exact W|apply HP]|apply (part_In s markers); [exact W|apply HP|]]; unfold weakp in *; rewrite ?has_name_iff in *; exact H. }
    assert (Hd : forall x, In x (in_part_of s ms p dupp) <-> In x ms /\ touches p x /\ made_by ini "weak_duplicate" x).
    { intros x. rewrite (part_In s markers) by (auto; apply HP). unfold dupp, made_by. rewrite has_name_iff. reflexivity. }
    assert (He : forall x, In x (in_part_of s ms p epp) <-> In x ms /\ touches p x /\ m_name x = lit "episode" /\ ~ made_by ini "weak_duplicate" x).
    { intros x. rewrite (part_In s markers) by (auto; apply HP). unfold epp, made_by. rewrite Bool.andb_true_iff, Bool.negb_true_iff, has_name_iff, has_name_false. reflexivity. }
    destruct (IH (weak_conflict_part s ini kids true ms st p)) as [I1 I2]; [intros q Hq; apply Hl; right; exact Hq|].
    set (st1 := weak_conflict_part s ini kids true ms st p) in *.
    assert (E1 : st1 = if nonnil (in_part_of s ms p weakp) then (fst st ++ in_part_of s ms p dupp ++ in_part_of s ms p epp, snd st ++ map (add_tag (lit "anime")) (in_part_of s ms p epp)) else st) by reflexivity.
    split; intros x; [rewrite I1, E1; clear I1 I2|rewrite I2, E1; clear I1 I2].
    - destruct (nonnil (in_part_of s ms p weakp)) eqn:E; cbn [fst snd].
      + rewrite !in_app_iff, Hd, He. split.
        * intros [[H|[H|H]]|(part & H)]; [left; exact H|right; exists p; split; [left; reflexivity|]; split; [apply Hw; reflexivity|]; tauto|right; exists p; split; [left; reflexivity|]; split; [apply Hw; reflexivity|]; tauto|right; exists part; split; [right|]; tauto].
        * intros [H|(part & [<-|H1] & H2 & H3 & H4 & H5)]; [left; left; exact H| |right; exists part; auto].
          left. right. destruct (has_name (lit "weak_duplicate") (ini x)) eqn:K; [left; apply has_name_iff in K; unfold made_by; auto|right; apply has_name_false in K; unfold made_by in *; tauto].
      + split; [intros [H|(part & H)]; [left; exact H|right; exists part; split; [right|]; tauto]|]. intros [H|(part & [<-|H1] & H2 & H3)]; [left; exact H|apply Hw in H2; discriminate|right; exists part; auto].
    - destruct (nonnil (in_part_of s ms p weakp)) eqn:E; cbn [fst snd].
      + rewrite in_app_iff, in_map_iff. split.
        * intros [[H|(e & <- & H)]|(part & e & H)]; [left; exact H|right; exists p, e; apply He in H; split; [left; reflexivity|]; split; [apply Hw; reflexivity|]; tauto|right; exists part, e; split; [right|]; tauto].
        * intros [H|(part & e & [<-|H1] & H2 & H3 & H4 & H5 & H6 & ->)]; [left; left; exact H| |right; exists part, e; tauto]. left. right. exists e. split; [reflexivity|]. apply He. auto.
      + split; [intros [H|(part & e & H)]; [left; exact H|right; exists part, e; split; [right|]; tauto]|]. intros [H|(part & e & [<-|H1] & H2 & H3)]; [left; exact H|apply Hw in H2; discriminate|right; exists part, e; auto]. }
  destruct (F (parts_of markers) ([], []) ltac:(intros p Hp; apply parts_iff; exact Hp)) as [F1 F2]. cbn [fst snd In] in F1, F2.
  set (R := fst _) in *. set (Ad := snd _) in *.
  assert (RI : forall x, In x R -> In x ms) by (intros x Hx; apply F1 in Hx as [[]|(part & H)]; tauto).
  rewrite append_In.
  - rewrite remove_all_In; [|apply W|exact RI]. rewrite F1, F2. split.
    + intros [[H1 H2]|[[]|(part & e & H1 & H)]]; [left; split; [exact H1|]|right; exists part, e; apply parts_iff in H1; tauto]. intros (part & P & Q & U & V). apply H2. right. exists part. split; [apply parts_iff; exact P|]. auto.
    + intros [[H1 H2]|(part & e & H1 & H)]; [left; split; [exact H1|]|right; right; exists part, e; split; [apply parts_iff; exact H1|tauto]]. intros [[]|(part & P & Q & U & V & X)]. apply H2. exists part. split; [apply parts_iff; exact P|]. auto.
  - intros x y Hx Hy E. apply F2 in Hx as [[]|(p1 & e1 & _ & _ & X1 & _ & _ & _ & ->)]. apply F2 in Hy as [[]|(p2 & e2 & _ & _ & Y1 & _ & _ & _ & ->)]. rewrite !set_tags_key in E.
    rewrite (distinct_inj ms e1 e2); auto. apply W.
  - intros x y Hx Hy. apply F2 in Hx as [[]|(p1 & e1 & X0 & X2 & X1 & X3 & X4 & X5 & ->)]. rewrite set_tags_key. apply remove_all_In in Hy as [Hy1 Hy2]; [|apply W|exact RI]. intros E.
    apply Hy2. rewrite <- (distinct_inj ms e1 y); auto; [|apply W]. apply F1. right. exists p1. auto 10.
Qed.

(** otherwise: where the part has a number split into a season and an episode, the numbers of three digits go, but when they are in a range (or the part is
    marked); those in a range lose their tags, and then the split numbers of this part and of the next ones go *)
Definition ranged (ini : mt -> mt) (kids : mt -> list mt) (ms : list mt) (part m : mt) : Prop :=
  In m ms /\ touches part m /\ m_name m = lit "episode" /\ made_by ini "weak_episode" m /\ exists k, In k (kids (ini m)) /\ m_name k = lit "episodeSeparator".
Definition gone (ini : mt -> mt) (kids : mt -> list mt) (ms before : list mt) (part m : mt) : Prop :=
  In m ms /\ part_has ini "weak_duplicate" ms part /\
  ((touches part m /\ made_by ini "weak_episode" m /\ (forall r, ~ ranged ini kids ms part r) /\ forall x, In x ms -> touches part x -> ~ tag "SxxExx" x) \/
   ranged ini kids ms part m \/
   (touches part m /\ made_by ini "weak_duplicate" m /\ exists q r, (In q before \/ q = part) /\ part_has ini "weak_duplicate" ms q /\ ranged ini kids ms q r)).
Theorem C70_split context s ini kids markers ms m : ep_ok s markers ms -> ~ asked context "movie" -> is_anime s markers ms = false ->
  In m (WeakConflictSolver context s ini kids markers ms) <->
  (In m ms /\ ~ exists before part after, named (lit "path") markers = before ++ part :: after /\ gone ini kids ms before part m) \/
  exists part e, path_part markers part /\ part_has ini "weak_duplicate" ms part /\ ranged ini kids ms part e /\ m = set_tags e [].
Proof.
  intros W T A. apply type_is_not in T. unfold WeakConflictSolver. rewrite T. unfold weak_conflict. rewrite A. unfold apply_change.
  set (weakp := fun m => has_name (lit "weak_episode") (ini m)). set (dupp := fun m => has_name (lit "weak_duplicate") (ini m)).
  set (rp := fun m => has_name (lit "episode") m && has_name (lit "weak_episode") (ini m) && nonnil (named (lit "episodeSeparator") (kids (ini m)))).
  assert (Hw : forall p, path_part markers p -> forall x, In x (in_part_of s ms p weakp) <-> In x ms /\ touches p x /\ made_by ini "weak_episode" x).
  { intros p HP x. rewrite (part_In s markers) by (auto; apply HP). unfold weakp, made_by. rewrite has_name_iff. reflexivity. }
  assert (Hd : forall p, path_part markers p -> forall x, In x (in_part_of s ms p dupp) <-> In x ms /\ touches p x /\ made_by ini "weak_duplicate" x).
  { intros p HP x. rewrite (part_In s markers) by (auto; apply HP). unfold dupp, made_by. rewrite has_name_iff. reflexivity. }
  assert (Hr : forall p, path_part markers p -> forall x, In x (in_part_of s ms p rp) <-> ranged ini kids ms p x).
  { intros p HP x. rewrite (part_In s markers) by (auto; apply HP). unfold rp, ranged, made_by. rewrite !Bool.andb_true_iff, !has_name_iff, nonnil_ex.
    split; intros H; destruct H as (H1 & H2 & H); [destruct H as [[H3 H4] (k & K)]|destruct H as (H3 & H4 & k & K)]; (split; [exact H1|]); (split; [exact H2|]); [split; [exact H3|]; split; [exact H4|]; exists k; apply named_In; exact K|split; [auto|exists k; apply named_In; exact K]]. }
  assert (Hp : forall p, path_part markers p -> nonnil (in_part_of s ms p dupp) = true <-> part_has ini "weak_duplicate" ms p).
  { intros p HP. rewrite nonnil_ex. unfold part_has. split; intros (x & Hx); exists x; apply (Hd p HP); exact Hx. }
  assert (Hx : forall p, path_part markers p -> nonnil (in_part_of s ms p sxxexx) = false <-> forall x, In x ms -> touches p x -> ~ tag "SxxExx" x).
  { intros p HP. rewrite nonnil_no. split.
    - intros H x X1 X2 X3. apply (H x). apply (part_In s markers); [exact W|apply HP|]. split; [exact X1|]. split; [exact X2|apply has_tag_iff; exact X3].
    - intros H x X. apply (part_In s markers) in X as (X1 & X2 & X3); [|exact W|apply HP]. apply has_tag_iff in X3. exact (H x X1 X2 X3). }
  assert (F : forall l done st, (forall p, In p (done ++ l) -> path_part markers p) -> 
    (nonnil (snd st) = true <-> exists q r, In q done /\ part_has ini "weak_duplicate" ms q /\ ranged ini kids ms q r) ->
    (forall x, In x (fst (fold_left (weak_conflict_part s ini kids false ms) l st)) <-> In x (fst st) \/ exists before part after, l = before ++ part :: after /\ gone ini kids ms (done ++ before) part x) /\
    (forall x, In x (snd (fold_left (weak_conflict_part s ini kids false ms) l st)) <-> In x (snd st) \/ exists part e, In part l /\ part_has ini "weak_duplicate" ms part /\ ranged ini kids ms part e /\ x = set_tags e [])).
  { induction l as [|p l IH]; intros done st Hl Hst; cbn [fold_left].
    { split; intros x; (split; [auto|intros [H|H]; [exact H|]]); [destruct H as (b & ? & ? & H & _); destruct b; discriminate|destruct H as (? & ? & [] & _)]. }
    assert (HP : path_part markers p) by (apply Hl; apply in_app_iff; right; left; reflexivity).
    specialize (Hw p HP). specialize (Hd p HP). specialize (Hr p HP). specialize (Hp p HP). specialize (Hx p HP).
    set (st1 := weak_conflict_part s ini kids false ms st p).
    assert (S1 : (forall x, In x (fst st1) <-> In x (fst st) \/ gone ini kids ms done p x) /\ (forall x, In x (snd st1) <-> In x (snd st) \/ exists e, part_has ini "weak_duplicate" ms p /\ ranged ini kids ms p e /\ x = set_tags e [])).
    { unfold st1, weak_conflict_part. cbv beta iota zeta. fold weakp dupp rp. destruct (nonnil (in_part_of s ms p dupp)) eqn:Ed.
      2: { split; intros x; (split; [auto|intros [H|H]; [exact H|]]); exfalso; [destruct H as (_ & H & _)|destruct H as (e & H & _)]; apply Hp in H; discriminate. }
      assert (PD : part_has ini "weak_duplicate" ms p) by (apply Hp; reflexivity).
      destruct (nonnil (in_part_of s ms p rp)) eqn:Er.
      - (* ranges *)
        cbn [negb andb]. cbn [fst snd].
        assert (Ex : exists r, ranged ini kids ms p r) by (apply nonnil_ex in Er as (r & R); exists r; apply Hr; exact R). destruct Ex as (r0 & R0).
        assert (Na : nonnil (snd st ++ map (fun m => set_tags m []) (in_part_of s ms p rp)) = true).
        { apply nonnil_ex. exists (set_tags r0 []). apply in_app_iff. right. apply in_map_iff. exists r0. split; [reflexivity|apply Hr; exact R0]. }
        rewrite Na. cbn [fst snd]. split; intros x.
        + rewrite !in_app_iff, Hr, Hd. unfold gone. split.
          * intros [[H|H]|(H1 & H2 & H3)]; [left; exact H|right; split; [apply H|]; split; [exact PD|right; left; exact H]|right]. split; [exact H1|]. split; [exact PD|]. right. right. split; [exact H2|]. split; [exact H3|]. exists p, r0. auto.
          * intros [H|(H1 & _ & [(H2 & H3 & H4 & _)|[H|(H2 & H3 & _)]])]; [left; left; exact H|destruct (H4 r0 R0)|left; right; exact H|right; auto].
        + rewrite in_app_iff, in_map_iff. split; [intros [H|(e & <- & H)]; [left; exact H|right; exists e; apply Hr in H; auto]|intros [H|(e & _ & H & ->)]; [left; exact H|right; exists e; split; [reflexivity|apply Hr; exact H]]].
      - assert (NR : forall r, ~ ranged ini kids ms p r) by (intros r R; apply Hr in R; rewrite nonnil_no in Er; exact (Er r R)).
        assert (Er' : in_part_of s ms p rp = []) by (destruct (in_part_of s ms p rp); [reflexivity|discriminate]). rewrite Er'. cbn [negb andb map]. rewrite !app_nil_r.
        assert (Sn : forall (b : bool) (f1 f2 : list mt), snd (if b then (f1, snd st) else (f2, snd st)) = snd st) by (intros [|] ? ?; reflexivity). 
        assert (SG : forall x, (exists e, part_has ini "weak_duplicate" ms p /\ ranged ini kids ms p e /\ x = set_tags e []) -> False) by (intros x (e & _ & H & _); exact (NR e H)).
        destruct (nonnil (in_part_of s ms p sxxexx)) eqn:Es; cbn [negb]; cbn [fst snd].
        + assert (NX : ~ forall x, In x ms -> touches p x -> ~ tag "SxxExx" x) by (intros H; apply Hx in H; discriminate).
          split; intros x.
          * destruct (nonnil (snd st)) eqn:En; cbn [fst].
            -- rewrite in_app_iff, Hd. destruct (proj1 Hst eq_refl) as (q & r & Q). unfold gone. split.
               ++ intros [H|(H1 & H2 & H3)]; [left; exact H|right]. split; [exact H1|]. split; [exact PD|]. right. right. split; [exact H2|]. split; [exact H3|]. exists q, r. tauto.
               ++ intros [H|(H1 & _ & [(_ & _ & _ & H)|[H|(H2 & H3 & _)]])]; [left; exact H|contradiction|destruct (NR x H)|right; auto].
            -- split; [auto|]. unfold gone. intros [H|(H1 & _ & [(_ & _ & _ & H)|[H|(H2 & H3 & q & r & [Q| ->] & Q2 & Q3)]])]; [exact H|contradiction|destruct (NR x H)| |destruct (NR r Q3)].
               exfalso. assert (false = true) by (apply Hst; exists q, r; auto). discriminate.
          * destruct (nonnil (snd st)); cbn [snd]; (split; [auto|intros [H|H]; [exact H|destruct (SG x H)]]).
        + assert (YX : forall x, In x ms -> touches p x -> ~ tag "SxxExx" x) by (apply Hx; reflexivity).
          split; intros x.
          * destruct (nonnil (snd st)) eqn:En; cbn [fst].
            -- rewrite !in_app_iff, Hw, Hd. destruct (proj1 Hst eq_refl) as (q & r & Q). unfold gone. split.
               ++ intros [[H|(H1 & H2 & H3)]|(H1 & H2 & H3)]; [left; exact H|right; split; [exact H1|]; split; [exact PD|]; left; auto|right]. split; [exact H1|]. split; [exact PD|]. right. right. split; [exact H2|]. split; [exact H3|]. exists q, r. tauto.
               ++ intros [H|(H1 & _ & [(H2 & H3 & _)|[H|(H2 & H3 & _)]])]; [left; left; exact H|left; right; auto|destruct (NR x H)|right; auto].
            -- rewrite in_app_iff, Hw. unfold gone. split.
               ++ intros [H|(H1 & H2 & H3)]; [left; exact H|right; split; [exact H1|]; split; [exact PD|]; left; auto].
               ++ intros [H|(H1 & _ & [(H2 & H3 & _)|[H|(H2 & H3 & q & r & [Q| ->] & Q2 & Q3)]])]; [left; exact H|right; auto|destruct (NR x H)| |destruct (NR r Q3)].
                  exfalso. assert (false = true) by (apply Hst; exists q, r; auto). discriminate.
          * destruct (nonnil (snd st)); cbn [snd]; (split; [auto|intros [H|H]; [exact H|destruct (SG x H)]]). }
    destruct S1 as [S1 S2].
    assert (Hst1 : nonnil (snd st1) = true <-> exists q r, In q (done ++ [p]) /\ part_has ini "weak_duplicate" ms q /\ ranged ini kids ms q r).
    { rewrite nonnil_ex. split.
      - intros (x & X). apply S2 in X as [X|(e & E1 & E2 & _)].
        + destruct (proj1 Hst) as (q & r & Q1 & Q2); [apply nonnil_ex; exists x; exact X|]. exists q, r. split; [apply in_app_iff; left; exact Q1|exact Q2].
        + exists p, e. split; [apply in_app_iff; right; left; reflexivity|auto].
      - intros (q & r & Q1 & Q2 & Q3). apply in_app_iff in Q1 as [Q1|[<-|[]]].
        + destruct (proj1 (nonnil_ex (snd st))) as (x & X); [apply Hst; exists q, r; auto|]. exists x. apply S2. auto.
        + exists (set_tags r []). apply S2. right. exists r. auto. }
    destruct (IH (done ++ [p]) st1) as [I1 I2]; [rewrite <- app_assoc; exact Hl|exact Hst1|]. split; intros x; [rewrite I1, S1|rewrite I2, S2].
    - split.
      + intros [[H|H]|(b & q & a & -> & H)]; [left; exact H|right; exists [], p, l; split; [reflexivity|rewrite app_nil_r; exact H]|right; exists (p :: b), q, a; split; [reflexivity|rewrite <- app_assoc in H; exact H]].
      + intros [H|(b & q & a & E & H)]; [left; left; exact H|]. destruct b as [|y b]; injection E as -> ->; [left; right; rewrite app_nil_r in H; exact H|right; exists b, q, a; split; [reflexivity|rewrite <- app_assoc; exact H]].
    - split.
      + intros [[H|(e & H)]|(q & e & H1 & H2)]; [left; exact H|right; exists p, e; split; [left; reflexivity|exact H]|right; exists q, e; split; [right; exact H1|exact H2]].
      + intros [H|(q & e & [<-|H1] & H2)]; [left; left; exact H|left; right; exists e; exact H2|right; exists q, e; auto]. }
  destruct (F (parts_of markers) [] ([], [])) as [F1 F2]; [intros p H; apply parts_iff; exact H|split; [discriminate|intros (q & r & [] & _)]|]. cbn [fst snd In app] in F1, F2. clear F.
  set (R := fst _) in *. set (Ad := snd _) in *. unfold parts_of in F1.
  assert (RI : forall x, In x R -> In x ms) by (intros x H; apply F1 in H as [[]|(b & q & a & _ & H & _)]; exact H).
  rewrite append_In.
  - rewrite remove_all_In; [|apply W|exact RI]. rewrite F1, F2. split.
    + intros [[H1 H2]|[[]|(part & e & H1 & H)]]; [left; split; [exact H1|]; intros H; apply H2; right; exact H|right; exists part, e; apply parts_iff in H1; tauto].
    + intros [[H1 H2]|(part & e & H1 & H)]; [left; split; [exact H1|]; intros [[]|H]; exact (H2 H)|right; right; exists part, e; split; [apply parts_iff; exact H1|tauto]].
  - intros x y X Y E. apply F2 in X as [[]|(p1 & e1 & _ & _ & X1 & ->)]. apply F2 in Y as [[]|(p2 & e2 & _ & _ & Y1 & ->)]. rewrite !set_tags_key in E.
    rewrite (distinct_inj ms e1 e2); auto; [apply W|apply X1|apply Y1].
  - intros x y X Y. apply F2 in X as [[]|(p1 & e1 & X0 & X2 & X1 & ->)]. rewrite set_tags_key. apply remove_all_In in Y as [Y1 Y2]; [|apply W|exact RI]. intros E.
    apply Y2. rewrite <- (distinct_inj ms e1 y); auto; [|apply W|apply X1]. apply F1. right. apply in_split in X0 as (b & a & Eq). exists b, p1, a. split; [exact Eq|]. split; [apply X1|]. split; [exact X2|]. right. left. exact X1.
Qed.
(** a film has no such rule *)
Theorem C70_film context s ini kids markers ms : asked context "movie" -> WeakConflictSolver context s ini kids markers ms = ms.
Proof. intros T. apply type_is_asked in T. unfold WeakConflictSolver. rewrite T. reflexivity. Qed.

(** ** cases that meet the hypotheses, and a limit *)
(** 1x02 against 02: the weak one goes; an episode goes before a year *)
Example C69_ex : let ini := fun m : mt => if weak_ep m then simple 2 4 (lit "c") (MvStr []) [] else simple 0 4 (lit "a") (MvStr []) [] in
  let w := simple 2 4 (lit "season") (MvInt 2) [lit "weak-episode"] in let e := simple 2 4 (lit "episode") (MvInt 2) [] in
  conflict_solver (lit "1E02") ini (fun _ => []) w e = VFirst /\ conflict_solver (lit "1E02") ini (fun _ => []) e w = VSecond /\ rivals ini w e /\
  conflict_solver (lit "2012") ini (fun _ => []) e (simple 0 4 (lit "year") (MvInt 2012) []) = VFirst /\
  conflict_solver (lit "2012") ini (fun _ => []) (set_name e (lit "season")) (simple 0 4 (lit "year") (MvInt 2012) []) = VDefault.
Proof.
  cbv zeta. split; [vm_compute; reflexivity|]. split; [vm_compute; reflexivity|]. split; [|split; vm_compute; reflexivity].
  split; [left; reflexivity|]. split; [right; reflexivity|]. split; [discriminate|]. split; [discriminate|]. intros [[H|H] _]; discriminate.
Qed.
(** [Group] Show 112 [720p] *)
Definition w70 : mt := simple 13 16 (lit "episode") (MvInt 112) [lit "weak-episode"].
Definition d70a : mt := simple 13 14 (lit "season") (MvInt 1) [lit "weak-duplicate"].
Definition d70b : mt := simple 14 16 (lit "episode") (MvInt 12) [lit "weak-duplicate"].
Definition i70 (m : mt) : mt := if has_tag (lit "weak-duplicate") m then simple 13 16 (lit "weak_duplicate") (MvStr []) [] else simple 13 16 (lit "weak_episode") (MvStr []) [].
Definition g70 : mt := simple 0 7 (lit "group") (MvStr []) [].
Definition p70 : mt := simple 0 16 (lit "path") (MvStr []) [].
Example C70_ex_anime : is_anime (lit "[Group] Show 112") [p70; g70] [w70; d70a; d70b] = true /\
  WeakConflictSolver [] (lit "[Group] Show 112") i70 (fun _ => []) [p70; g70] [w70; d70a; d70b] = [set_tags w70 [lit "weak-episode"; lit "anime"]] /\
  ep_ok (lit "[Group] Show 112") [p70; g70] [w70; d70a; d70b].
Proof. split; [vm_compute; reflexivity|]. split; [vm_compute; reflexivity|ep_ok_t]. Qed.
Example C70_ex_split : is_anime (lit "Group.. Show 112") [p70] [w70; d70a; d70b] = false /\
  WeakConflictSolver [] (lit "Group.. Show 112") i70 (fun _ => []) [p70] [w70; d70a; d70b] = [d70a; d70b] /\
  WeakConflictSolver [] (lit "Group.. Show 112") i70 (fun _ => [simple 16 17 (lit "episodeSeparator") (MvStr (lit "-")) []]) [p70] [w70; d70a; d70b] = [set_tags w70 []].
Proof. repeat split; vm_compute; reflexivity. Qed.
(** 101-102/112: the range of the folder makes the split number of the file disappear, though nothing is in a range there *)
Theorem C70_limit : exists s ini kids markers ms part m, ep_ok s markers ms /\ is_anime s markers ms = false /\ path_part markers part /\ In m ms /\ touches part m /\ made_by ini "weak_duplicate" m /\
  (forall r, ~ ranged ini kids ms part r) /\ ~ In m (WeakConflictSolver [] s ini kids markers ms).
Proof.
  set (a := simple 0 3 (lit "episode") (MvInt 101) []). set (d := simple 0 1 (lit "season") (MvInt 1) [lit "weak-duplicate"]). set (m := simple 8 9 (lit "season") (MvInt 1) [lit "weak-duplicate"]).
  exists (lit "101-102/112"), i70, (fun _ => [simple 3 4 (lit "episodeSeparator") (MvStr (lit "-")) []]), [simple 0 7 (lit "path") (MvStr []) []; simple 8 11 (lit "path") (MvStr []) []], [a; d; m], (simple 8 11 (lit "path") (MvStr []) []), m.
  split; [ep_ok_t|]. split; [vm_compute; reflexivity|]. split; [split; [right; left; reflexivity|reflexivity]|]. split; [right; right; left; reflexivity|]. split; [split; cbn; lia|]. split; [reflexivity|]. split.
  - intros r (H & T & N & _). unfold touches in T. each_in; try discriminate. cbn in T. lia.
  - intros H. apply mmem_In in H. vm_compute in H. discriminate.
Qed.

Print Assumptions C69_first.
Print Assumptions C69_second.
Print Assumptions C69_consistent.
Print Assumptions C69_limit.
Print Assumptions C70_anime.
Print Assumptions C70_marked.
Print Assumptions C70_split.
Print Assumptions C70_film.
Print Assumptions C70_limit.
