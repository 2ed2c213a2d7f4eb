(** Release groups in brackets (C77). *)
From Verif Require Import Py PyFacts Text Sort Common Rebulk RebulkFacts RuleSpec Processors Title TitleProofs TitleConflictProps EpisodeTitle Episodes EpisodesProofs EpisodeRules EpisodeRulesProps EpisodeWeakProps EpisodeSolverProps Technical TechnicalProps UltraProps IntProps ReleaseGroup.
From Coq Require Import Arith ZifyBool Sorted Permutation.

(** ** Specification *)
Definition text_of (s : str) (m : mt) : str := slice (m_raw_start m) (m_raw_end m) s.
(** brackets with some text, which is not a number, and no match in them but weak languages *)
Definition unmatched (s : str) (ms : list mt) (g : mt) : Prop :=
  m_name g = lit "group" /\ (forall y, In y ms -> m_start y < m_end g -> m_start g < m_end y -> tag "weak-language" y) /\
  (exists c, In c (text_of s g) /\ is_sep c = false) /\ ~ exists z, whole_number (strip is_sep (text_of s g)) z.
(** the first brackets of that kind in a component *)
Definition taken_group (s : str) (markers ms : list mt) (g : mt) : Prop :=
  exists part, path_part markers part /\ leftmost markers (m_start part) (m_end part) (unmatched s ms) g.

(** ** Proofs *)
Lemma strip_nonnil p t : nonnil (strip p t) = true <-> exists c, In c t /\ p c = false.
Proof.
  destruct (FormattersProofs.strip_spec p t) as (u & v & E & Hu & Hv & H1 & H2). split.
  - intros H. destruct (strip p t) as [|c r]; [discriminate|]. exists c. split; [rewrite E; apply in_app_iff; right; left; reflexivity|]. apply H1. reflexivity.
  - intros (c & Hc & Hp). destruct (strip p t) as [|d r] eqn:Es; [|reflexivity]. exfalso. rewrite E in Hc. cbn [app] in Hc. rewrite Forall_forall in Hu, Hv. apply in_app_iff in Hc as [Hc|Hc]; [rewrite (Hu c Hc) in Hp|rewrite (Hv c Hc) in Hp]; discriminate.
Qed.
Lemma coercable_iff t : int_coercable t = true <-> exists z, whole_number t z.
Proof. unfold int_coercable. destruct (py_int t) as [z|] eqn:E; [split; [intros _; exists z; apply C76_int; exact E|reflexivity]|split; [discriminate|]]. intros (z & H). apply C76_int in H. congruence. Qed.
Lemma empty_iff s ms g : inside s ms -> m_end g <= List.length s -> empty_group s ms g = true <-> unmatched s ms g.
Proof.
  intros I B. unfold empty_group, unmatched. rewrite !Bool.andb_true_iff, !Bool.negb_true_iff, has_name_iff, nonnil_no, strip_nonnil, <- Bool.not_true_iff_false, coercable_iff.
  assert (K : (forall x, ~ In x (range s ms (m_start g) (m_end g) (fun m => negb (weak_language m)))) <-> (forall y, In y ms -> m_start y < m_end g -> m_start g < m_end y -> tag "weak-language" y)).
  { split.
    - intros H y Y1 Y2 Y3. destruct (weak_language y) eqn:T; [apply has_tag_iff in T; exact T|]. exfalso. apply (H y). apply range_In'; auto. rewrite T. auto.
    - intros H x Hx. apply range_In' in Hx as (X1 & X2 & X3 & X4); auto. specialize (H x X1 X2 X3). apply has_tag_iff in H. unfold weak_language in X4. rewrite H in X4. discriminate. }
  rewrite K. unfold text_of, m_raw. tauto.
Qed.
Lemma sorted_parts s ms p markers part : In part (marker_sorted s ms p (parts_of markers)) <-> path_part markers part.
Proof.
  rewrite <- parts_iff. unfold marker_sorted. split; apply Permutation_in; [|apply Permutation_sym]; apply Permutation_sym, isort_perm || apply isort_perm.
Qed.
Section Anime.
  Context (s : str) (markers ms : list mt) (W : ep_ok s markers ms) (MI : inside s markers) (MN : nonempty markers).
  (** two brackets do not have the same place *)
  Context (MU : forall g h, In g markers -> In h markers -> m_name g = lit "group" -> m_name h = lit "group" -> m_start g = m_start h -> m_end g = m_end h -> g = h).
  Lemma anime_part_spec part : path_part markers part ->
    (exists g, leftmost markers (m_start part) (m_end part) (unmatched s ms) g /\ anime_part s markers ms part = (range s ms (m_start g) (m_end g) weak_language, [anime_match s g])) \/
    ((forall g, ~ leftmost markers (m_start part) (m_end part) (unmatched s ms) g) /\ anime_part s markers ms part = ([], [])).
  Proof.
    intros P. unfold anime_part. pose proof (MI part (proj1 P)) as Pi.
    (* markers out of the text are excluded *)
    assert (R : match first (range s markers (m_start part) (m_end part) (empty_group s ms)) with
                | Some x => leftmost markers (m_start part) (m_end part) (unmatched s ms) x
                | None => forall y, In y markers -> m_start y < m_end part -> m_start part < m_end y -> ~ unmatched s ms y end).
    { pose proof (range_first s markers (m_start part) (m_end part) (empty_group s ms) MI ltac:(lia)) as R. destruct (first (range s markers (m_start part) (m_end part) (empty_group s ms))) as [x|].
      - destruct R as [(A1 & A2 & A3 & A4) R]. pose proof (MI x A1). apply empty_iff in A4; [|apply W|lia]. split; [auto|]. intros y Y1 Y2 Y3 Y4. apply mt_le_iff. apply R; auto. pose proof (MI y Y1). apply empty_iff; [apply W|lia|exact Y4].
      - intros y Y1 Y2 Y3 Y4. pose proof (MI y Y1). apply empty_iff in Y4; [|apply W|lia]. rewrite (R y Y1 Y2 Y3) in Y4. discriminate. }
    destruct (first (range s markers (m_start part) (m_end part) (empty_group s ms))) as [g|].
    - left. exists g. split; [exact R|]. rewrite (truthy_some markers g MN) by apply R. reflexivity.
    - right. split; [|reflexivity]. intros g [(G1 & G2 & G3 & G4) _]. apply (R g); auto.
  Qed.
  Lemma left_unique part g h : leftmost markers (m_start part) (m_end part) (unmatched s ms) g -> leftmost markers (m_start part) (m_end part) (unmatched s ms) h -> g = h.
  Proof.
    intros G H. destruct (leftmost_span _ _ _ _ _ _ G H) as [E1 E2]. destruct G as [(G1 & _ & _ & G2) _], H as [(H1 & _ & _ & H2) _]. apply MU; auto; [apply G2|apply H2].
  Qed.
End Anime.
(** When no release group is known: the first free brackets of each component become one, and the weak languages in them go; nothing
    else changes. *)
Theorem C77_anime s markers ms m : ep_ok s markers ms -> inside s markers -> nonempty markers ->
  (forall g h, In g markers -> In h markers -> m_name g = lit "group" -> m_name h = lit "group" -> m_start g = m_start h -> m_end g = m_end h -> g = h) ->
  (forall x, In x ms -> m_name x <> lit "release_group") ->
  In m (AnimeReleaseGroup s markers ms) <->
  (In m ms /\ ~ (tag "weak-language" m /\ exists g, taken_group s markers ms g /\ overlapping g m)) \/ (exists g, taken_group s markers ms g /\ m = anime_match s g).
Proof.
  intros W MI MN MU N. unfold AnimeReleaseGroup.
  assert (nonnil (named (lit "release_group") ms) = false) as -> by (apply nonnil_no; intros x Hx; apply named_In in Hx as [A B]; apply (N x A B)).
  unfold apply_change. rewrite joins_eq, !map_map. cbn [fst snd].
  set (rem := List.concat (map (fun x => fst (anime_part s markers ms x)) (marker_sorted s ms comparator_predicate (parts_of markers)))).
  set (add := List.concat (map (fun x => snd (anime_part s markers ms x)) (marker_sorted s ms comparator_predicate (parts_of markers)))).
  assert (Radd : forall x, In x add <-> exists g, taken_group s markers ms g /\ x = anime_match s g).
  { intros x. unfold add. rewrite in_concat. split.
    - intros (l & Hl & Hx). apply in_map_iff in Hl as (part & <- & P). apply sorted_parts in P. destruct (anime_part_spec s markers ms W MI MN MU part P) as [(g & L & E)|[_ E]]; rewrite E in Hx; [|destruct Hx]. destruct Hx as [<-|[]]. exists g. split; [exists part; auto|reflexivity].
    - intros (g & (part & P & L) & ->). exists (snd (anime_part s markers ms part)). split; [apply in_map_iff; exists part; split; [reflexivity|apply sorted_parts; exact P]|].
      destruct (anime_part_spec s markers ms W MI MN MU part P) as [(g' & L' & E)|[No E]]; [|destruct (No g L)]. rewrite E. left. f_equal. apply (left_unique s markers ms MU part); assumption. }
  assert (Rrem : forall x, In x rem <-> In x ms /\ tag "weak-language" x /\ exists g, taken_group s markers ms g /\ overlapping g x).
  { intros x. unfold rem. rewrite in_concat. split.
    - intros (l & Hl & Hx). apply in_map_iff in Hl as (part & <- & P). apply sorted_parts in P. destruct (anime_part_spec s markers ms W MI MN MU part P) as [(g & L & E)|[_ E]]; rewrite E in Hx; [|destruct Hx]. cbn [fst] in Hx.
      assert (G : In g markers) by apply L. pose proof (MI g G). pose proof (MN g G). apply range_In' in Hx as (X1 & X2 & X3 & X4); [|apply W|lia]. apply has_tag_iff in X4. pose proof (eo_nonempty _ _ _ W x X1). split; [exact X1|]. split; [exact X4|]. exists g. split; [exists part; auto|].
      exists (Nat.max (m_start g) (m_start x)). lia.
    - intros (X1 & X2 & g & (part & P & L) & O). exists (fst (anime_part s markers ms part)). split; [apply in_map_iff; exists part; split; [reflexivity|apply sorted_parts; exact P]|].
      destruct (anime_part_spec s markers ms W MI MN MU part P) as [(g' & L' & E)|[No E]]; [|destruct (No g L)]. rewrite E. cbn [fst]. rewrite (left_unique s markers ms MU part g g' L L') in *.
      assert (G : In g' markers) by apply L'. pose proof (MI g' G). destruct O as (i & Oi). apply range_In'; [apply W|lia|]. apply has_tag_iff in X2. unfold weak_language. rewrite X2. split; [exact X1|]. split; [lia|]. split; [lia|reflexivity]. }
  rewrite append_In.
  - rewrite remove_all_In; [|apply W|intros x Hx; apply Rrem in Hx; apply Hx]. rewrite Radd, Rrem. tauto.
  - intros x y Hx Hy E. apply Radd in Hx as (g & Tg & ->). apply Radd in Hy as (h & Th & ->). f_equal. destruct Tg as (p1 & _ & [(G1 & _ & _ & G2) _]), Th as (p2 & _ & [(H1 & _ & _ & H2) _]).
    apply MU; auto; [apply G2|apply H2|injection E; auto|injection E; auto].
  - intros x y Hx Hy E. apply Radd in Hx as (g & Tg & ->). apply remove_all_In in Hy as [Hy _]; [|apply W|intros z Hz; apply Rrem in Hz; apply Hz]. apply (N y Hy). injection E; auto.
Qed.
Print Assumptions C77_anime.
(** When a release group is already known nothing changes *)
Theorem C77_known s markers ms x : In x ms -> m_name x = lit "release_group" -> AnimeReleaseGroup s markers ms = ms.
Proof.
  intros X N. unfold AnimeReleaseGroup. assert (nonnil (named (lit "release_group") ms) = true) as -> by (apply nonnil_ex; exists x; apply named_In; auto). reflexivity.
Qed.
Print Assumptions C77_known.
(** the value is the text in the brackets *)
Theorem C77_value s g : m_value (anime_match s g) = MvStr (slice (m_raw_start g + 1) (m_raw_end g - 1) s) /\ m_name (anime_match s g) = lit "release_group" /\ m_start (anime_match s g) = m_start g /\ m_end (anime_match s g) = m_end g.
Proof. repeat split. Qed.
Definition bracket_ex : mt := simple 0 5 (lit "group") (MvStr (lit "[Abc]")) [].
Example C77_ex : AnimeReleaseGroup (lit "[Abc] Show 03") [simple 0 13 (lit "path") (MvStr []) []; bracket_ex] [simple 6 10 (lit "title") (MvStr (lit "Show")) []] =
  [simple 6 10 (lit "title") (MvStr (lit "Show")) []; anime_match (lit "[Abc] Show 03") bracket_ex] /\ m_value (anime_match (lit "[Abc] Show 03") bracket_ex) = MvStr (lit "Abc").
Proof. split; reflexivity. Qed.
Example C77_taken_ex : taken_group (lit "[Abc] Show 03") [simple 0 13 (lit "path") (MvStr []) []; bracket_ex] [simple 6 10 (lit "title") (MvStr (lit "Show")) []] bracket_ex.
Proof.
  exists (simple 0 13 (lit "path") (MvStr []) []). split; [split; [left; reflexivity|reflexivity]|]. split.
  - split; [right; left; reflexivity|]. split; [cbn; lia|]. split; [cbn; lia|]. split; [reflexivity|]. split; [intros y [<-|[]] A B; cbn in A; lia|].
    split; [exists 65%N; split; [vm_compute; auto|reflexivity]|]. intros (z & H). apply C76_int in H. vm_compute in H. discriminate.
  - intros y [<-|[<-|[]]] A B (C & _); [discriminate|]. unfold pos_le. lia.
Qed.
