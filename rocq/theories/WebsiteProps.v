(** Websites (C80). *)
From Verif Require Import Py PyFacts Text TextFacts Sort Formatters FormattersProofs FormattersProps Common Rebulk RebulkFacts RuleSpec Processors Language Title TitleProofs TitleConflictProps HolesMore HolesCut EpisodeTitle Episodes EpisodesProofs EpisodeRules EpisodeRulesProps EpisodeWeakProps EpisodeSolverProps Technical TechnicalProps UltraProps ReleaseGroup AnimeGroupProps SceneGroupProps DashGroupProps.
From Coq Require Import Arith ZifyBool Sorted.

(** ** Model *)
(** website.py:98-113 [ValidateWebsitePrefix] *)
Definition prefix_alone (s : str) (ms : list mt) (p : mt) : bool :=
  match truthy_o (first (next p ms (has_name (lit "website")))) with
  | Some w => nonnil (filter (fun h => nonnil (cleaned (raw s h))) (holes s ms (m_end p) (m_start w) never (Some seps)))
  | None => true
  end.
Definition ValidateWebsitePrefix (s : str) (ms : list mt) : list mt := remove_all (filter (prefix_alone s ms) (tagged (lit "website.prefix") ms)) ms.

(** ** Specification *)
(** [y] is one of the matches that come next after [m] *)
Definition comes_next (ms : list mt) (m y : mt) : Prop := In y ms /\ m_start m < m_start y /\ forall z, In z ms -> m_start m < m_start z -> m_start y <= m_start z.
Definition known_website (safe : list str) (m : mt) : Prop := exists t p, m_value m = MvStr t /\ In p safe /\ exists r, lower t = p ++ r.
Definition at_brackets (markers : list mt) (m : mt) : Prop := exists g, In g markers /\ (covers_at (m_start m) g \/ covers_at (m_end m - 1) g).
(** only separators and matches from [a] to [b] *)
Definition nothing_between (s : str) (ms : list mt) (a b : nat) : Prop := forall j c, a <= j < b -> nth_error s j = Some c -> covered ms j \/ is_sep c = true.

(** ** Proofs *)
Lemma first_next s markers ms m p : ep_ok s markers ms ->
  o_truthy (first (next m ms p)) = true <-> exists y, comes_next ms m y /\ p y = true.
Proof.
  intros W. assert (I : forall x, In x (next m ms p) <-> p x = true /\ comes_next ms m x).
  { intros x. rewrite next_In; [reflexivity|]. intros y Hy. apply (eo_inside _ _ _ W y Hy). }
  unfold first. destruct (next m ms p) as [|y l]; cbn [hd_error o_truthy].
  - split; [discriminate|]. intros (y & Y1 & Y2). destruct (proj2 (I y) (conj Y2 Y1)).
  - destruct (proj1 (I y) (or_introl eq_refl)) as [Y1 Y2]. pose proof (eo_nonempty _ _ _ W y (proj1 Y2)). unfold o_truthy, m_truthy. split; [intros _; exists y; auto|intros _; apply Nat.ltb_lt; exact H].
Qed.
Lemma safe_iff safe m : safe_website safe m = true <-> known_website safe m.
Proof.
  unfold safe_website, known_website. destruct (m_value m) as [|t| | |]; try (split; [discriminate|intros (t & p & E & _); discriminate]). rewrite existsb_exists. split.
  - intros (p & P1 & P2). exists t, p. split; [reflexivity|]. split; [exact P1|]. apply startswith_app in P2. exact P2.
  - intros (t' & p & E & P1 & P2). injection E as <-. exists p. split; [exact P1|]. apply startswith_app. exact P2.
Qed.
(** A website goes, for the title it more likely is, exactly if it has no known start, the next match is a season, an episode or a year, and it is not in
    brackets *)
Theorem C80_title safe s markers ms m : ep_ok s markers ms -> nonempty markers ->
  In m (PreferTitleOverWebsite safe markers ms) <->
  In m ms /\ ~ (m_name m = lit "website" /\ ~ known_website safe m /\ (exists y, comes_next ms m y /\ In (m_name y) [lit "season"; lit "episode"; lit "year"]) /\ ~ at_brackets markers m).
Proof.
  intros W MN. unfold PreferTitleOverWebsite. rewrite remove_all_In; [|apply W|intros x Hx; apply filter_In in Hx as [Hx _]; apply named_In in Hx; apply Hx].
  rewrite filter_In, named_In. unfold website_title. split; intros [H1 H2]; (split; [exact H1|]).
  - intros (N & S & F & G). apply H2. split; [auto|]. rewrite !Bool.andb_true_iff, !Bool.negb_true_iff. split; [split|].
    + rewrite <- Bool.not_true_iff_false, safe_iff. exact S.
    + apply (first_next s markers ms m _ W). destruct F as (y & Y1 & Y2). exists y. split; [exact Y1|]. apply smem_In. exact Y2.
    + pose proof (eo_nonempty _ _ _ W m H1) as L. change (filter (has_name (lit "group")) (at_match m markers)) with (in_group markers (hole_match s (m_start m, m_end m))). pose proof (fun g => bracket_iff s markers (m_start m, m_end m) g L) as B.
      destruct (first (in_group markers (hole_match s (m_start m, m_end m)))) as [g|]; [|reflexivity]. exfalso. apply G. exists g. destruct (proj2 (B g) eq_refl) as [X|[_ X]]; apply first_of_In in X as [X1 X2]; cbn [fst snd] in X2; auto.
  - intros ((_ & N) & C). rewrite !Bool.andb_true_iff, !Bool.negb_true_iff in C. destruct C as [[C1 C2] C3]. apply H2. split; [exact N|]. split; [rewrite <- safe_iff, C1; discriminate|]. split.
    + apply (first_next s markers ms m _ W) in C2 as (y & Y1 & Y2). exists y. split; [exact Y1|]. apply smem_In in Y2. exact Y2.
    + intros (g & G1 & G2). pose proof (eo_nonempty _ _ _ W m H1) as L. change (filter (has_name (lit "group")) (at_match m markers)) with (in_group markers (hole_match s (m_start m, m_end m))) in C3. pose proof (no_group_iff s markers (m_start m, m_end m) L) as Ng.
      destruct (in_group markers (hole_match s (m_start m, m_end m))) as [|g0 l] eqn:E; [destruct (proj1 Ng eq_refl g G1) as [X Y]; cbn [fst snd] in X, Y; destruct G2; contradiction|].
      cbn [first hd_error o_truthy] in C3. assert (I : In g0 markers). { assert (X : In g0 (in_group markers (hole_match s (m_start m, m_end m)))) by (rewrite E; left; reflexivity). unfold in_group in X. apply filter_In in X as [X _]. unfold at_match, at_span in X. apply merge_new_sub in X as [X|X]; [apply filter_In in X; apply X|]. destruct (m_end (hole_match s (m_start m, m_end m))); [destruct X|apply filter_In in X; apply X]. }
      specialize (MN g0 I). unfold first, o_truthy, m_truthy in C3. cbn [hd_error] in C3. lia.
Qed.
Print Assumptions C80_title.
Lemma text_holes s markers ms a b : ep_ok s markers ms -> b <= List.length s ->
  nonnil (filter (fun h => nonnil (cleaned (raw s h))) (holes s ms a b never (Some seps))) = false <-> nothing_between s ms a b.
Proof.
  intros W B. rewrite nonnil_no. assert (Me : Nat.min (max_end s ms) b = b) by (rewrite max_end_inside by apply W; lia).
  assert (T : forall h, nonnil (cleaned (raw s h)) = true <-> exists j c, fst h <= j < snd h /\ nth_error s j = Some c /\ is_sep c = false).
  { intros h. rewrite cleaned_iff. unfold has_text. change (raw s h) with (slice (fst h) (snd h) s). split.
    - intros (c & C1 & C2). apply slice_In in C1 as (j & J1 & J2). exists j, c. auto.
    - intros (j & c & J1 & J2 & J3). exists c. split; [apply slice_In; exists j; auto|exact J3]. }
  split.
  - intros H j c Hj Hc. destruct (covered_dec ms j) as [C|C]; [left; exact C|right]. destruct (is_sep c) eqn:S; [reflexivity|]. exfalso.
    destruct (holes_cut s seps ms a b (eo_nonempty _ _ _ W)) as [CA _ _]; [lia|]. destruct (CA j ltac:(lia) C) as (h & Hh & Hj').
    { intros X. apply cut_sep in X as (d & D1 & D2). rewrite Hc in D1. injection D1 as <-. congruence. }
    apply (H h). apply filter_In. split; [exact Hh|]. apply T. exists j, c. auto.
  - intros H h Hh. apply filter_In in Hh as [Hh Ht]. apply T in Ht as (j & c & J1 & J2 & J3). pose proof (holes_bounds _ _ _ _ _ _ Hh) as [B1 B2]. rewrite Me in B2.
    destruct (H j c ltac:(lia) J2) as [C|C]; [|congruence]. destruct (holes_cut_run s seps ms a b h (eo_nonempty _ _ _ W) ltac:(lia) Hh) as (x & R1 & R2 & R3 & R4 & R5 & R6).
    destruct (Nat.eq_dec j x) as [->|]; [apply (opens_free _ _ _ _ R3 C)|]. destruct (R5 j ltac:(lia)) as [X _]. contradiction.
Qed.
(** A website prefix stays exactly if the next match is a website and only separators and matches are in between *)
Theorem C80_prefix s markers ms m : ep_ok s markers ms ->
  In m (ValidateWebsitePrefix s ms) <->
  In m ms /\ (tag "website.prefix" m -> exists w, comes_next ms m w /\ m_name w = lit "website" /\ nothing_between s ms (m_end m) (m_start w)).
Proof.
  intros W. unfold ValidateWebsitePrefix. rewrite remove_all_In; [|apply W|intros x Hx; apply filter_In in Hx as [Hx _]; apply filter_In in Hx; apply Hx].
  assert (K : In m ms -> prefix_alone s ms m = false <-> exists w, comes_next ms m w /\ m_name w = lit "website" /\ nothing_between s ms (m_end m) (m_start w)).
  { intros Hm. assert (I : forall x, In x (next m ms (has_name (lit "website"))) <-> m_name x = lit "website" /\ comes_next ms m x).
    { intros x. rewrite next_In, has_name_iff; [reflexivity|]. intros y Hy. apply (eo_inside _ _ _ W y Hy). }
    unfold prefix_alone, first. destruct (next m ms (has_name (lit "website"))) as [|w l]; cbn [hd_error].
    - split; [discriminate|]. intros (w & W1 & W2 & _). destruct (proj2 (I w) (conj W2 W1)).
    - destruct (proj1 (I w) (or_introl eq_refl)) as [W1 W2]. pose proof W2 as (W3 & W4 & W5). rewrite (truthy_some ms w) by (auto; apply W). pose proof (eo_inside _ _ _ W w W3). rewrite (text_holes s markers ms _ _ W) by lia. split; [intros H'; exists w; auto|].
      intros (w' & (V1 & V2 & V3) & _ & V4). assert (m_start w = m_start w') as -> by (specialize (W5 w' V1 V2); specialize (V3 w W3 W4); lia). exact V4. }
  rewrite filter_In. unfold tagged. rewrite filter_In, has_tag_iff. unfold tag. split; intros [H1 H2]; (split; [exact H1|]).
  - intros T. apply (K H1). apply Bool.not_true_iff_false. intros X. apply H2. auto.
  - intros [[_ T] X]. apply H2 in T. apply (K H1) in T. congruence.
Qed.
Print Assumptions C80_prefix.
Example C80_ex : ValidateWebsitePrefix (lit "from site.com Show") [set_private (simple 0 4 (lit "website") (MvStr (lit "from")) [lit "website.prefix"]); simple 5 13 (lit "website") (MvStr (lit "site.com")) []] =
    [set_private (simple 0 4 (lit "website") (MvStr (lit "from")) [lit "website.prefix"]); simple 5 13 (lit "website") (MvStr (lit "site.com")) []] /\
  ValidateWebsitePrefix (lit "from my site.com") [set_private (simple 0 4 (lit "website") (MvStr (lit "from")) [lit "website.prefix"]); simple 8 16 (lit "website") (MvStr (lit "site.com")) []] = [simple 8 16 (lit "website") (MvStr (lit "site.com")) []].
Proof. split; reflexivity. Qed.
Example C80_title_ex : PreferTitleOverWebsite [lit "www."] [] [simple 0 7 (lit "website") (MvStr (lit "lost.tv")) []; simple 8 11 (lit "season") (MvInt 1) []] = [simple 8 11 (lit "season") (MvInt 1) []] /\
  PreferTitleOverWebsite [lit "www."] [] [simple 0 7 (lit "website") (MvStr (lit "www.tv")) []; simple 8 11 (lit "season") (MvInt 1) []] = [simple 0 7 (lit "website") (MvStr (lit "www.tv")) []; simple 8 11 (lit "season") (MvInt 1) []].
Proof. split; reflexivity. Qed.
(** A limit: the private prefix itself has the name "website", so that the next match after a prefix may be another prefix *)
Example C80_limit : ValidateWebsitePrefix (lit "from by x") [set_private (simple 0 4 (lit "website") (MvStr (lit "from")) [lit "website.prefix"]); set_private (simple 5 7 (lit "website") (MvStr (lit "by")) [lit "website.prefix"])] =
  [set_private (simple 0 4 (lit "website") (MvStr (lit "from")) [lit "website.prefix"])].
Proof. reflexivity. Qed.
