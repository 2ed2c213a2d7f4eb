(** Release groups after or before a dash (C79). *)
From Verif Require Import Py PyFacts Text TextFacts Sort Formatters FormattersProofs FormattersProps Common Rebulk RebulkFacts RuleSpec Processors Title TitleProofs TitleConflictProps HolesMore HolesCut EpisodeTitle Episodes EpisodesProofs EpisodeRules EpisodeRulesProps EpisodeWeakProps EpisodeSolverProps Technical TechnicalProps UltraProps IntProps ReleaseGroup AnimeGroupProps SceneGroupProps.
From Coq Require Import Arith ZifyBool Sorted Permutation.

(** ** Specification *)
Definition visible (m : mt) : Prop := m_private m = false /\ ~ tag "expected" m.
(** the last visible match that starts before a position, in a component that starts at [a] *)
Definition prev_of (ms : list mt) (a i : nat) (c : mt) : Prop := rightmost ms a i visible c.
(** going back from match to match, two of them are apart by just a dot *)
Inductive dots (s : str) (ms : list mt) (a : nat) (m : mt) : Prop :=
| dots_here c : prev_of ms a (m_start m) c -> slice (m_end c) (m_start m) s = lit "." -> dots s ms a m
| dots_before c : prev_of ms a (m_start m) c -> dots s ms a c -> dots s ms a m.
(** what ends a component but for its container *)
Definition end_of (ms : list mt) (part : mt) (e : nat) : Prop :=
  let ext m := m_name m = lit "container" /\ m_end m = m_end part in
  (exists c, first_of ms ext c /\ e = m_start c) \/ ((forall c, In c ms -> ~ ext c) /\ e = m_end part).
(** a match that ends there and may be a release group *)
Definition no_outer_space (t : str) : Prop := (forall c r, t = c :: r -> is_space c = false) /\ (forall c r, t = r ++ [c] -> is_space c = false).
Definition could_be (s : str) (e : nat) (m : mt) : Prop :=
  m_end m = e /\ m_private m = false /\ ~ (m_name m = lit "other" /\ tag "not-a-release-group" m) /\ ~ In 45%N (text_of s m) /\ no_outer_space (text_of s m).
(** a dash, at which a hole opens, and a word that nothing covers up to there *)
Definition dash_word (s : str) (ms : list mt) (a e x : nat) : Prop :=
  a <= x /\ x + 1 < e /\ nth_error s x = Some 45%N /\ opens s seps ms x /\ forall j, x < j < e -> ~ covered ms j /\ ~ cut_at s seps j.
(** no visible match covers an end of the brackets around the zone, but with the same place as the zone *)
Definition alone (markers ms : list mt) (z : nat * nat) : Prop :=
  forall g, bracket_of markers z g -> forall y, In y ms -> (m_start y <= m_start g < m_end y \/ m_start y <= m_end g - 1 < m_end y) -> m_private y = true \/ m_start y = fst z /\ m_end y = snd z.
(** the zone of a release group at the end *)
Definition end_zone (s : str) (markers ms : list mt) (part : mt) (z : nat * nat) : Prop :=
  end_of ms part (snd z) /\ alone markers ms z /\
  ((exists m p, first_of ms (could_be s (snd z)) m /\ fst z = m_start m /\ prev_of ms (m_start part) (fst z) p /\ slice (m_end p) (fst z) s = lit "-" /\ dots s ms (m_start part) p) \/
   ((forall m, In m ms -> ~ could_be s (snd z) m) /\ dash_word s ms (m_start part) (snd z) (fst z) /\
    exists p, prev_of ms (m_start part) (fst z) p /\ (slice (m_end p) (fst z) s = lit "-" \/ fst z <= m_end p) /\ dots s ms (m_start part) p)).
(** the zone of a release group at the start: a word before a dash, then dotted words *)
Definition start_zone (s : str) (markers ms : list mt) (part : mt) (z : nat * nat) : Prop :=
  fst z = m_start part /\ fst z + 1 < snd z /\ (forall j, fst z <= j < snd z -> ~ covered ms j) /\ (forall j, fst z < j < snd z -> ~ cut_at s seps j) /\
  (cut_at s seps (fst z) -> opens s seps ms (fst z)) /\
  (forall g, In g markers -> ~ covers_at (fst z) g /\ ~ covers_at (snd z - 1) g) /\
  exists f t, snd z < f <= m_end part /\ (forall j, snd z <= j < f -> ~ covered ms j) /\ (f = m_end part \/ covered ms f) /\
    slice (snd z) f s = 45%N :: t /\ ~ In 45%N t /\ In 46%N t /\ ~ In 32%N t.
Definition zone_of (s : str) (markers ms : list mt) (part : mt) (z : nat * nat) : Prop :=
  end_zone s markers ms part z \/ (forall z', ~ end_zone s markers ms part z') /\ start_zone s markers ms part z.
(** the matches that go for a zone at the end *)
Definition at_ends (z : nat * nat) (m : mt) : Prop := m_start m <= fst z < m_end m \/ m_start m <= snd z - 1 < m_end m.
(** the zone changes something *)
Definition effective (clean : str -> str) (s : str) (markers ms : list mt) (part : mt) : Prop :=
  exists z, zone_of s markers ms part z /\ (clean (slice (fst z) (snd z) s) <> [] \/ end_zone s markers ms part z /\ exists y, In y ms /\ at_ends z y).
(** the first component with one *)
Definition chosen (clean : str -> str) (s : str) (markers ms : list mt) (part : mt) : Prop :=
  first_of markers (fun p => m_name p = lit "path" /\ effective clean s markers ms p) part.

(** ** Proofs *)
Lemma seen_iff m : seen m = true <-> visible m.
Proof. unfold seen, visible, tag. rewrite Bool.andb_true_iff, !Bool.negb_true_iff, has_tag_false. reflexivity. Qed.
Lemma slice_empty (s : str) a b : b <= List.length s -> nonnil (slice a b s) = false <-> b <= a.
Proof.
  intros L. unfold slice. split.
  - intros H. destruct (Nat.le_gt_cases b a) as [|G]; [assumption|exfalso]. assert (List.length (firstn (b - a) (skipn a s)) = b - a) by (rewrite firstn_length, skipn_length; lia).
    destruct (firstn (b - a) (skipn a s)); [cbn in *; lia|discriminate].
  - intros H. replace (b - a) with 0 by lia. reflexivity.
Qed.
Lemma outer_iff t : str_eqb (strip is_space t) t = true <-> no_outer_space t.
Proof.
  rewrite str_eqb_eq. destruct (strip_spec is_space t) as (u & v & E & Hu & Hv & H1 & H2). split.
  - intros X. rewrite X in *. split; intros c r Ec; [apply H1; rewrite Ec; reflexivity|apply H2; unfold last_error; rewrite Ec, rev_app_distr; reflexivity].
  - intros [A B]. destruct u as [|c u].
    + destruct (rev v) as [|c w] eqn:Ev; [apply (f_equal (@rev _)) in Ev; rewrite rev_involutive in Ev; cbn in Ev; subst v; rewrite app_nil_r in E; symmetry; exact E|].
      apply (f_equal (@rev _)) in Ev. rewrite rev_involutive in Ev. cbn [rev] in Ev. rewrite Ev in *. rewrite Forall_forall in Hv. assert (is_space c = true) by (apply Hv, in_app_iff; right; left; reflexivity).
      rewrite (B c (strip is_space t ++ rev w)) in H; [discriminate|]. rewrite <- app_assoc. exact E.
    + apply Forall_inv in Hu. cbv beta in Hu. rewrite (A c (u ++ strip is_space t ++ v) E) in Hu. discriminate.
Qed.
Lemma could_iff s e m : m_end m = e -> candidate_match s m = true <-> could_be s e m.
Proof.
  intros E. unfold candidate_match, could_be, tag. change (m_raw s m) with (text_of s m). rewrite !Bool.andb_true_iff, !Bool.negb_true_iff, Bool.andb_false_iff, has_name_false, has_tag_false, outer_iff.
  assert (K : cmem 45 (text_of s m) = false <-> ~ In 45%N (text_of s m)) by (rewrite <- Bool.not_true_iff_false, cmem_In; reflexivity). rewrite K.
  destruct (list_eq_dec N.eq_dec (m_name m) (lit "other")), (has_tag (lit "not-a-release-group") m) eqn:T; (apply has_tag_iff in T || apply has_tag_false in T); tauto.
Qed.
Section Dash.
  Context (s : str) (markers ms : list mt) (W : ep_ok s markers ms) (MI : inside s markers) (MN : nonempty markers).
  Lemma prev_last a i : i <= List.length s ->
    match truthy_o (last_o (range s ms a i seen)) with Some c => prev_of ms a i c | None => forall c, ~ prev_of ms a i c end.
  Proof.
    intros L. pose proof (rightmost_range s ms a i seen visible (eo_inside _ _ _ W) L seen_iff) as R. destruct (last_o (range s ms a i seen)) as [c|].
    - rewrite (truthy_some ms c); [exact R|apply W|apply R].
    - cbn. intros c [(C1 & C2 & C3 & C4) _]. apply (R c C1 C2 C3 C4).
  Qed.
  Lemma dots_ext a m m' : m_start m = m_start m' -> dots s ms a m -> dots s ms a m'.
  Proof. intros E [c H1 H2|c H1 H2]; rewrite E in *; [apply (dots_here s ms a m' c)|apply (dots_before s ms a m' c)]; assumption. Qed.
  Lemma dotted_iff a : forall fuel m, m_start m < fuel -> m_start m <= List.length s -> dotted fuel s ms a false m = true <-> dots s ms a m.
  Proof.
    induction fuel as [|fuel IH]; intros m L B; [lia|]. cbn [dotted]. pose proof (prev_last a (m_start m) B) as R. destruct (truthy_o (last_o (range s ms a (m_start m) seen))) as [c|].
    - assert (Lc : m_start c < m_start m) by apply R.
      assert (Sep : str_eqb (if negb (nonnil (slice (m_end c) (m_start m) s)) && starts_dash (m_raw s m) then lit "-" else slice (m_end c) (m_start m) s) (lit ".") = true <-> slice (m_end c) (m_start m) s = lit ".").
      { rewrite str_eqb_eq. match goal with |- context [if ?b then _ else _] => destruct b eqn:X end; [|reflexivity]. split; [discriminate|]. intros H. rewrite H in X. discriminate. }
      match goal with |- context [if ?b then true else _] => destruct b eqn:X end.
      + apply proj1 in Sep. specialize (Sep eq_refl). split; [intros _; apply (dots_here s ms a m c); assumption|reflexivity].
      + rewrite IH by lia. split; [intros H; apply (dots_before s ms a m c); assumption|].
        intros [c' H1 H2|c' H1 H2]; destruct (rightmost_span _ _ _ _ _ _ R H1) as [E1 E2].
        * exfalso. rewrite <- E2 in H2. apply Sep in H2. discriminate.
        * apply (dots_ext a c'); [congruence|exact H2].
    - split; [discriminate|]. intros [c H1 H2|c H1 H2]; destruct (R c H1).
  Qed.
  Lemma head_iff a c : m_start c <= List.length s -> dotted (S (m_start c)) s ms a true c = true <->
    exists p, prev_of ms a (m_start c) p /\ (slice (m_end p) (m_start c) s = lit "-" \/ m_start c <= m_end p /\ starts_dash (m_raw s c) = true) /\ dots s ms a p.
  Proof.
    intros B. cbn [dotted]. pose proof (prev_last a (m_start c) B) as R. destruct (truthy_o (last_o (range s ms a (m_start c) seen))) as [p|].
    - assert (Lc : m_start p < m_start c) by apply R. pose proof (slice_empty s (m_end p) (m_start c) B) as Em.
      assert (Sep : str_eqb (if negb (nonnil (slice (m_end p) (m_start c) s)) && starts_dash (m_raw s c) then lit "-" else slice (m_end p) (m_start c) s) (lit "-") = true <->
                    slice (m_end p) (m_start c) s = lit "-" \/ m_start c <= m_end p /\ starts_dash (m_raw s c) = true).
      { rewrite <- Em. destruct (nonnil (slice (m_end p) (m_start c) s)) eqn:N; cbn [negb andb]; [rewrite str_eqb_eq; intuition discriminate|]. destruct (starts_dash (m_raw s c)); [split; [auto|reflexivity]|].
        rewrite str_eqb_eq. split; [auto|]. intros [H|[_ H]]; [exact H|discriminate]. }
      match goal with |- context [if ?b then dotted _ _ _ _ _ _ else _] => destruct b eqn:X end.
      + apply proj1 in Sep. specialize (Sep eq_refl). rewrite dotted_iff by lia. split; [intros H; exists p; auto|]. intros (q & H1 & _ & H3). destruct (rightmost_span _ _ _ _ _ _ R H1) as [E1 _]. apply (dots_ext a q); [congruence|exact H3].
      + split; [discriminate|]. intros (q & H1 & H2 & _). destruct (rightmost_span _ _ _ _ _ _ R H1) as [_ E2]. rewrite <- E2 in H2. apply Sep in H2. discriminate.
    - split; [discriminate|]. intros (q & H1 & _). destruct (R q H1).
  Qed.
  Lemma at_match_In m x : m_start m < m_end m -> In x (at_match m ms) <-> In x ms /\ at_ends (m_start m, m_end m) x.
  Proof.
    intros L. unfold at_match, at_span. assert (Ei : match m_end m with 0 => [] | S b' => at_index b' ms end = at_index (m_end m - 1) ms) by (destruct (m_end m); [lia|f_equal; lia]). rewrite Ei.
    assert (C : forall i x, In x (at_index i ms) <-> In x ms /\ m_start x <= i < m_end x) by (intros i y; unfold at_index, covers; rewrite filter_In, Bool.andb_true_iff, Nat.leb_le, Nat.ltb_lt; tauto).
    unfold at_ends; cbn [fst snd]. split.
    - intros H. apply merge_new_sub in H as [H|H]; apply C in H; tauto.
    - intros [H H']. destruct (proj2 (merge_new_key (at_index (m_start m) ms) (at_index (m_end m - 1) ms) (mkey x))) as (y & Hy & Ey); [exists x; split; [rewrite !C; tauto|reflexivity]|].
      enough (y = x) as <- by exact Hy. apply (distinct_inj ms); [apply W| |exact H|exact Ey]. apply merge_new_sub in Hy as [Hy|Hy]; apply C in Hy; apply Hy.
  Qed.
  (** ** the brackets and the end *)
  Lemma alone_iff c : m_start c < m_end c ->
    negb (match truthy_o (first (in_group markers c)) with Some g => nonnil (filter (fun m => negb (m_private m) && negb (same_span m c)) (at_match g ms)) | None => false end) = true <->
    alone markers ms (m_start c, m_end c).
  Proof.
    intros L. pose proof (fun g => bracket_iff s markers (m_start c, m_end c) g L) as B. change (in_group markers (hole_match s (m_start c, m_end c))) with (in_group markers c) in B. unfold alone; cbn [fst snd].
    destruct (first (in_group markers c)) as [g|].
    - assert (Bg : bracket_of markers (m_start c, m_end c) g) by (apply B; reflexivity). assert (G : In g markers) by (destruct Bg as [X|[_ X]]; apply first_of_In in X; apply X).
      rewrite (truthy_some markers g MN G), Bool.negb_true_iff, nonnil_no. pose proof (at_match_In g) as Am. specialize (fun x => Am x (MN g G)). split.
      + intros H g' Hg' y Hy Hc. apply B in Hg'. injection Hg' as <-. destruct (m_private y) eqn:Py; [left; reflexivity|right]. destruct (same_span y c) eqn:Sy; [unfold same_span in Sy; lia|]. exfalso.
        apply (H y). apply filter_In. rewrite Am, Py, Sy. auto.
      + intros H y Hy. apply filter_In in Hy as [Hy Q]. apply Am in Hy as [Hy Hc]. destruct (H g Bg y Hy Hc) as [P|[S1 S2]]; [rewrite P in Q; discriminate|]. unfold same_span in Q. lia.
    - cbn. split; [|reflexivity]. intros _ g Hg. apply B in Hg. discriminate.
  Qed.
  Lemma end_iff part e : end_of ms part e <-> e = real_end ms (m_end part).
  Proof.
    unfold end_of, real_end, ending. rewrite filter_filter. set (q := fun x => (m_end x =? m_end part) && has_name (lit "container") x).
    assert (Q : forall x, In x ms -> q x = true <-> m_name x = lit "container" /\ m_end x = m_end part) by (intros x _; unfold q; rewrite Bool.andb_true_iff, Nat.eqb_eq, has_name_iff; tauto).
    pose proof (first_of_filter q _ ms Q) as F. fold q. destruct (first (filter q ms)) as [c|].
    - pose proof (first_of_In _ _ _ F) as [C1 C2]. rewrite (truthy_some ms c) by (auto; apply W). split; [|intros ->; left; exists c; auto]. intros [(c' & F' & ->)|[N _]]; [rewrite (first_of_unique _ _ _ _ F F'); reflexivity|destruct (N c C1 C2)].
    - cbn. split; [|intros ->; right; auto]. intros [(c' & F' & _)|[_ E]]; [apply first_of_In in F' as [A B]; destruct (F c' A B)|exact E].
  Qed.
  Lemma real_end_le part : In part markers -> real_end ms (m_end part) <= List.length s.
  Proof.
    intros P. pose proof (MI part P). destruct (proj2 (end_iff part _) eq_refl) as [(c & C & E)|[_ E]]; [|lia]. apply first_of_In in C as [C _]. pose proof (eo_inside _ _ _ W c C). lia.
  Qed.
  Lemma min_end e : e <= List.length s -> Nat.min (max_end s ms) e = e.
  Proof. intros H. rewrite max_end_inside by apply W. lia. Qed.
  Lemma cut_sep j : cut_at s seps j <-> exists c, nth_error s j = Some c /\ is_sep c = true.
  Proof. unfold cut_at. split; intros (c & A & B); exists c; (split; [exact A|apply cmem_In; exact B]). Qed.
  Lemma slice_In (t : str) a b c : In c (slice a b t) <-> exists j, a <= j < b /\ nth_error t j = Some c.
  Proof.
    split.
    - intros H. apply In_nth_error in H as (k & H). rewrite slice_nth in H. destruct (k <? b - a) eqn:E; [|discriminate]. exists (a + k). split; [lia|exact H].
    - intros (j & Hj & E). apply (nth_error_In _ (j - a)). rewrite slice_nth. replace (j - a <? b - a) with true by lia. replace (a + (j - a)) with j by lia. exact E.
  Qed.
  Lemma slice_head (t : str) a b : hd_error (slice a b t) = if a <? b then nth_error t a else None.
  Proof.
    assert (E : hd_error (slice a b t) = nth_error (slice a b t) 0) by (destruct (slice a b t); reflexivity). rewrite E, slice_nth, Nat.add_0_r. replace (0 <? b - a) with (a <? b) by lia. reflexivity.
  Qed.
  Lemma dash_head a b : starts_dash (slice a b s) = true <-> a < b /\ nth_error s a = Some 45%N.
  Proof.
    assert (E : starts_dash (slice a b s) = true <-> hd_error (slice a b s) = Some 45%N).
    { destruct (slice a b s) as [|c r]; cbn; [split; discriminate|]. rewrite N.eqb_eq. split; [intros ->; reflexivity|intros H; injection H; auto]. }
    rewrite E, slice_head. destruct (Nat.ltb_spec a b); [tauto|]. split; [discriminate|lia].
  Qed.
  Lemma text_iff a b : negb (forallb is_sep (slice a b s)) = true <-> exists j, a <= j < b /\ j < List.length s /\ ~ cut_at s seps j.
  Proof.
    rewrite Bool.negb_true_iff. split.
    - intros H. assert (E : existsb (fun c => negb (is_sep c)) (slice a b s) = true).
      { destruct (existsb _ _) eqn:X; [reflexivity|]. rewrite <- H. apply forallb_forall. intros c Hc. destruct (is_sep c) eqn:Y; [reflexivity|]. rewrite <- X. apply existsb_exists. exists c. rewrite Y. auto. }
      apply existsb_exists in E as (c & Hc & N). apply slice_In in Hc as (j & J & E). exists j. split; [exact J|]. split; [apply nth_error_Some; congruence|]. rewrite cut_sep. intros (d & D1 & D2). rewrite E in D1. injection D1 as <-. rewrite D2 in N. discriminate.
    - intros (j & J & L & N). destruct (nth_error s j) as [c|] eqn:E; [|apply nth_error_None in E; lia]. apply Bool.not_true_iff_false. rewrite forallb_forall. intros H. apply N. apply cut_sep. exists c. split; [exact E|]. apply H. apply slice_In. exists j. auto.
  Qed.
  Lemma end_hole a e h : e <= List.length s ->
    last_o (filter (fun h => (snd h =? e) && negb (forallb is_sep (raw s h)) && starts_dash (raw s h)) (holes s ms a e never (Some seps))) = Some h <-> snd h = e /\ dash_word s ms a e (fst h).
  Proof.
    intros B. pose proof (min_end e B) as Me. set (q := fun h : nat * nat => (snd h =? e) && negb (forallb is_sep (raw s h)) && starts_dash (raw s h)).
    assert (Q : forall h, In h (holes s ms a e never (Some seps)) -> q h = true <-> snd h = e /\ (exists j, fst h <= j < snd h /\ j < List.length s /\ ~ cut_at s seps j) /\ nth_error s (fst h) = Some 45%N).
    { intros g _. unfold q. change (raw s g) with (slice (fst g) (snd g) s). rewrite !Bool.andb_true_iff, Nat.eqb_eq, text_iff, dash_head. split; [tauto|]. intros (A1 & A2 & A3). split; [split; assumption|]. split; [destruct A2 as (j & J & _); lia|exact A3]. }
    assert (K : forall h, In h (holes s ms a e never (Some seps)) -> q h = true -> snd h = e /\ dash_word s ms a e (fst h)).
    { intros g G1 G2. apply Q in G2 as (Q1 & (j & J1 & J2 & J3) & Q3); [|exact G1]. pose proof (holes_bounds _ _ _ _ _ _ G1) as [Ba _]. split; [exact Q1|]. assert (Ha : a < Nat.min (max_end s ms) e) by lia.
      destruct (holes_cut_run s seps ms a e g (eo_nonempty _ _ _ W) Ha G1) as (x & R1 & R2 & R3 & R4 & R5 & R6). assert (C : cut_at s seps (fst g)) by (apply cut_sep; exists 45%N; split; [exact Q3|reflexivity]).
      assert (x = fst g). { destruct (Nat.eq_dec x (fst g)) as [|D]; [assumption|]. destruct (R5 (fst g) ltac:(lia)) as [_ X]. contradiction. } subst x.
      split; [exact Ba|]. split; [assert (j <> fst g) by (intros ->; contradiction); lia|]. split; [exact Q3|]. split; [exact R3|]. rewrite <- Q1. exact R5. }
    assert (K' : forall h, snd h = e /\ dash_word s ms a e (fst h) -> In h (filter q (holes s ms a e never (Some seps)))).
    { intros g [G1 (D1 & D2 & D3 & D4 & D5)]. assert (In g (holes s ms a e never (Some seps))) as I.
      { apply (cut_run_hole s seps ms a e (fst g)); [apply W|lia| |exists (fst g + 1); split; [lia|apply D5; lia]]. rewrite Me. split; [lia|]. split; [lia|]. split; [exact D4|]. split; [lia|]. split; [rewrite G1; exact D5|left; exact G1]. }
      apply filter_In. split; [exact I|]. apply Q; [exact I|]. split; [exact G1|]. split; [|exact D3]. exists (fst g + 1). split; [lia|]. split; [lia|apply D5; lia]. }
    assert (Sub : forall g, last_o (filter q (holes s ms a e never (Some seps))) = Some g -> In g (holes s ms a e never (Some seps)) /\ q g = true) by (intros g G; apply filter_In; destruct (last_o_split _ _ G) as (l' & ->); apply in_app_iff; right; left; reflexivity).
    split; [intros H; apply Sub in H as [H1 H2]; apply K; assumption|]. intros H. specialize (K' h H). destruct (last_o_some _ _ K') as (g & G). rewrite G. destruct (Sub g G) as [G1 G2]. destruct (K g G1 G2) as [G3 (G4 & G5 & _)].
    destruct H as [H1 (H2 & H3 & _)]. destruct (holes_cut s seps ms a e (eo_nonempty _ _ _ W) ltac:(lia)) as [_ _ S]. destruct (sorted_last _ _ _ (filter_sorted_hole q _ S) G K') as [->|X]; [reflexivity|]. unfold hole_lt in X. lia.
  Qed.
  Lemma detect_end_iff part z : In part markers -> (exists c, detect_end s markers ms part = Some c /\ z = (m_start c, m_end c)) <-> end_zone s markers ms part z.
  Proof.
    intros P. unfold detect_end, end_zone. rewrite end_iff. pose proof (real_end_le part P) as Le. set (e := real_end ms (m_end part)) in *.
    unfold candidate_end, ending. rewrite filter_filter. set (q := fun x => (m_end x =? e) && candidate_match s x).
    assert (Q : forall x, In x ms -> q x = true <-> could_be s e x).
    { intros x _. unfold q. rewrite Bool.andb_true_iff, Nat.eqb_eq. split; [intros [A B]; apply (could_iff s e x A); exact B|]. intros H. assert (A : m_end x = e) by apply H. split; [exact A|apply (could_iff s e x A); exact H]. }
    pose proof (first_of_filter q _ ms Q) as F. fold q. destruct (first (filter q ms)) as [m|].
    - pose proof (first_of_In _ _ _ F) as [M1 M2]. rewrite (truthy_some ms m) by (auto; apply W). unfold keep_if, valid_end. pose proof (eo_nonempty _ _ _ W m M1) as Ml. pose proof (eo_inside _ _ _ W m M1) as Mi. assert (Me : m_end m = e) by apply M2.
      assert (Nd : starts_dash (m_raw s m) = false). { destruct M2 as (_ & _ & _ & M2 & _). unfold text_of in M2. unfold m_raw. destruct (slice (m_raw_start m) (m_raw_end m) s) as [|c r]; [reflexivity|]. cbn. apply N.eqb_neq. intros ->. apply M2. left; reflexivity. }
      match goal with |- context [if ?b then Some m else None] => destruct b eqn:V end.
      + apply andb_prop in V as [V1 V2]. apply alone_iff in V1; [|exact Ml]. apply head_iff in V2; [|lia]. destruct V2 as (p & V2 & V3 & V4). rewrite Nd in V3. destruct V3 as [V3|[_ V3]]; [|discriminate]. split.
        * intros (c & E & ->). injection E as <-. cbn [fst snd]. split; [exact Me|]. split; [exact V1|]. left. rewrite Me. exists m, p. auto.
        * intros (E & A & [(m' & p' & F' & Z & _)|(N & _)]); [|destruct (N m M1); rewrite E; exact M2]. rewrite E in F'. rewrite <- (first_of_unique _ _ _ _ F F') in Z. exists m. split; [reflexivity|]. destruct z; cbn [fst snd] in *; congruence.
      + split; [intros (c & E & _); discriminate|]. intros (E & A & [(m' & p' & F' & Z & X1 & X2 & X3)|(N & _)]); [|destruct (N m M1); rewrite E; exact M2]. rewrite E in F'. rewrite <- (first_of_unique _ _ _ _ F F') in Z.
        exfalso. rewrite <- Bool.not_true_iff_false in V. apply V. apply andb_true_intro. split; [apply alone_iff; [exact Ml|]; destruct z; cbn [fst snd] in *; rewrite Me, <- Z, <- E; exact A|]. apply head_iff; [lia|]. exists p'. rewrite <- Z. auto.
    - cbn [truthy_o]. pose proof (end_hole (m_start part) e) as Eh. specialize (fun h => Eh h Le).
      set (o := last_o (filter (fun h => (snd h =? e) && negb (forallb is_sep (raw s h)) && starts_dash (raw s h)) (holes s ms (m_start part) e never (Some seps)))) in *. clearbody o.
      destruct o as [h|]; cbn [option_map keep_if].
      + destruct (proj1 (Eh h) eq_refl) as [H1 H2]. pose proof H2 as (D1 & D2 & D3 & D4 & D5). assert (Nd : starts_dash (m_raw s (hole_match s h)) = true) by (apply dash_head; cbn; split; [lia|exact D3]).
        match goal with |- context [if ?b then Some _ else None] => destruct b eqn:V end; unfold valid_end in V.
        * apply andb_prop in V as [V1 V2]. apply alone_iff in V1; [|cbn; lia]. apply head_iff in V2; [|cbn; lia]. destruct V2 as (p & V2 & V3 & V4). change (m_start (hole_match s h)) with (fst h) in *. change (m_end (hole_match s h)) with (snd h) in *. split.
          -- intros (c & E & ->). injection E as <-. change (m_start (hole_match s h)) with (fst h). change (m_end (hole_match s h)) with (snd h). cbn [fst snd]. split; [exact H1|]. split; [exact V1|]. right. rewrite H1. split; [exact F|]. split; [exact H2|]. exists p. split; [exact V2|]. split; [tauto|exact V4].
          -- intros (E & A & [(m & p' & F' & _)|(_ & D & _)]); [apply first_of_In in F' as [X Y]; rewrite E in Y; destruct (F m X Y)|]. rewrite E in D. exists (hole_match s h). split; [reflexivity|]. destruct (Eh z) as [_ X]. specialize (X (conj E D)). injection X as <-. destruct h; reflexivity.
        * split; [intros (c & E & _); discriminate|]. intros (E & A & [(m & p' & F' & _)|(_ & D & p & X1 & X2 & X3)]); [apply first_of_In in F' as [X Y]; rewrite E in Y; destruct (F m X Y)|]. exfalso. rewrite E in D. destruct (Eh z) as [_ X]. specialize (X (conj E D)). injection X as <-.
          rewrite <- Bool.not_true_iff_false in V. apply V. apply andb_true_intro. split; [apply alone_iff; [cbn; lia|]; destruct h; exact A|]. apply head_iff; [cbn; lia|]. exists p. split; [exact X1|]. split; [|exact X3]. destruct X2 as [X2|X2]; [left; exact X2|right; split; [exact X2|exact Nd]].
      + split; [intros (c & E & _); discriminate|]. intros (E & A & [(m & p' & F' & _)|(_ & D & _)]); [apply first_of_In in F' as [X Y]; rewrite E in Y; destruct (F m X Y)|]. rewrite E in D. destruct (Eh z) as [_ X]. specialize (X (conj E D)). discriminate.
  Qed.
  (** ** the start *)
  Definition start_run (a e : nat) (h : nat * nat) : Prop :=
    fst h = a /\ snd h <= e /\ (forall j, a <= j < snd h -> ~ covered ms j) /\ (forall j, a < j < snd h -> ~ cut_at s seps j) /\ (cut_at s seps a -> opens s seps ms a) /\
    (exists j, a <= j < snd h /\ ~ cut_at s seps j) /\ (snd h = e \/ covered ms (snd h) \/ cut_at s seps (snd h)).
  Lemma start_run_unique a e h h' : start_run a e h -> start_run a e h' -> h = h'.
  Proof.
    intros (A1 & A2 & A3 & A4 & A5 & (j & J1 & _) & A7) (B1 & B2 & B3 & B4 & B5 & (k & K1 & _) & B7). assert (snd h = snd h').
    { destruct (Nat.lt_trichotomy (snd h) (snd h')) as [L|[L|L]]; [|exact L|]; exfalso.
      - destruct A7 as [A7|[A7|A7]]; [lia|apply (B3 (snd h)); [lia|exact A7]|apply (B4 (snd h)); [lia|exact A7]].
      - destruct B7 as [B7|[B7|B7]]; [lia|apply (A3 (snd h')); [lia|exact B7]|apply (A4 (snd h')); [lia|exact B7]]. }
    destruct h, h'; cbn [fst snd] in *; congruence.
  Qed.
  Lemma hole_start_run a e h : e <= List.length s -> In h (holes s ms a e never (Some seps)) -> fst h = a -> (exists j, fst h <= j < snd h /\ ~ cut_at s seps j) -> start_run a e h.
  Proof.
    intros B I E T. pose proof (min_end e B) as Me. pose proof (holes_bounds _ _ _ _ _ _ I) as [_ Bd]. rewrite Me in Bd. assert (La : a < e) by (destruct T as (j & J & _); lia).
    destruct (holes_cut_run s seps ms a e h (eo_nonempty _ _ _ W) ltac:(lia) I) as (x & R1 & R2 & R3 & R4 & R5 & R6). rewrite Me in *. assert (x <= a) by lia.
    split; [exact E|]. split; [exact Bd|]. split; [|split; [|split; [|split]]].
    - intros j Hj. destruct (Nat.eq_dec j x) as [->|]; [apply (opens_free _ _ _ _ R3)|apply R5; lia].
    - intros j Hj. apply R5; lia.
    - intros C. destruct (Nat.eq_dec a x) as [->|]; [exact R3|]. destruct (R5 a) as [_ X]; [destruct T as (j & J & _); lia|contradiction].
    - rewrite <- E. exact T.
    - exact R6.
  Qed.
  Lemma start_run_hole a e h : e <= List.length s -> start_run a e h -> In h (holes s ms a e never (Some seps)).
  Proof.
    intros B (A1 & A2 & A3 & A4 & A5 & (j & J1 & J2) & A7). pose proof (min_end e B) as Me. assert (La : a < Nat.min (max_end s ms) e) by lia.
    destruct (cut_dec s seps a) as [C|C].
    - apply (cut_run_hole s seps ms a e a); [apply W|exact La| |rewrite A1; exists j; auto]. rewrite Me. split; [lia|]. split; [exact A2|]. split; [apply A5; exact C|]. split; [lia|]. split; [|exact A7]. intros k Hk. split; [apply A3; lia|apply A4; lia].
    - pose proof (holes_cut s seps ms a e (eo_nonempty _ _ _ W) La) as [CA _ _]. destruct (CA a ltac:(lia) (A3 a ltac:(lia)) C) as (h' & I & Ha). pose proof (holes_bounds _ _ _ _ _ _ I) as [Bd _].
      assert (R : start_run a e h') by (apply hole_start_run; [exact B|exact I|lia|exists a; split; [lia|exact C]]).
      rewrite (start_run_unique a e h h'); [exact I| |exact R]. split; [exact A1|]. split; [exact A2|]. split; [exact A3|]. split; [exact A4|]. split; [exact A5|]. split; [exists j; auto|exact A7].
  Qed.
  Lemma candidate_start_iff a e c : e <= List.length s -> candidate_start s ms a e = Some c <-> exists h, start_run a e h /\ c = hole_match s h.
  Proof.
    intros B. unfold candidate_start. set (q := fun h : nat * nat => (fst h =? a) && negb (forallb is_sep (raw s h))).
    assert (Q : forall h, In h (filter q (holes s ms a e never (Some seps))) <-> start_run a e h).
    { intros h. rewrite filter_In. unfold q. change (raw s h) with (slice (fst h) (snd h) s). rewrite Bool.andb_true_iff, Nat.eqb_eq, text_iff. split.
      - intros (I & E & j & J1 & J2 & J3). apply hole_start_run; [exact B|exact I|exact E|exists j; auto].
      - intros R. split; [apply start_run_hole; assumption|]. destruct R as (A1 & A2 & _ & _ & _ & (j & J1 & J2) & _). split; [exact A1|]. exists j. split; [lia|]. split; [lia|exact J2]. }
    unfold first. destruct (filter q (holes s ms a e never (Some seps))) as [|h l] eqn:E; cbn [hd_error option_map].
    - split; [discriminate|]. intros (h & R & _). apply Q in R as [].
    - assert (R : start_run a e h) by (apply Q; left; reflexivity). split; [intros H; injection H as <-; exists h; auto|]. intros (h' & R' & ->). rewrite (start_run_unique a e h h' R R'). reflexivity.
  Qed.
  Lemma no_group_iff h : fst h < snd h -> nonnil (in_group markers (hole_match s h)) = false <-> forall g, In g markers -> ~ covers_at (fst h) g /\ ~ covers_at (snd h - 1) g.
  Proof.
    intros L. pose proof (fun g => bracket_iff s markers h g L) as B. split.
    - intros H g G. assert (N : forall g, ~ bracket_of markers h g) by (intros g' X; apply B in X; destruct (in_group markers (hole_match s h)); discriminate).
      assert (N1 : forall x, In x markers -> ~ covers_at (fst h) x).
      { pose proof (first_of_filter _ _ markers (group_filter markers (fst h))) as F. destruct (first (filter (fun x => covers (fst h) x && has_name (lit "group") x) markers)) as [x|]; [destruct (N x); left; exact F|exact F]. }
      split; [apply N1; exact G|]. pose proof (first_of_filter _ _ markers (group_filter markers (snd h - 1))) as F. destruct (first (filter (fun x => covers (snd h - 1) x && has_name (lit "group") x) markers)) as [x|]; [destruct (N x); right; split; assumption|apply F; exact G].
    - intros H. destruct (in_group markers (hole_match s h)) as [|g l] eqn:E; [reflexivity|exfalso]. assert (X : bracket_of markers h g) by (apply B; reflexivity).
      destruct X as [X|[_ X]]; apply first_of_In in X as [X1 X2]; destruct (H g X1); contradiction.
  Qed.
  Lemma follow_iff a e : e <= List.length s ->
    match first (filter (fun h => fst h =? a) (holes s ms a e never None)) with
    | Some h => (fst h <? snd h) && starts_dash (raw s h) && negb (cmem 45 (tl (raw s h))) && cmem 46 (raw s h) && negb (cmem 32 (raw s h))
    | None => false
    end = true <->
    exists f t, a < f <= e /\ (forall j, a <= j < f -> ~ covered ms j) /\ (f = e \/ covered ms f) /\ slice a f s = 45%N :: t /\ ~ In 45%N t /\ In 46%N t /\ ~ In 32%N t.
  Proof.
    intros B. pose proof (min_end e B) as Me.
    assert (Txt : forall f, starts_dash (slice a f s) && negb (cmem 45 (tl (slice a f s))) && cmem 46 (slice a f s) && negb (cmem 32 (slice a f s)) = true <-> exists t, slice a f s = 45%N :: t /\ ~ In 45%N t /\ In 46%N t /\ ~ In 32%N t).
    { intros f. rewrite !Bool.andb_true_iff, !Bool.negb_true_iff, <- !Bool.not_true_iff_false, !cmem_In. destruct (slice a f s) as [|c t]; cbn [starts_dash tl In]; [split; [intros [[[H _] _] _]; discriminate|intros (t & H & _); discriminate]|]. rewrite N.eqb_eq. split.
      - intros [[[-> H1] H2] H3]. exists t. split; [reflexivity|]. split; [exact H1|]. split; [destruct H2 as [H2|H2]; [discriminate|exact H2]|tauto].
      - intros (t' & E & H1 & H2 & H3). injection E as -> ->. split; [split; [split; [reflexivity|exact H1]|right; exact H2]|]. intros [X|X]; [discriminate|contradiction]. }
    destruct (Nat.lt_ge_cases a e) as [L|L].
    2:{ split; [|intros (f & t & H & _); lia]. intros H. exfalso. destruct (first (filter _ _)) as [h|] eqn:F; [|discriminate]. assert (I : In h (filter (fun h => fst h =? a) (holes s ms a e never None))) by (unfold first in F; destruct (filter _ _); [discriminate|injection F as ->; left; reflexivity]).
        apply filter_In in I as [I _]. apply holes_bounds in I. rewrite Me in I. rewrite !Bool.andb_true_iff, Nat.ltb_lt in H. lia. }
    assert (Hab : a < Nat.min (max_end s ms) e) by lia. destruct (covered_dec ms a) as [C|C].
    - split; [|intros (f & t & H & U & _); destruct (U a ltac:(lia) C)]. intros H. exfalso. destruct (first (filter _ _)) as [h|] eqn:F; [|discriminate].
      assert (I : In h (filter (fun h => fst h =? a) (holes s ms a e never None))) by (unfold first in F; destruct (filter _ _); [discriminate|injection F as ->; left; reflexivity]).
      apply filter_In in I as [I Ea]. rewrite !Bool.andb_true_iff, Nat.ltb_lt in H. apply Nat.eqb_eq in Ea. destruct (proj1 (holes_cover s ms a e (eo_nonempty _ _ _ W) a)) as [_ X]; [exists h; split; [exact I|lia]|contradiction].
    - destruct (holes_first s ms a e (eo_nonempty _ _ _ W) Hab C) as (h & F & Ha & Hl & (R1 & R2 & R3 & R4 & R5 & R6)). rewrite Me in *.
      assert (F' : first (filter (fun h => fst h =? a) (holes s ms a e never None)) = Some h).
      { unfold first in *. destruct (holes s ms a e never None) as [|h0 r]; [discriminate|]. injection F as ->. cbn [filter]. rewrite Ha, Nat.eqb_refl. reflexivity. }
      rewrite F'. replace (fst h <? snd h) with true by lia. change (raw s h) with (slice (fst h) (snd h) s). rewrite Ha. cbn [andb]. rewrite Txt. split.
      + intros (t & T). exists (snd h), t. split; [lia|]. split; [intros j Hj; apply R4; lia|]. split; [exact R6|exact T].
      + intros (f & t & A1 & A2 & A3 & A4). exists t. assert (f = snd h) as <-; [|exact A4].
        destruct (Nat.lt_trichotomy f (snd h)) as [X|[X|X]]; [|exact X|]; exfalso; [destruct A3 as [A3|A3]; [lia|apply (R4 f); [lia|exact A3]]|destruct R6 as [R6|R6]; [lia|apply (A2 (snd h)); [lia|exact R6]]].
  Qed.
  Lemma detect_start_iff part z : In part markers -> (exists c, detect_start s markers ms part = Some c /\ z = (m_start c, m_end c)) <-> start_zone s markers ms part z.
  Proof.
    intros P. pose proof (MI part P) as Pi. unfold detect_start. assert (B : m_end part <= List.length s) by lia. pose proof (candidate_start_iff (m_start part) (m_end part)) as Cs. specialize (fun c => Cs c B).
    assert (V : forall h, start_run (m_start part) (m_end part) h -> valid_start s markers ms (m_end part) (hole_match s h) = true <-> start_zone s markers ms part h).
    { intros h (A1 & A2 & A3 & A4 & A5 & A6 & A7). assert (L : fst h < snd h) by (destruct A6 as (j & J & _); lia). unfold valid_start, start_zone. rewrite !Bool.andb_true_iff, Bool.negb_true_iff, (no_group_iff h L), (follow_iff (m_end (hole_match s h)) (m_end part) B), Nat.ltb_lt.
      change (m_end (hole_match s h)) with (snd h). assert (Le : List.length (m_raw s (hole_match s h)) = snd h - fst h) by (apply ProcessorsProofs.slice_length; cbn; lia). rewrite Le. rewrite A1 in *. split.
      - intros [[H1 H2] H3]. split; [reflexivity || exact A1|]. split; [lia|]. split; [exact A3|]. split; [exact A4|]. split; [exact A5|]. split; [exact H2|exact H3].
      - intros (_ & H1 & _ & _ & _ & H2 & H3). split; [split; [lia|exact H2]|exact H3]. }
    split.
    - intros (c & E & ->). destruct (candidate_start s ms (m_start part) (m_end part)) as [c'|]; [|discriminate]. cbn [keep_if] in E. destruct (valid_start s markers ms (m_end part) c') eqn:X; [|discriminate]. injection E as <-.
      destruct (proj1 (Cs c') eq_refl) as (h & R & ->). apply V in X; [|exact R]. destruct h; exact X.
    - intros Z. assert (R : start_run (m_start part) (m_end part) z).
      { destruct Z as (Z1 & Z2 & Z3 & Z4 & Z5 & Z6 & f & t & Z7 & Z8 & Z9 & Z10 & _). rewrite Z1 in *. split; [exact Z1|]. split; [lia|]. split; [exact Z3|]. split; [exact Z4|]. split; [exact Z5|]. split; [exists (m_start part + 1); split; [lia|apply Z4; lia]|].
        right. right. apply cut_sep. exists 45%N. split; [|reflexivity]. assert (X : hd_error (slice (snd z) f s) = Some 45%N) by (rewrite Z10; reflexivity). rewrite slice_head in X. destruct (snd z <? f); [exact X|discriminate]. }
      assert (E : candidate_start s ms (m_start part) (m_end part) = Some (hole_match s z)) by (apply Cs; exists z; auto). rewrite E. cbn [keep_if]. apply V in Z; [|exact R]. rewrite Z. exists (hole_match s z). split; [reflexivity|destruct z; reflexivity].
  Qed.
End Dash.
Section DashRule.
  Context (clean : str -> str) (s : str) (markers ms : list mt) (W : ep_ok s markers ms) (MI : inside s markers) (MN : nonempty markers).
  (** two zones of a kind in a component are the same *)
  Lemma end_zone_unique part z z' : In part markers -> end_zone s markers ms part z -> end_zone s markers ms part z' -> z = z'.
  Proof. intros P A B. apply (detect_end_iff s markers ms W MI MN) in A as (c & E & ->); [|exact P]. apply (detect_end_iff s markers ms W MI MN) in B as (d & F & ->); [|exact P]. rewrite E in F. injection F as <-. reflexivity. Qed.
  Lemma start_zone_unique part z z' : In part markers -> start_zone s markers ms part z -> start_zone s markers ms part z' -> z = z'.
  Proof. intros P A B. apply (detect_start_iff s markers ms W MI) in A as (c & E & ->); [|exact P]. apply (detect_start_iff s markers ms W MI) in B as (d & F & ->); [|exact P]. rewrite E in F. injection F as <-. reflexivity. Qed.
  Lemma end_zone_long part z : end_zone s markers ms part z -> fst z < snd z.
  Proof.
    intros (_ & _ & [(m & p & F & E & _)|(_ & (_ & D & _) & _)]); [|lia]. apply first_of_In in F as [F1 F2]. pose proof (eo_nonempty _ _ _ W m F1). destruct F2 as (F2 & _). lia.
  Qed.
  Lemma zone_unique part z z' : In part markers -> zone_of s markers ms part z -> zone_of s markers ms part z' -> z = z'.
  Proof.
    intros P [A|[A1 A2]] [B|[B1 B2]]; [apply (end_zone_unique part); assumption|destruct (B1 z A)|destruct (A1 z' B)|apply (start_zone_unique part); assumption].
  Qed.
  Definition found_group (z : nat * nat) : mt := simple (fst z) (snd z) (lit "release_group") (MvStr (clean (slice (fst z) (snd z) s))) [].
  Lemma dash_part_spec part : In part markers ->
    let c := dash_part clean s markers ms part in
    (forall x, In x (fst c) <-> exists z, end_zone s markers ms part z /\ In x ms /\ at_ends z x) /\
    (forall x, In x (snd c) <-> exists z, zone_of s markers ms part z /\ clean (slice (fst z) (snd z) s) <> [] /\ x = found_group z).
  Proof.
    intros P. unfold dash_part. pose proof (fun z => detect_end_iff s markers ms W MI MN part z P) as De. pose proof (fun z => detect_start_iff s markers ms W MI part z P) as Ds.
    assert (G : forall c, nonnil (clean (slice (m_start c) (m_end c) s)) = true <-> clean (slice (m_start c) (m_end c) s) <> []) by (intros c; apply nonnil_iff).
    assert (A : forall (c : mt) x, In x (if nonnil (clean (slice (m_start c) (m_end c) s)) then [group_match clean s [] (m_start c) (m_end c)] else []) <-> clean (slice (m_start c) (m_end c) s) <> [] /\ x = found_group (m_start c, m_end c)).
    { intros c x. rewrite <- G. destruct (nonnil _); cbn [In]; [split; [intros [<-|[]]; auto|intros [_ ->]; left; reflexivity]|]. split; [intros []|intros [H _]; discriminate]. }
    destruct (detect_end s markers ms part) as [c|].
    - assert (Z : end_zone s markers ms part (m_start c, m_end c)) by (apply De; exists c; auto). cbn [fst snd]. split.
      + intros x. rewrite (at_match_In s markers ms W c x) by (apply end_zone_long in Z; exact Z). split; [intros [H1 H2]; exists (m_start c, m_end c); auto|]. intros (z & Hz & H1 & H2). rewrite (end_zone_unique part z _ P Hz Z) in H2. auto.
      + intros x. rewrite A. split; [intros [H1 H2]; exists (m_start c, m_end c); split; [left; exact Z|auto]|]. intros (z & Hz & H1 & ->). rewrite (zone_unique part z _ P Hz (or_introl Z)) in *. auto.
    - assert (Ne : forall z, ~ end_zone s markers ms part z) by (intros z Hz; apply De in Hz as (c & E & _); discriminate). destruct (detect_start s markers ms part) as [c|].
      + assert (Z : start_zone s markers ms part (m_start c, m_end c)) by (apply Ds; exists c; auto). cbn [fst snd]. split; [intros x; split; [intros []|intros (z & Hz & _); destruct (Ne z Hz)]|].
        intros x. rewrite A. split; [intros [H1 H2]; exists (m_start c, m_end c); split; [right; auto|auto]|]. intros (z & Hz & H1 & ->). rewrite (zone_unique part z _ P Hz (or_intror (conj Ne Z))) in *. auto.
      + cbn [fst snd]. split; [intros x; split; [intros []|intros (z & Hz & _); destruct (Ne z Hz)]|]. intros x. split; [intros []|]. intros (z & [Hz|[_ Hz]] & _); [destruct (Ne z Hz)|]. apply Ds in Hz as (c & E & _). discriminate.
  Qed.
  Lemma effective_iff part : In part markers -> nonnil (fst (dash_part clean s markers ms part)) || nonnil (snd (dash_part clean s markers ms part)) = true <-> effective clean s markers ms part.
  Proof.
    intros P. destruct (dash_part_spec part P) as [A B]. rewrite Bool.orb_true_iff, !nonnil_ex. unfold effective. split.
    - intros [(x & H)|(x & H)]; [apply A in H as (z & Z & X1 & X2); exists z; split; [left; exact Z|right; split; [exact Z|exists x; auto]]|apply B in H as (z & Z & X1 & _); exists z; auto].
    - intros (z & Z & [H|(E & y & Y1 & Y2)]); [right; exists (found_group z); apply B; exists z; auto|left; exists y; apply A; exists z; auto].
  Qed.
  Lemma dash_parts_spec : forall l, (forall p, In p l -> In p markers) ->
    (exists part, first_of l (effective clean s markers ms) part /\ dash_parts clean s markers ms l = dash_part clean s markers ms part) \/
    ((forall p, In p l -> ~ effective clean s markers ms p) /\ dash_parts clean s markers ms l = ([], [])).
  Proof.
    induction l as [|p l IH]; intros H; [right; split; [intros p []|reflexivity]|]. cbn [dash_parts]. pose proof (effective_iff p (H p (or_introl eq_refl))) as E.
    destruct (nonnil (fst (dash_part clean s markers ms p)) || nonnil (snd (dash_part clean s markers ms p))).
    - left. exists p. split; [|reflexivity]. exists [], l. split; [reflexivity|]. split; [apply E; reflexivity|intros y []].
    - assert (N : ~ effective clean s markers ms p) by (intros X; apply E in X; discriminate). destruct (IH (fun q Hq => H q (or_intror Hq))) as [(part & (l1 & l2 & -> & F1 & F2) & ->)|[F ->]].
      + left. exists part. split; [|reflexivity]. exists (p :: l1), l2. split; [reflexivity|]. split; [exact F1|]. intros y [<-|Hy]; [exact N|apply F2; exact Hy].
      + right. split; [|reflexivity]. intros q [<-|Hq]; [exact N|apply F; exact Hq].
  Qed.
  Lemma first_of_sub p (P : mt -> Prop) l x : first_of (filter p l) P x <-> first_of l (fun y => p y = true /\ P y) x.
  Proof.
    induction l as [|a l IH]; cbn [filter].
    - split; intros (l1 & l2 & E & _); destruct l1; discriminate.
    - destruct (p a) eqn:Pa.
      + split; intros (l1 & l2 & E & A & B).
        * destruct l1 as [|b l1]; injection E as E1 E2; [subst a; exists [], l; split; [reflexivity|]; split; [auto|intros y []]|]. subst b. assert (first_of (filter p l) P x) as F by (exists l1, l2; split; [exact E2|]; split; [exact A|intros y Hy; apply B; right; exact Hy]).
          apply IH in F as (k1 & k2 & -> & A' & B'). exists (a :: k1), k2. split; [reflexivity|]. split; [exact A'|]. intros y [<-|Hy]; [intros [_ X]; apply (B a); [left; reflexivity|exact X]|apply B'; exact Hy].
        * destruct l1 as [|b l1]; injection E as E1 E2; [subst a; exists [], (filter p l); split; [reflexivity|]; split; [apply A|intros y []]|]. subst b. assert (first_of l (fun y => p y = true /\ P y) x) as F by (exists l1, l2; split; [exact E2|]; split; [exact A|intros y Hy; apply B; right; exact Hy]).
          apply IH in F as (k1 & k2 & E & A' & B'). exists (a :: k1), k2. split; [rewrite E; reflexivity|]. split; [exact A'|]. intros y [<-|Hy]; [intros X; apply (B a); [left; reflexivity|auto]|apply B'; exact Hy].
      + rewrite IH. split; intros (l1 & l2 & E & A & B).
        * exists (a :: l1), l2. split; [rewrite E; reflexivity|]. split; [exact A|]. intros y [<-|Hy]; [intros [X _]; congruence|apply B; exact Hy].
        * destruct l1 as [|b l1]; injection E as E1 E2; [subst a; destruct A; congruence|]. exists l1, l2. split; [exact E2|]. split; [exact A|]. intros y Hy; apply B; right; exact Hy.
  Qed.
  Lemma chosen_parts part : first_of (parts_of markers) (effective clean s markers ms) part <-> chosen clean s markers ms part.
  Proof.
    unfold parts_of, named. rewrite first_of_sub. unfold chosen. apply first_of_ext. intros y _. rewrite has_name_iff. reflexivity.
  Qed.
End DashRule.
(** When no release group is known: the first component in which one is found at its end, or at its start, gives it; the matches that
    cover an end of the zone of one found at an end go. Nothing else changes. *)
Theorem C79_dash clean s markers ms m : ep_ok s markers ms -> inside s markers -> nonempty markers -> (forall x, In x ms -> m_name x <> lit "release_group") ->
  In m (DashSeparatedReleaseGroup clean s markers ms) <->
  (In m ms /\ ~ exists part z, chosen clean s markers ms part /\ end_zone s markers ms part z /\ at_ends z m) \/
  (exists part z, chosen clean s markers ms part /\ zone_of s markers ms part z /\ clean (slice (fst z) (snd z) s) <> [] /\
     m = simple (fst z) (snd z) (lit "release_group") (MvStr (clean (slice (fst z) (snd z) s))) []).
Proof.
  intros W MI MN NR. unfold DashSeparatedReleaseGroup. assert (nonnil (named (lit "release_group") ms) = false) as -> by (apply nonnil_no; intros x Hx; apply named_In in Hx as [A B]; apply (NR x A B)).
  unfold apply_change. destruct (dash_parts_spec clean s markers ms W MI MN (parts_of markers)) as [(part & F & E)|[N E]]; [intros p Hp; apply parts_iff in Hp; apply Hp| |]; rewrite E.
  - assert (P : In part markers) by (apply first_of_In in F as [F _]; apply parts_iff in F; apply F). destruct (dash_part_spec clean s markers ms W MI MN part P) as [A B].
    assert (U : forall q, chosen clean s markers ms q -> q = part) by (intros q Hq; apply (chosen_parts clean s markers ms) in Hq; apply (first_of_unique _ _ _ _ Hq F)).
    apply (chosen_parts clean s markers ms) in F.
    assert (Sub : forall x, In x (fst (dash_part clean s markers ms part)) -> In x ms) by (intros x Hx; apply A in Hx as (z & _ & Hx & _); exact Hx).
    rewrite append_In.
    + rewrite remove_all_In; [|apply W|exact Sub]. rewrite A, B. split.
      * intros [[H1 H2]|(z & Z & C & ->)]; [left; split; [exact H1|]; intros (q & z & Q & Z & X); rewrite (U q Q) in Z; apply H2; exists z; auto|right; exists part, z; auto].
      * intros [[H1 H2]|(q & z & Q & Z & C & ->)]; [left; split; [exact H1|]; intros (z & Z & _ & X); apply H2; exists part, z; auto|right; rewrite (U q Q) in Z; exists z; auto].
    + intros x y Hx Hy _. apply B in Hx as (z & Z & _ & ->). apply B in Hy as (z' & Z' & _ & ->). rewrite (zone_unique s markers ms W MI MN part z z' P Z Z'). reflexivity.
    + intros x y Hx Hy Ek. apply remove_all_In in Hy as [Hy _]; [|apply W|exact Sub]. apply B in Hx as (z & _ & _ & ->). apply (NR y Hy). injection Ek; auto.
  - assert (No : forall q, ~ chosen clean s markers ms q) by (intros q Hq; apply (chosen_parts clean s markers ms) in Hq; apply first_of_In in Hq as [A B]; apply (N q A B)).
    cbn. split; [intros H; left; split; [exact H|intros (q & z & Q & _); apply (No q Q)]|]. intros [[H _]|(q & z & Q & _)]; [exact H|destruct (No q Q)].
Qed.
Print Assumptions C79_dash.
(** A known release group settles it *)
Theorem C79_known clean s markers ms x : In x ms -> m_name x = lit "release_group" -> DashSeparatedReleaseGroup clean s markers ms = ms.
Proof.
  intros X N. unfold DashSeparatedReleaseGroup. assert (nonnil (named (lit "release_group") ms) = true) as -> by (apply nonnil_ex; exists x; apply named_In; auto). reflexivity.
Qed.
Print Assumptions C79_known.
(** At most one zone in a component *)
Theorem C79_unique s markers ms part z z' : ep_ok s markers ms -> inside s markers -> nonempty markers -> In part markers -> zone_of s markers ms part z -> zone_of s markers ms part z' -> z = z'.
Proof. intros W MI MN P. apply zone_unique; assumption. Qed.
Print Assumptions C79_unique.
From Verif Require Import GroupName.
Definition dash_ex : str := lit "Show.S01E02.x264-CS".
Definition dash_markers : list mt := [simple 0 19 (lit "path") (MvStr []) []].
Definition dash_ms : list mt := [simple 6 8 (lit "season") (MvInt 1) []; simple 9 11 (lit "episode") (MvInt 2) []; simple 12 16 (lit "video_codec") (MvStr (lit "H.264")) []].
Example C79_ex : DashSeparatedReleaseGroup (clean_groupname (lit "[]{}()") []) dash_ex dash_markers dash_ms = dash_ms ++ [simple 16 19 (lit "release_group") (MvStr (lit "CS")) []].
Proof. reflexivity. Qed.
Lemma dash_ok : ep_ok dash_ex dash_markers dash_ms.
Proof.
  constructor; [unfold distinct; cbn [map dash_ms]; repeat constructor; intros H; repeat (destruct H as [H|H]; [discriminate|]); destruct H| | |]; intros x Hx; repeat (destruct Hx as [<-|Hx]; [cbn; lia|]); destruct Hx.
Qed.
Example C79_zone_ex : end_zone dash_ex dash_markers dash_ms (simple 0 19 (lit "path") (MvStr []) []) (16, 19).
Proof.
  apply detect_end_iff; [exact dash_ok|intros x [<-|[]]; cbn; lia|intros x [<-|[]]; cbn; lia|left; reflexivity|]. eexists. split; reflexivity.
Qed.
Example C79_start_ex : DashSeparatedReleaseGroup (clean_groupname (lit "[]{}()") []) (lit "abc-the.title.1983") [simple 0 18 (lit "path") (MvStr []) []] [simple 14 18 (lit "year") (MvInt 1983) []] =
  [simple 14 18 (lit "year") (MvInt 1983) []; simple 0 3 (lit "release_group") (MvStr (lit "abc")) []].
Proof. reflexivity. Qed.
(** A limit: when a separator comes between the last match and the dash, the word after the dash is not seen here *)
Example C79_limit : DashSeparatedReleaseGroup (clean_groupname (lit "[]{}()") []) (lit "Show.S01E02.x264.-CS") [simple 0 20 (lit "path") (MvStr []) []] dash_ms = dash_ms.
Proof. reflexivity. Qed.
