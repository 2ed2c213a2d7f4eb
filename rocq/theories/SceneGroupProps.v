(** Release groups after technical words (C78). *)
From Verif Require Import Py PyFacts Text TextFacts Sort Formatters FormattersProofs FormattersProps Common Rebulk RebulkFacts RuleSpec Processors Title TitleProofs TitleConflictProps HolesMore EpisodeTitle Episodes EpisodesProofs EpisodeRules EpisodeRulesProps EpisodeWeakProps EpisodeSolverProps Technical TechnicalProps UltraProps IntProps ReleaseGroup AnimeGroupProps.
From Coq Require Import Arith ZifyBool Sorted Permutation.

(** ** Specification *)
(** the first match of the store, in its order, of a kind *)
Definition first_of (ms : list mt) (P : mt -> Prop) (x : mt) : Prop := exists l1 l2, ms = l1 ++ x :: l2 /\ P x /\ forall y, In y l1 -> ~ P y.
Definition has_text (t : str) : Prop := exists c, In c t /\ is_sep c = false.
Definition title_of (part m : mt) : Prop := m_name m = lit "title" /\ m_start part <= m_start m /\ m_end m <= m_end part.
(** a title of the component that is not its first one *)
Definition other_title (ms : list mt) (part m : mt) : Prop := title_of part m /\ exists t, first_of ms (title_of part) t /\ t <> m.
(** a position that only such titles cover *)
Definition open (ms : list mt) (part : mt) (j : nat) : Prop := forall y, In y ms -> m_start y <= j < m_end y -> other_title ms part y.
Definition limit (s : str) (part : mt) : nat := Nat.min (List.length s) (m_end part + 1).
(** a stretch of open positions of the component (and of the character after it) that cannot be extended *)
Definition stretch (s : str) (ms : list mt) (part : mt) (h : nat * nat) : Prop :=
  m_start part <= fst h /\ fst h < snd h /\ snd h <= limit s part /\ (forall j, fst h <= j < snd h -> open ms part j) /\
  (fst h = m_start part \/ ~ open ms part (fst h - 1)) /\ (snd h = limit s part \/ ~ open ms part (snd h)).
Definition last_stretch (clean : str -> str) (s : str) (ms : list mt) (part : mt) (h : nat * nat) : Prop :=
  stretch s ms part h /\ has_text (clean (slice (fst h) (snd h) s)) /\
  forall h', stretch s ms part h' -> has_text (clean (slice (fst h') (snd h') s)) -> fst h' <= fst h.
(** what a release group may follow *)
Definition prefix_name (n : str) : Prop :=
  In n (map lit ["video_codec"; "source"; "video_api"; "audio_codec"; "audio_profile"; "video_profile"; "audio_channels"; "screen_size"; "other"; "container"; "language";
                 "subtitle_language"; "subtitle_language.suffix"; "subtitle_language.prefix"; "language.suffix"])%string.
Definition introduces (m : mt) : Prop := prefix_name (m_name m) /\ ~ tag "no-release-group-prefix" m \/ ~ prefix_name (m_name m) /\ tag "release-group-prefix" m.
(** the match before: among those that end closest before the position, the first one of the store that starts in the component and
    is visible or introduces a group *)
Definition match_before (ms : list mt) (part : mt) (i : nat) (p : mt) : Prop :=
  first_of ms (fun m => (m_end m <= i /\ forall y, In y ms -> m_end y <= i -> m_end y <= m_end m) /\ m_start part <= m_start m /\ (m_private m = false \/ introduces m)) p.
Definition introduced (s : str) (ms : list mt) (part : mt) (i : nat) : Prop :=
  exists p, match_before ms part i p /\ introduces p /\ forall c, In c (slice (m_end p) i s) -> is_sep c = true.
(** brackets around the start, or failing that the end, of a zone *)
Definition covers_at (i : nat) (g : mt) : Prop := m_name g = lit "group" /\ m_start g <= i < m_end g.
Definition bracket_of (markers : list mt) (h : nat * nat) (g : mt) : Prop :=
  first_of markers (covers_at (fst h)) g \/ (forall x, In x markers -> ~ covers_at (fst h) x) /\ first_of markers (covers_at (snd h - 1)) g.
(** the release group made of a stretch: that of the brackets if they say the same *)
Definition made_of (clean : str -> str) (s : str) (markers : list mt) (h : nat * nat) (m : mt) : Prop :=
  (exists g, bracket_of markers h g /\ clean (text_of s g) = clean (slice (fst h) (snd h) s) /\ m = group_match clean s [lit "anime"] (m_start g + 1) (m_end g - 1)) \/
  ((forall g, bracket_of markers h g -> clean (text_of s g) <> clean (slice (fst h) (snd h) s)) /\ m = group_match clean s [lit "scene"] (fst h) (snd h)).
(** the release group of a component *)
Definition scene_found (clean : str -> str) (s : str) (markers ms : list mt) (part g : mt) : Prop :=
  (forall x, In x ms -> m_name x = lit "release_group" -> m_start part <= m_start x -> m_end x <= m_end part -> False) /\
  exists h, last_stretch clean s ms part h /\ introduced s ms part (fst h) /\ (~ exists z, whole_number (strip is_sep (clean (slice (fst h) (snd h) s))) z) /\ made_of clean s markers h g.

(** ** Proofs *)
Lemma first_of_filter p (P : mt -> Prop) ms : (forall x, In x ms -> p x = true <-> P x) ->
  match first (filter p ms) with Some x => first_of ms P x | None => forall x, In x ms -> ~ P x end.
Proof.
  induction ms as [|a ms IH]; intros H; unfold first in *; cbn [filter]; [intros x []|]. destruct (p a) eqn:E.
  - cbn [hd_error]. exists [], ms. split; [reflexivity|]. split; [apply H; [left; reflexivity|exact E]|intros y []].
  - assert (Na : ~ P a) by (intros Q; apply H in Q; [congruence|left; reflexivity]).
    specialize (IH (fun x Hx => H x (or_intror Hx))). destruct (hd_error (filter p ms)) as [x|].
    + destruct IH as (l1 & l2 & -> & Q & F). exists (a :: l1), l2. split; [reflexivity|]. split; [exact Q|]. intros y [<-|Hy]; [exact Na|apply F, Hy].
    + intros x [<-|Hx]; [exact Na|apply IH, Hx].
Qed.
Lemma first_of_In ms P x : first_of ms P x -> In x ms /\ P x.
Proof. intros (l1 & l2 & -> & H & _). split; [apply in_app_iff; right; left; reflexivity|exact H]. Qed.
Lemma first_of_unique ms P x y : first_of ms P x -> first_of ms P y -> x = y.
Proof.
  intros (l1 & l2 & E & Hx & Fx) (k1 & k2 & E' & Hy & Fy). revert k1 E' Fy. revert ms E. induction l1 as [|a l1 IH]; intros ms E k1 E' Fy; subst ms.
  - destruct k1 as [|b k1]; cbn [app] in E'; [injection E'; auto|]. injection E' as E1 E2; subst. destruct (Fy b); [left; reflexivity|exact Hx].
  - destruct k1 as [|b k1]; cbn [app] in E'; injection E' as E1 E'; subst.
    + destruct (Fx y); [left; reflexivity|exact Hy].
    + apply (IH (fun z Hz => Fx z (or_intror Hz)) _ eq_refl k1 E'). intros z Hz. apply Fy; right; exact Hz.
Qed.
Lemma first_of_ext ms P Q x : (forall y, In y ms -> P y <-> Q y) -> first_of ms P x <-> first_of ms Q x.
Proof.
  intros H. split; intros (l1 & l2 & E & A & B); exists l1, l2; (split; [exact E|]); (split; [apply H; [rewrite E; apply in_app_iff; right; left; reflexivity|exact A]|]);
    intros y Hy C; apply (B y Hy); apply H; [rewrite E; apply in_app_iff; left; exact Hy|exact C| rewrite E; apply in_app_iff; left; exact Hy|exact C].
Qed.
(** [cleanup] leaves something exactly if there is a character that is no separator *)
Lemma cleaned_iff t : nonnil (cleaned t) = true <-> has_text t.
Proof.
  unfold cleaned. destruct (C18_only_separators t) as (u & E & _ & _ & H1 & _). rewrite E. destruct (C18_letters_kept t u E) as [K _]. split.
  - intros N. destruct u as [|c u]; [discriminate|]. specialize (H1 c eq_refl). destruct (existsb (fun c => negb (is_sep c)) t) eqn:X.
    + apply existsb_exists in X as (d & D1 & D2). exists d. split; [exact D1|]. destruct (is_sep d); [discriminate|reflexivity].
    + exfalso. assert (S : forall d, In d t -> is_sep d = true).
      { intros d Hd. destruct (is_sep d) eqn:Y; [reflexivity|]. assert (existsb (fun c => negb (is_sep c)) t = true); [apply existsb_exists; exists d; rewrite Y; auto|congruence]. }
      apply H1. split.
      * assert (C : is_sep c = true).
        { destruct (is_sep c) eqn:Y; [reflexivity|]. assert (In c (filter (fun c => negb (cmem c (lit " [](){}+*|=-_~#/\\.,;:"))) t)).
          { rewrite <- K. apply filter_In. split; [left; reflexivity|]. change (negb (is_sep c) = true). rewrite Y. reflexivity. }
          apply filter_In in H as [H _]. rewrite (S c H) in Y. discriminate. }
        apply cmem_In. exact C.
      * intros (i & [(_ & d & _ & _ & _ & (a & Ha & Na) & _) _] & _). apply Na, cmem_In. exact (S a (nth_error_In _ _ Ha)).
  - intros (c & Hc & Hs). destruct u as [|d u]; [|reflexivity]. exfalso. assert (In c (filter (fun c => negb (cmem c (lit " [](){}+*|=-_~#/\\.,;:"))) [])); [|destruct H].
    rewrite K. apply filter_In. split; [exact Hc|]. change (negb (is_sep c) = true). rewrite Hs. reflexivity.
Qed.

Lemma in_distinct ms l m : distinct ms -> In m ms -> (forall x, In x l -> In x ms) -> mmem m l = true <-> In m l.
Proof.
  intros D Hm Hl. rewrite mmem_iff. split; [|intros H; exists m; auto]. intros (x & Hx & E). rewrite <- (distinct_inj ms x m D (Hl x Hx) Hm E). exact Hx.
Qed.
Lemma extra_iff ms part m : distinct ms -> In m ms -> extra_title ms part m = true <-> other_title ms part m.
Proof.
  intros D Hm. unfold extra_title, named. rewrite filter_filter.
  set (q := fun x => has_name (lit "title") x && within part x).
  assert (Q : forall x, In x ms -> q x = true <-> title_of part x).
  { intros x _. unfold q, title_of, within. rewrite Bool.andb_true_iff, has_name_iff, Bool.andb_true_iff, !Nat.leb_le. tauto. }
  change (filter (fun x => has_name (lit "title") x && within part x) ms) with (filter q ms).
  pose proof (first_of_filter q (title_of part) ms Q) as F.
  assert (Sub : forall x, In x (tl (filter q ms)) -> In x ms).
  { intros x Hx. destruct (filter q ms) as [|y r] eqn:E; [destruct Hx|]. cbn [tl] in Hx. enough (In x (filter q ms)) by (apply filter_In in H; apply H). rewrite E. right; exact Hx. }
  rewrite (in_distinct ms) by auto. pose proof (distinct_NoDup _ (distinct_filter q ms D)) as ND.
  assert (Mq : In m (filter q ms) <-> title_of part m) by (rewrite filter_In, Q by exact Hm; tauto).
  destruct (filter q ms) as [|t r] eqn:E; cbn [tl first hd_error] in *.
  - split; [intros []|]. intros (T & _). apply Mq in T as [].
  - cbn in F. apply NoDup_cons_iff in ND as [N1 N2]. split.
    + intros H. split; [apply Mq; right; exact H|]. exists t. split; [exact F|]. intros ->. apply N1, H.
    + intros (T & t' & F' & Ne). apply Mq in T as [T|T]; [|exact T]. destruct Ne. rewrite <- T. apply (first_of_unique _ _ _ _ F' F).
Qed.
Section Scene.
  Context (clean : str -> str) (Cn : clean [] = []).
  Context (s : str) (markers ms : list mt) (W : ep_ok s markers ms) (MI : inside s markers) (MN : nonempty markers).
  Context (part : mt) (P : path_part markers part).
  Let tk := taken (extra_title ms part) ms.
  Lemma open_iff j : open ms part j <-> ~ covered tk j.
  Proof.
    split.
    - intros O (y & Hy & Hj). apply filter_In in Hy as [Hy N]. apply Bool.negb_true_iff in N. specialize (O y Hy Hj). apply extra_iff in O; [congruence|apply W|exact Hy].
    - intros N y Hy Hj. apply (extra_iff ms part y); [apply W|exact Hy|]. destruct (extra_title ms part y) eqn:E; [reflexivity|]. destruct N. exists y. split; [apply filter_In; rewrite E; auto|exact Hj].
  Qed.
  Lemma not_open j : ~ open ms part j <-> covered tk j.
  Proof. rewrite open_iff. destruct (covered_dec tk j); tauto. Qed.
  Lemma stretch_iff h : stretch s ms part h <-> free_run tk (m_start part) (limit s part) h.
  Proof.
    unfold stretch, free_run. rewrite !not_open. assert (K : (forall j, fst h <= j < snd h -> open ms part j) <-> (forall j, fst h <= j < snd h -> ~ covered tk j)) by (split; intros H j Hj; apply open_iff, H, Hj).
    rewrite K. reflexivity.
  Qed.
  Lemma tk_inside : inside s tk. Proof. apply taken_inside, W. Qed.
  Lemma tk_nonempty : nonempty tk. Proof. apply taken_nonempty, W. Qed.
  Lemma limit_eq : Nat.min (max_end s tk) (m_end part + 1) = limit s part.
  Proof. rewrite max_end_inside by apply tk_inside. reflexivity. Qed.
  Lemma limit_lt : m_start part < limit s part.
  Proof. pose proof (MI part (proj1 P)). pose proof (MN part (proj1 P)). unfold limit. lia. Qed.
  Let hs := holes s tk (m_start part) (m_end part + 1) never None.
  Lemma hole_stretch h : In h hs -> fst h < snd h -> stretch s ms part h.
  Proof.
    intros H L. apply stretch_iff. rewrite <- limit_eq. apply holes_run; [apply tk_nonempty|rewrite limit_eq; apply limit_lt|exact H|exact L].
  Qed.
  Lemma stretch_hole h : stretch s ms part h -> In h hs.
  Proof.
    intros H. apply stretch_iff in H. rewrite <- limit_eq in H. apply run_hole; [apply tk_nonempty|rewrite limit_eq; apply limit_lt|exact H].
  Qed.
  Lemma hs_sorted : StronglySorted hole_lt hs /\ forall h, In h hs -> fst h <= snd h.
  Proof.
    destruct (holes_ordered s tk (m_start part) (m_end part + 1) tk_nonempty) as [A B]; [rewrite limit_eq; apply limit_lt|]. split; [exact A|]. intros h Hh. apply (B h Hh).
  Qed.
  Lemma no_text : ~ has_text []. Proof. intros (c & [] & _). Qed.
  Lemma text_long h : has_text (clean (slice (fst h) (snd h) s)) -> fst h < snd h.
  Proof.
    intros T. destruct (Nat.lt_ge_cases (fst h) (snd h)) as [L|L]; [exact L|]. exfalso. apply no_text. rewrite <- Cn. unfold slice in T. rewrite <- (firstn_O (skipn (fst h) s)). replace 0 with (snd h - fst h) by lia. exact T.
  Qed.
  Lemma last_o_split {A} (l : list A) x : last_o l = Some x -> exists l', l = l' ++ [x].
  Proof.
    induction l as [|a l IH]; [discriminate|]. destruct l as [|b l]; [intros H; injection H as ->; exists []; reflexivity|]. intros H. destruct (IH H) as (l' & ->). exists (a :: l'). reflexivity.
  Qed.
  Lemma last_o_some {A} (l : list A) y : In y l -> exists x, last_o l = Some x.
  Proof. revert y. induction l as [|a l IH]; intros y Hy; [destruct Hy|]. destruct l as [|b l]; [exists a; reflexivity|]. apply (IH b). left. reflexivity. Qed.
  Lemma sorted_last (l : list (nat * nat)) x y : StronglySorted hole_lt l -> last_o l = Some x -> In y l -> y = x \/ hole_lt y x.
  Proof.
    intros S H. apply last_o_split in H as (l' & ->). intros Hy. apply in_app_iff in Hy as [Hy|[<-|[]]]; [right|auto]. clear - S Hy. induction l' as [|a l' IH]; [destruct Hy|]. cbn [app] in S. apply StronglySorted_inv in S as [S F].
    destruct Hy as [<-|Hy]; [|apply IH; assumption]. rewrite Forall_forall in F. apply F. apply in_app_iff. right; left; reflexivity.
  Qed.
  Lemma filter_sorted_hole q (l : list (nat * nat)) : StronglySorted hole_lt l -> StronglySorted hole_lt (filter q l).
  Proof.
    induction l as [|a l IH]; intros S; [constructor|]. apply StronglySorted_inv in S as [S F]. cbn [filter]. destruct (q a); [|auto]. constructor; [auto|].
    rewrite Forall_forall in *. intros x Hx. apply filter_In in Hx as [Hx _]. apply F, Hx.
  Qed.
  Lemma scene_hole_iff h : scene_hole clean s ms part = Some h <-> last_stretch clean s ms part h.
  Proof.
    unfold scene_hole. rewrite holes_ignore by apply W. fold tk. fold hs. set (q := fun h => nonnil (cleaned (clean (raw s h)))).
    assert (Q : forall h, q h = true <-> has_text (clean (slice (fst h) (snd h) s))) by (intros h'; unfold q; rewrite cleaned_iff; reflexivity).
    destruct hs_sorted as [S B]. pose proof (filter_sorted_hole q hs S) as Sf.
    assert (F : forall h, last_o (filter q hs) = Some h -> last_stretch clean s ms part h).
    { intros g H. assert (G : In g (filter q hs)) by (destruct (last_o_split _ _ H) as (l' & ->); apply in_app_iff; right; left; reflexivity). apply filter_In in G as [G1 G2]. apply Q in G2.
      split; [apply hole_stretch; [exact G1|apply text_long; exact G2]|]. split; [exact G2|]. intros h' Hs Ht.
      assert (In h' (filter q hs)) as I by (apply filter_In; split; [apply stretch_hole; exact Hs|apply Q; exact Ht]). destruct (sorted_last _ _ _ Sf H I) as [->|L]; [lia|]. unfold hole_lt in L. pose proof (text_long _ Ht). lia. }
    split; [apply F|]. intros (Hs & Ht & Hm). assert (I : In h (filter q hs)) by (apply filter_In; split; [apply stretch_hole; exact Hs|apply Q; exact Ht]).
    destruct (last_o_some _ _ I) as (g & G). rewrite G. destruct (F g G) as (Gs & Gt & Gm). specialize (Hm g Gs Gt). destruct (sorted_last _ _ _ Sf G I) as [->|L]; [reflexivity|]. unfold hole_lt in L. pose proof (text_long _ Ht). lia.
  Qed.
  (** ** the match before *)
  Lemma ending_down_filter i : exists q, ending_down i ms = filter q ms.
  Proof.
    induction i as [|i IH]; cbn [ending_down]; destruct (ending _ ms) as [|x l] eqn:E.
    - exists (fun _ => false). clear. induction ms; [reflexivity|assumption].
    - unfold ending in E. eexists. symmetry. exact E.
    - exact IH.
    - unfold ending in E. eexists. symmetry. exact E.
  Qed.
  Lemma previous_iff m : is_previous m = true <-> introduces m.
  Proof.
    unfold is_previous, introduces. assert (K : smem (m_name m) scene_previous_names = true <-> prefix_name (m_name m)) by apply smem_In.
    destruct (smem (m_name m) scene_previous_names) eqn:E; [|rewrite has_tag_iff].
    - rewrite Bool.negb_true_iff, has_tag_false. unfold tag. tauto.
    - assert (~ prefix_name (m_name m)) by (intros H; apply K in H; discriminate). unfold tag. tauto.
  Qed.
  Lemma before_intro i h : fst h = i -> scene_before s ms part h = true <-> introduced s ms part i.
  Proof.
    intros Hi. unfold scene_before, introduced. set (p := fun m => (m_start part <=? m_start m) && (negb (m_private m) || is_previous m)).
    assert (F : match first (previous (hole_match s h) ms p) with Some x => match_before ms part i x | None => forall x, ~ match_before ms part i x end).
    { destruct (ending_down_filter (m_start (hole_match s h))) as (q & E).
      assert (Eq : previous (hole_match s h) ms p = filter (fun m => q m && p m) ms) by (unfold previous; rewrite E; apply filter_filter).
      assert (H : forall x, In x ms -> (q x && p x = true) <-> (m_end x <= i /\ forall y, In y ms -> m_end y <= i -> m_end y <= m_end x) /\ m_start part <= m_start x /\ (m_private x = false \/ introduces x)).
      { intros x Hx. assert (A : q x && p x = true <-> In x (previous (hole_match s h) ms p)) by (rewrite Eq, filter_In; tauto). rewrite A, previous_In. change (m_start (hole_match s h)) with (fst h). rewrite Hi.
        unfold p. rewrite Bool.andb_true_iff, Nat.leb_le, Bool.orb_true_iff, Bool.negb_true_iff, previous_iff. tauto. }
      pose proof (first_of_filter _ _ ms H) as F. rewrite Eq. destruct (first (filter (fun m => q m && p m) ms)) as [x|]; [exact F|]. intros x Hx. apply first_of_In in Hx as [X1 X2]. apply (F x X1 X2). }
    destruct (first (previous (hole_match s h) ms p)) as [x|].
    - assert (X : In x ms) by (apply first_of_In in F; apply F). rewrite (truthy_some ms x) by (auto; apply W).
      rewrite Bool.andb_true_iff, previous_iff, forallb_forall, Hi. split; [intros [A B]; exists x; auto|]. intros (y & Y & A & B). rewrite (first_of_unique _ _ _ _ Y F) in *. auto.
    - cbn. split; [discriminate|]. intros (y & Y & _). destruct (F y Y).
  Qed.
  (** ** the brackets *)
  Lemma group_filter i x : In x markers -> covers i x && has_name (lit "group") x = true <-> covers_at i x.
  Proof. intros _. unfold covers, covers_at. rewrite !Bool.andb_true_iff, has_name_iff, Nat.leb_le, Nat.ltb_lt. tauto. Qed.
  Lemma first_app_filter p (a b : list mt) : first (filter p (a ++ b)) = match first (filter p a) with Some x => Some x | None => first (filter p b) end.
  Proof. rewrite filter_app. unfold first. destruct (filter p a); reflexivity. Qed.
  Lemma merge_filter n (b : list mt) : forall a, first (filter (has_name n) (merge_new a b)) = first (filter (has_name n) (a ++ b)).
  Proof.
    induction b as [|x b IH]; intros a; [rewrite app_nil_r; reflexivity|]. unfold merge_new. cbn [fold_left]. destruct (mmem x a) eqn:M.
    - fold (merge_new a b). rewrite IH, !first_app_filter. destruct (first (filter (has_name n) a)) as [y|] eqn:F; [reflexivity|]. cbn [filter]. destruct (has_name n x) eqn:N; [|reflexivity]. exfalso.
      apply mmem_iff in M as (z & Hz & E). assert (I : In z (filter (has_name n) a)).
      { apply filter_In. split; [exact Hz|]. apply has_name_iff. apply has_name_iff in N. rewrite <- N. injection E; auto. }
      destruct (filter (has_name n) a); [destruct I|discriminate].
    - fold (merge_new (a ++ [x]) b). rewrite IH. rewrite <- app_assoc. reflexivity.
  Qed.
  Lemma bracket_iff h g : fst h < snd h -> bracket_of markers h g <-> first (in_group markers (hole_match s h)) = Some g.
  Proof.
    intros L. unfold in_group, at_match, at_span. rewrite merge_filter, first_app_filter. change (m_start (hole_match s h)) with (fst h). change (m_end (hole_match s h)) with (snd h).
    assert (Ei : match snd h with 0 => [] | S b' => at_index b' markers end = at_index (snd h - 1) markers) by (destruct (snd h); [lia|f_equal; lia]). rewrite Ei.
    unfold at_index. rewrite !filter_filter. pose proof (first_of_filter _ _ markers (group_filter (fst h))) as F1. pose proof (first_of_filter _ _ markers (group_filter (snd h - 1))) as F2.
    destruct (first (filter (fun x => covers (fst h) x && has_name (lit "group") x) markers)) as [x|].
    - split; [|intros H; injection H as ->; left; exact F1]. intros [H|[H _]]; [f_equal; apply (first_of_unique _ _ _ _ F1 H)|]. apply first_of_In in F1 as [A B]. destruct (H x A B).
    - destruct (first (filter (fun x => covers (snd h - 1) x && has_name (lit "group") x) markers)) as [y|].
      + split; [|intros H; injection H as ->; right; split; assumption]. intros [H|[_ H]]; [|f_equal; apply (first_of_unique _ _ _ _ F2 H)]. apply first_of_In in H as [A B]. destruct (F1 g A B).
      + split; [|discriminate]. intros [H|[_ H]]; apply first_of_In in H as [A B]; [destruct (F1 g A B)|destruct (F2 g A B)].
  Qed.
  Lemma made_iff h m : fst h < snd h -> made_of clean s markers h m <-> m = scene_match clean s markers h.
  Proof.
    intros L. unfold made_of, scene_match. pose proof (fun g => bracket_iff h g L) as B. destruct (first (in_group markers (hole_match s h))) as [g|] eqn:F.
    - assert (G : In g markers).
      { assert (X : bracket_of markers h g) by (apply B; reflexivity). destruct X as [X|[_ X]]; apply first_of_In in X; apply X. }
      rewrite (truthy_some markers g) by assumption. change (m_raw s g) with (text_of s g). change (raw s h) with (slice (fst h) (snd h) s).
      destruct (str_eqb (clean (text_of s g)) (clean (slice (fst h) (snd h) s))) eqn:E.
      + apply str_eqb_eq in E. split; [|intros ->; left; exists g; split; [apply B; reflexivity|auto]]. intros [(g' & X & _ & ->)|[X _]]; [apply B in X; injection X as ->; reflexivity|]. destruct (X g); [apply B; reflexivity|exact E].
      + assert (E' : clean (text_of s g) <> clean (slice (fst h) (snd h) s)) by (intros X; apply str_eqb_eq in X; congruence).
        split; [|intros ->; right; split; [|reflexivity]; intros g' X; apply B in X; injection X as <-; exact E']. intros [(g' & X & Y & _)|[_ X]]; [apply B in X; injection X as ->; contradiction|exact X].
    - cbn [truthy_o]. split; [|intros ->; right; split; [|reflexivity]; intros g X; apply B in X; discriminate]. intros [(g & X & _)|[_ X]]; [apply B in X; discriminate|exact X].
  Qed.
  Lemma known_iff : nonnil (filter (within part) (named (lit "release_group") ms)) = false <->
    (forall x, In x ms -> m_name x = lit "release_group" -> m_start part <= m_start x -> m_end x <= m_end part -> False).
  Proof.
    rewrite nonnil_no. split.
    - intros H x X1 X2 X3 X4. apply (H x). apply filter_In. split; [apply named_In; auto|]. unfold within. lia.
    - intros H x Hx. apply filter_In in Hx as [X Y]. apply named_In in X as [X1 X2]. unfold within in Y. apply (H x X1 X2); lia.
  Qed.
  Lemma scene_part_spec g rem : scene_part clean s markers ms part = Some (g, rem) ->
    scene_found clean s markers ms part g /\ rem = range s ms (m_start g) (m_end g) (extra_title ms part).
  Proof.
    unfold scene_part. destruct (nonnil (filter (within part) (named (lit "release_group") ms))) eqn:K; [discriminate|]. destruct (scene_hole clean s ms part) as [h|] eqn:Hh; [|discriminate].
    destruct ((fst h <? snd h) && scene_before s ms part h && negb (int_coercable (strip is_sep (clean (raw s h))))) eqn:C; [|discriminate]. intros E. injection E as <- <-.
    rewrite !Bool.andb_true_iff, Nat.ltb_lt, Bool.negb_true_iff, <- Bool.not_true_iff_false, coercable_iff in C. destruct C as [[C1 C2] C3]. split; [|reflexivity].
    split; [apply known_iff; exact K|]. exists h. split; [apply scene_hole_iff; exact Hh|]. split; [apply (before_intro _ h eq_refl); exact C2|]. split; [exact C3|]. apply made_iff; auto.
  Qed.
  Lemma scene_part_found g : scene_found clean s markers ms part g -> exists rem, scene_part clean s markers ms part = Some (g, rem).
  Proof.
    intros (K & h & Hh & Hb & Hn & Hm). apply known_iff in K. unfold scene_part. rewrite K. assert (L : fst h < snd h) by apply Hh. apply scene_hole_iff in Hh. rewrite Hh. apply (before_intro _ h eq_refl) in Hb. rewrite Hb.
    assert (int_coercable (strip is_sep (clean (raw s h))) = false) as -> by (rewrite <- Bool.not_true_iff_false, coercable_iff; exact Hn).
    apply Nat.ltb_lt in L as L'. rewrite L'. cbn [andb negb]. eexists. apply made_iff in Hm; [|exact L]. rewrite Hm. reflexivity.
  Qed.
  Lemma found_inside g : scene_found clean s markers ms part g -> m_end g <= List.length s.
  Proof.
    intros (_ & h & ((H1 & H2 & H3 & _) & _) & _ & _ & [(b & B & _ & ->)|(_ & ->)]); cbn; [|unfold limit in H3; lia].
    assert (In b markers) by (destruct B as [B|[_ B]]; apply first_of_In in B; apply B). pose proof (MI b H). lia.
  Qed.
  Lemma scene_none : scene_part clean s markers ms part = None <-> forall g, ~ scene_found clean s markers ms part g.
  Proof.
    split.
    - intros E g H. destruct (scene_part_found g H) as (rem & E'). congruence.
    - intros H. destruct (scene_part clean s markers ms part) as [[g rem]|] eqn:E; [|reflexivity]. apply scene_part_spec in E as [E _]. destruct (H g E).
  Qed.
End Scene.

(** What the rule finds in one component: the text of the last stretch that no match covers and that holds something, if what comes
    just before it (but for separators) is a technical word and the text is not a number. The titles it overlaps go, but the first one. *)
Theorem C78_part clean s markers ms part : clean [] = [] -> ep_ok s markers ms -> inside s markers -> nonempty markers -> path_part markers part ->
  (forall g, (exists rem, scene_part clean s markers ms part = Some (g, rem)) <-> scene_found clean s markers ms part g) /\
  (forall g rem, scene_part clean s markers ms part = Some (g, rem) -> forall x, In x rem <-> In x ms /\ other_title ms part x /\ m_start x < m_end g /\ m_start g < m_end x).
Proof.
  intros Cn W MI MN P. split.
  - intros g. split; [intros (rem & E); apply (scene_part_spec clean Cn s markers ms W MI MN part P) in E; apply E|apply (scene_part_found clean Cn s markers ms W MI MN part P)].
  - intros g rem E x. apply (scene_part_spec clean Cn s markers ms W MI MN part P) in E as [F ->]. rewrite range_In'; [|apply W|apply (found_inside clean s markers ms MI part); exact F].
    split; [intros (A & B & C & D)|intros (A & D & B & C)]; repeat (split; [assumption|]); [split; [apply extra_iff in D; [exact D|apply W|exact A]|auto]|apply extra_iff; [apply W|exact A|exact D]].
Qed.
Print Assumptions C78_part.
(** The rule on a name of one component *)
Theorem C78_one clean s markers ms part m : clean [] = [] -> ep_ok s markers ms -> inside s markers -> nonempty markers ->
  (forall p, path_part markers p <-> p = part) -> NoDup markers -> (forall x, In x ms -> m_name x <> lit "release_group") ->
  In m (SceneReleaseGroup clean s markers ms) <->
  (In m ms /\ ~ (other_title ms part m /\ exists g, scene_found clean s markers ms part g /\ m_start m < m_end g /\ m_start g < m_end m)) \/ scene_found clean s markers ms part m.
Proof.
  intros Cn W MI MN U ND NR. assert (P : path_part markers part) by (apply U; reflexivity).
  assert (E : marker_sorted s ms comparator_predicate (parts_of markers) = [part]).
  { assert (L : forall p, In p (marker_sorted s ms comparator_predicate (parts_of markers)) <-> p = part) by (intros p; rewrite sorted_parts; apply U).
    assert (N : NoDup (marker_sorted s ms comparator_predicate (parts_of markers))).
    { unfold marker_sorted. refine (Permutation_NoDup (Permutation_sym (isort_perm _ _)) _) || refine (Permutation_NoDup (isort_perm _ _) _). unfold parts_of. apply NoDup_filter. exact ND. }
    destruct (marker_sorted s ms comparator_predicate (parts_of markers)) as [|a [|b l]].
    - destruct (proj2 (L part) eq_refl).
    - f_equal. apply L. left; reflexivity.
    - exfalso. apply NoDup_cons_iff in N as [N _]. apply N. left. transitivity part; [apply L; right; left; reflexivity|symmetry; apply L; left; reflexivity]. }
  unfold SceneReleaseGroup. rewrite E. cbn [fold_left]. unfold scene_step. cbn [fst snd].
  destruct (C78_part clean s markers ms part Cn W MI MN P) as [A B]. destruct (scene_part clean s markers ms part) as [[g rem]|] eqn:S.
  - specialize (B g rem eq_refl). assert (G : scene_found clean s markers ms part g) by (apply A; eauto). cbn [fst snd app].
    assert (Gu : forall g', scene_found clean s markers ms part g' -> g' = g) by (intros g' H; apply A in H as (r' & H); injection H; auto).
    assert (Gn : m_name g = lit "release_group") by (destruct G as (_ & h & _ & _ & _ & [(b & _ & _ & ->)|(_ & ->)]); reflexivity).
    rewrite append_In.
    + rewrite remove_all_In; [|apply W|intros x Hx; apply B in Hx; apply Hx]. rewrite B. cbn [In]. split.
      * intros [[H1 H2]|[<-|[]]]; [left; split; [exact H1|]; intros (T & g' & F & O1 & O2); apply H2; rewrite (Gu g' F) in *; auto|right; exact G].
      * intros [[H1 H2]|F]; [left; split; [exact H1|]; intros (_ & T & O1 & O2); apply H2; split; [exact T|exists g; auto]|right; left; symmetry; apply Gu, F].
    + intros x y [<-|[]] [<-|[]] _. reflexivity.
    + intros x y [<-|[]] Hy Ek. apply remove_all_In in Hy as [Hy _]; [|apply W|intros z Hz; apply B in Hz; apply Hz]. apply (NR y Hy). rewrite <- Gn. injection Ek; auto.
  - cbn. unfold append_all. cbn [fold_left]. assert (No : forall g, ~ scene_found clean s markers ms part g) by (intros g H; apply A in H as (r & H); discriminate).
    split; [intros H; left; split; [exact H|intros (_ & g & F & _); apply (No g F)]|intros [[H _]|F]; [exact H|destruct (No m F)]].
Qed.
Print Assumptions C78_one.
(** Whatever the components: nothing else than titles goes, and what comes is a release group found as above, given some of the matches *)
Theorem C78_only clean s markers ms m : clean [] = [] -> ep_ok s markers ms -> inside s markers -> nonempty markers ->
  (In m ms -> m_name m <> lit "title" -> In m (SceneReleaseGroup clean s markers ms)) /\
  (In m (SceneReleaseGroup clean s markers ms) -> In m ms \/ exists part ms', path_part markers part /\ (forall x, In x ms' -> In x ms) /\ (forall x, In x ms -> m_name x <> lit "title" -> In x ms') /\ scene_found clean s markers ms' part m).
Proof.
  intros Cn W MI MN. unfold SceneReleaseGroup.
  set (inv := fun st : list mt * list mt => ep_ok s markers (fst st) /\ (forall x, In x (fst st) -> In x ms) /\ (forall x, In x ms -> m_name x <> lit "title" -> In x (fst st)) /\
    forall g, In g (snd st) -> exists part ms', path_part markers part /\ (forall x, In x ms' -> In x ms) /\ (forall x, In x ms -> m_name x <> lit "title" -> In x ms') /\ scene_found clean s markers ms' part g).
  assert (K : forall l st, (forall p, In p l -> path_part markers p) -> inv st -> inv (fold_left (scene_step clean s markers) l st)).
  { induction l as [|p l IH]; intros st Hl I; [exact I|]. cbn [fold_left]. apply IH; [intros q Hq; apply Hl; right; exact Hq|]. destruct I as (I1 & I2 & I3 & I4). assert (Pp : path_part markers p) by (apply Hl; left; reflexivity).
    unfold scene_step. destruct (C78_part clean s markers (fst st) p Cn I1 MI MN Pp) as [A B]. destruct (scene_part clean s markers (fst st) p) as [[g rem]|] eqn:S; [|exact (conj I1 (conj I2 (conj I3 I4)))].
    specialize (B g rem eq_refl). assert (R : forall x, In x (remove_all rem (fst st)) <-> In x (fst st) /\ ~ In x rem) by (intros x; apply remove_all_In; [apply I1|intros z Hz; apply B in Hz; apply Hz]).
    split; [|split; [|split]]; cbn [fst snd].
    - constructor; [rewrite remove_all_filter by apply I1; apply distinct_filter, I1| | |apply I1]; intros x Hx; apply R in Hx as [Hx _]; apply I1; exact Hx.
    - intros x Hx. apply R in Hx as [Hx _]. auto.
    - intros x Hx N. apply R. split; [auto|]. intros H. apply B in H as (_ & ((T & _) & _) & _). contradiction.
    - intros g' Hg. apply in_app_iff in Hg as [Hg|[<-|[]]]; [exact (I4 g' Hg)|]. exists p, (fst st). split; [exact Pp|]. split; [exact I2|]. split; [exact I3|]. apply A. exists rem. reflexivity. }
  destruct (K (marker_sorted s ms comparator_predicate (parts_of markers)) (ms, [])) as (I1 & I2 & I3 & I4).
  - intros p Hp. apply sorted_parts in Hp. exact Hp.
  - split; [exact W|]. split; [auto|]. split; [auto|]. intros g [].
  - set (st := fold_left (scene_step clean s markers) (marker_sorted s ms comparator_predicate (parts_of markers)) (ms, [])) in *.
    destruct (append_all_app (snd st) (fst st)) as (new & -> & N). split.
    + intros H T. apply in_app_iff. left. auto.
    + intros H. apply in_app_iff in H as [H|H]; [left; auto|right; apply I4, N, H].
Qed.
Print Assumptions C78_only.

(** The formatter of the rule meets the hypothesis *)
From Verif Require Import GroupName.
Lemma strip_nil p : strip p [] = []. Proof. reflexivity. Qed.
Lemma drop_nil ign f : drop_forbidden ign [] f = [].
Proof.
  unfold drop_forbidden. rewrite skipn_nil. rewrite strip_nil. match goal with |- context [if ?b then [] else []] => replace (if b then [] else [] : str) with ([] : str) by (destruct b; reflexivity) end.
  rewrite firstn_nil, strip_nil. match goal with |- (if ?b then _ else _) = _ => destruct b; reflexivity end.
Qed.
Theorem C78_formatter ign forb : clean_groupname ign forb [] = [].
Proof.
  unfold clean_groupname. assert (E : fold_left (drop_forbidden ign) forb (clean_outer ign []) = []).
  { replace (clean_outer ign []) with ([] : str) by (unfold clean_outer; cbn; reflexivity). induction forb as [|f l IH]; [reflexivity|]. cbn [fold_left]. rewrite drop_nil. exact IH. }
  rewrite E. vm_compute. reflexivity.
Qed.
Print Assumptions C78_formatter.
Definition scene_ex : str := lit "Show.x264-Abc".
Definition scene_ms : list mt := [simple 0 4 (lit "title") (MvStr (lit "Show")) []; simple 5 9 (lit "video_codec") (MvStr (lit "H.264")) []].
Example C78_ex : SceneReleaseGroup (clean_groupname (lit "[]{}()") []) scene_ex [simple 0 13 (lit "path") (MvStr []) []] scene_ms = scene_ms ++ [simple 9 13 (lit "release_group") (MvStr (lit "Abc")) [lit "scene"]].
Proof. reflexivity. Qed.
Example C78_found_ex : scene_found (clean_groupname (lit "[]{}()") []) scene_ex [simple 0 13 (lit "path") (MvStr []) []] scene_ms (simple 0 13 (lit "path") (MvStr []) []) (simple 9 13 (lit "release_group") (MvStr (lit "Abc")) [lit "scene"]).
Proof.
  apply (C78_part (clean_groupname (lit "[]{}()") []) scene_ex [simple 0 13 (lit "path") (MvStr []) []] scene_ms).
  - apply C78_formatter.
  - constructor; [unfold distinct; cbn [map scene_ms]; repeat constructor; intros H; repeat (destruct H as [H|H]; [discriminate|]); destruct H| | |]; intros x Hx; repeat (destruct Hx as [<-|Hx]; [cbn; lia|]); destruct Hx.
  - intros x [<-|[]]; cbn; lia.
  - intros x [<-|[]]; cbn; lia.
  - split; [left|]; reflexivity.
  - eexists. reflexivity.
Qed.
