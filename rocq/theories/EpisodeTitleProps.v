(** Properties of guessit/rules/properties/episode_title.py, film.py and bonus.py (C50, C59, C60, C61, C62) *)
From Verif Require Import Py PyFacts Text TextFacts Sort Formatters Rebulk RebulkFacts RuleSpec Processors ProcessorsProofs Title TitleProofs TitleProps TitleMore EpisodeTitle.
From Coq Require Import Arith ZifyBool Sorted Permutation.

(** a set of matches renamed one after the other *)
Lemma rename_fold n : forall l base extra, distinct base -> distinct l -> (forall m, In m l -> In m base) ->
  foldM (rename_now n) l (base ++ extra) = Ok (filter (fun x => negb (mmem x l)) base ++ extra ++ map (fun m => set_name m n) l).
Proof.
  induction l as [|m l IH]; intros base extra Hb Hl Hin; cbn [foldM].
  - cbn [map]. rewrite app_nil_r, filter_id; [reflexivity|]. intros x _. reflexivity.
  - unfold rename_now at 1. rewrite (mmem_In m (base ++ extra)) by (apply in_app_iff; left; apply Hin; left; reflexivity). cbn [bind].
    assert (E : remove1 m (base ++ extra) = remove1 m base ++ extra).
    { assert (G : In m base) by (apply Hin; left; reflexivity). clear -G. induction base as [|x b IHb]; [destruct G|]. cbn [remove1 app].
      destruct (mt_eqb m x) eqn:Em; [reflexivity|]. cbn [app]. f_equal. apply IHb. destruct G as [->|G]; [rewrite mt_eqb_refl in Em; discriminate|exact G]. }
    rewrite E, <- app_assoc, remove1_filter by exact Hb. inversion Hl as [|? ? Hx Hl']; subst.
    rewrite IH; [|apply distinct_filter; exact Hb|exact Hl'|].
    + cbn [map]. rewrite filter_filter, <- !app_assoc. cbn [app]. f_equal. f_equal. apply filter_ext_In. intros x _. unfold mmem; cbn [existsb].
      assert (mt_eqb m x = mt_eqb x m) as -> by (unfold mt_eqb; destruct (mkey_eq_dec (mkey m) (mkey x)), (mkey_eq_dec (mkey x) (mkey m)); congruence).
      destruct (mt_eqb x m); reflexivity.
    + intros x H. apply filter_In. split; [apply Hin; right; exact H|]. destruct (mt_eqb m x) eqn:Em; [|reflexivity]. exfalso; apply Hx.
      apply mt_eqb_eq in Em. rewrite Em. apply in_map; exact H.
Qed.
(** the matches chosen by [p] are renamed *)
Lemma rename_filter n p ms : distinct ms ->
  foldM (rename_now n) (filter p ms) ms = Ok (filter (fun x => negb (p x)) ms ++ map (fun m => set_name m n) (filter p ms)).
Proof.
  intros H. assert (Hp : distinct (filter p ms)) by (apply distinct_filter; exact H).
  pose proof (rename_fold n (filter p ms) ms [] H Hp) as E. rewrite app_nil_r in E. rewrite E by (intros m Hm; apply filter_In in Hm; apply Hm).
  cbn [app]. f_equal. f_equal. apply filter_ext_In. intros x Hx. f_equal. destruct (p x) eqn:Ep.
  - apply mmem_In. apply filter_In. auto.
  - apply mmem_false. intros y Hy Ek. apply filter_In in Hy as [Hy Ey]. assert (y = x) by (apply (distinct_inj ms); auto). congruence.
Qed.

(** ** C50: the episode titles of a movie *)
Theorem C50_movie : forall ms, distinct ms ->
  (exists m, In m ms /\ m_name m = lit "episode_title" /\ ~ In (lit "alternative-replaced") (m_tags m)) ->
  (forall m, In m ms -> m_name m = lit "type" -> m_value m <> MvStr (lit "episode")) ->
  exists p, RenameEpisodeTitle ms = Ok (filter (fun m => negb (p m)) ms ++ map (fun m => set_name m (lit "alternative_title")) (filter p ms)) /\
  forall m, p m = true <-> m_name m = lit "episode_title".
Proof.
  intros ms Hd (m & Hm & Nm & Tm) Ht. exists (has_name (lit "episode_title")). split; [|intros x; apply has_name_iff].
  unfold RenameEpisodeTitle.
  assert (existsb (fun m => negb (has_tag (lit "alternative-replaced") m)) (named (lit "episode_title") ms) = true) as ->.
  { apply existsb_exists. exists m. split; [apply named_In; auto|]. apply Bool.negb_true_iff. apply Bool.not_true_iff_false. intros H. apply has_tag_iff in H. contradiction. }
  assert (existsb (fun m => mval_eqb (m_value m) (MvStr (lit "episode"))) (named (lit "type") ms) = false) as ->.
  { apply Bool.not_true_iff_false. intros H. apply existsb_exists in H as (x & Hx & Ex). apply named_In in Hx as [Hx Nx]. apply mval_eqb_eq in Ex. exact (Ht x Hx Nx Ex). }
  cbn [negb andb]. apply rename_filter. exact Hd.
Qed.
Print Assumptions C50_movie.
Theorem C50_unchanged : forall ms,
  (forall m, In m ms -> m_name m = lit "episode_title" -> In (lit "alternative-replaced") (m_tags m)) \/
  (exists m, In m ms /\ m_name m = lit "type" /\ m_value m = MvStr (lit "episode")) ->
  RenameEpisodeTitle ms = Ok ms.
Proof.
  intros ms H. unfold RenameEpisodeTitle. destruct H as [H|(m & Hm & Nm & Vm)].
  - assert (existsb (fun m => negb (has_tag (lit "alternative-replaced") m)) (named (lit "episode_title") ms) = false) as ->; [|reflexivity].
    apply Bool.not_true_iff_false. intros E. apply existsb_exists in E as (x & Hx & Ex). apply named_In in Hx as [Hx Nx].
    rewrite (proj2 (has_tag_iff _ _) (H x Hx Nx)) in Ex. discriminate.
  - assert (existsb (fun m => mval_eqb (m_value m) (MvStr (lit "episode"))) (named (lit "type") ms) = true) as ->; [|rewrite Bool.andb_false_r; reflexivity].
    apply existsb_exists. exists m. split; [apply named_In; auto|]. rewrite Vm. apply mval_eqb_eq. reflexivity.
Qed.
Print Assumptions C50_unchanged.
(** limit: a guess without the type (it is excluded) differs from the guess with it by more than the type: the episode title
    of an episode is an alternative title *)
Theorem C50_limit : exists ms t, distinct (ms ++ [t]) /\ m_name t = lit "type" /\ m_value t = MvStr (lit "episode") /\
  RenameEpisodeTitle (ms ++ [t]) = Ok (ms ++ [t]) /\ RenameEpisodeTitle ms <> Ok ms.
Proof.
  exists [simple 0 4 (lit "episode_title") (MvStr (lit "Name")) [lit "title"]], (simple 0 0 (lit "type") (MvStr (lit "episode")) []).
  split; [unfold distinct; cbn; repeat constructor; cbn; intuition discriminate|]. repeat split; try reflexivity. discriminate.
Qed.
Print Assumptions C50_limit.
Example ex_movie : RenameEpisodeTitle [mk "title" 0 4; mk "episode_title" 5 9] = Ok [mk "title" 0 4; mk "alternative_title" 5 9].
Proof. reflexivity. Qed.

(** ** C59: which titles are episode titles *)
(** the match that ends the closest to the start of [t], at or before it, is an episode number *)
Definition after_episode (ms : list mt) (t : mt) : Prop := exists e, In e ms /\ m_name e = lit "episode" /\ just_before ms t e.
Lemma distinct_values_In l v : In v (distinct_values l) <-> In v l.
Proof.
  induction l as [|w l IH]; cbn [distinct_values In]; [tauto|]. rewrite filter_In, IH. destruct (mval_eqb w v) eqn:E.
  - apply mval_eqb_eq in E. subst. cbn. intuition discriminate.
  - cbn. split; [intros [H|[H _]]; auto|intros [H|H]; auto].
Qed.
Lemma distinct_values_NoDup l : NoDup (distinct_values l).
Proof.
  induction l as [|w l IH]; cbn [distinct_values]; constructor; [|apply NoDup_filter; exact IH]. intros H. apply filter_In in H as [_ H].
  rewrite (proj2 (mval_eqb_eq w w) eq_refl) in H. discriminate.
Qed.
Lemma two_values l : (List.length (distinct_values l) <? 2) = false <-> exists a b, In a l /\ In b l /\ a <> b.
Proof.
  rewrite Nat.ltb_ge. pose proof (distinct_values_NoDup l) as N. split.
  - intros H. destruct (distinct_values l) as [|a [|b r]] eqn:E; cbn [List.length] in H; [lia|lia|]. exists a, b.
    repeat split; try (apply distinct_values_In; rewrite E; cbn; auto). intros ->. inversion N as [|? ? Hn _]. apply Hn. left; reflexivity.
  - intros (a & b & Ha & Hb & Hn). apply distinct_values_In in Ha, Hb. destruct (distinct_values l) as [|x [|y r]]; cbn [List.length]; [destruct Ha| |lia].
    destruct Ha as [<-|[]], Hb as [<-|[]]. congruence.
Qed.
(** When titles differ, those right after an episode number become episode titles; otherwise nothing changes *)
Theorem C59_titles : forall ms, distinct ms -> exists p,
  TitleToEpisodeTitle ms = Ok (filter (fun m => negb (p m)) ms ++ map (fun m => set_name m (lit "episode_title")) (filter p ms)) /\
  forall t, In t ms -> (p t = true <-> m_name t = lit "title" /\ after_episode ms t /\
    exists a b, In a ms /\ In b ms /\ m_name a = lit "title" /\ m_name b = lit "title" /\ m_value a <> m_value b).
Proof.
  intros ms Hd. unfold TitleToEpisodeTitle, to_episode_title.
  assert (Two : (List.length (distinct_values (map m_value (named (lit "title") ms))) <? 2) = false <->
    exists a b, In a ms /\ In b ms /\ m_name a = lit "title" /\ m_name b = lit "title" /\ m_value a <> m_value b).
  { rewrite two_values. split.
    - intros (a & b & Ha & Hb & Hn). apply in_map_iff in Ha as (x & <- & Hx), Hb as (y & <- & Hy). apply named_In in Hx as [], Hy as []. exists x, y; auto.
    - intros (a & b & Ha & Hb & Na & Nb & Hn). exists (m_value a), (m_value b). repeat split; auto; apply in_map, named_In; auto. }
  destruct (List.length _ <? 2) eqn:E.
  - exists (fun _ => false). split.
    + cbn [foldM]. rewrite filter_id by reflexivity. assert (filter (fun _ : mt => false) ms = []) as -> by (apply filter_nil; reflexivity). cbn [map]. rewrite app_nil_r. reflexivity.
    + intros t Ht. split; [discriminate|]. intros (_ & _ & H). apply Two in H. discriminate.
  - unfold named. rewrite filter_filter.
    exists (fun x => has_name (lit "title") x && nonnil (previous x ms (has_name (lit "episode")))). split; [apply rename_filter; exact Hd|].
    intros t Ht. rewrite Bool.andb_true_iff, has_name_iff, nonnil_iff. apply and_iff_compat_l.
    assert (P : previous t ms (has_name (lit "episode")) <> [] <-> after_episode ms t).
    { split.
      - intros H. destruct (previous t ms (has_name (lit "episode"))) as [|e l] eqn:Ee; [congruence|]. assert (He : In e (e :: l)) by (left; reflexivity). rewrite <- Ee in He.
        apply previous_In in He as (P1 & P2 & P3 & P4). apply has_name_iff in P1. exists e. split; [exact P2|]. split; [exact P1|]. unfold just_before. auto.
      - intros (e & E1 & E2 & E3) El. assert (In e (previous t ms (has_name (lit "episode")))); [|rewrite El in *; contradiction].
        apply previous_In. apply has_name_iff in E2. split; [exact E2|]. split; [exact E1|]. unfold just_before in E3. tauto. }
    rewrite P. split; [intros H; split; [exact H|apply Two; reflexivity]|tauto].
Qed.
Print Assumptions C59_titles.
Example ex_episode_title : TitleToEpisodeTitle [mk "title" 0 4; simple 5 7 (lit "episode") (MvInt 3) []; simple 8 12 (lit "title") (MvStr (lit "Name")) []]
  = Ok [mk "title" 0 4; simple 5 7 (lit "episode") (MvInt 3) []; simple 8 12 (lit "episode_title") (MvStr (lit "Name")) []].
Proof. vm_compute. reflexivity. Qed.

(** an episode title may follow one of these *)
Definition announces (m : mt) : Prop :=
  m_name m = lit "episode" \/ m_name m = lit "episode_count" \/ m_name m = lit "season" \/ m_name m = lit "season_count" \/
  m_name m = lit "date" \/ m_name m = lit "title" \/ m_name m = lit "year".
Lemma announces_iff m : smem (m_name m) previous_names = true <-> announces m.
Proof. unfold previous_names, announces. rewrite smem_In. cbn [In]. intuition congruence. Qed.
Lemma hole_filter_iff ms h : nonempty ms -> episode_hole_filter ms h = true <->
  (exists c, In c ms /\ m_name c = lit "crc32") \/
  exists m, In m ms /\ announces m /\ m_end m <= fst h /\ forall y, In y ms -> m_end y <= fst h -> m_end y <= m_end m.
Proof.
  intros Hn. unfold episode_hole_filter. rewrite Bool.orb_true_iff, nonnil_iff.
  assert (A : o_truthy (first (previous (hole_match h) ms (fun m => smem (m_name m) previous_names))) = true <->
    exists m, In m ms /\ announces m /\ m_end m <= fst h /\ forall y, In y ms -> m_end y <= fst h -> m_end y <= m_end m).
  { destruct (previous (hole_match h) ms _) as [|x l] eqn:E; cbn [first hd_error o_truthy].
    - split; [discriminate|]. intros (m & M1 & M2 & M3 & M4). assert (H : In m []); [|destruct H]. rewrite <- E. apply previous_In.
      apply announces_iff in M2. cbn [hole_match simple m_start]. auto.
    - assert (H : In x (x :: l)) by (left; reflexivity). rewrite <- E in H. apply previous_In in H as (P1 & P2 & P3 & P4). apply announces_iff in P1.
      cbn [hole_match simple m_start] in *. split; [intros _; exists x; auto|]. intros _. apply Nat.ltb_lt. apply Hn; exact P2. }
  rewrite A. assert (C : named (lit "crc32") ms <> [] <-> exists c, In c ms /\ m_name c = lit "crc32").
  { split.
    - intros H. destruct (named (lit "crc32") ms) as [|c l] eqn:E; [congruence|]. exists c. apply named_In. rewrite E. left; reflexivity.
    - intros (c & C1 & C2) E. assert (H : In c []); [|destruct H]. rewrite <- E. apply named_In; auto. }
  rewrite C. tauto.
Qed.
(** C59: which text becomes an episode title. Nothing changes when there is one already. Otherwise each new match is an episode title
    in a part of the path that has a title, right after a number, a date, a title or a year (but for words that may be in the
    title), unless the name has a checksum; its value is the cleaned up text of its span; it contains no bracket group,
    and overlaps no match that is kept but episode details (and weak matches when a directory is a season). The matches that are
    dropped are languages and countries. *)
Theorem C59_position : forall s context markers ms ms', store_ok s markers ms -> EpisodeTitleFromPosition s context markers ms = Ok ms' ->
  ((exists m, In m ms /\ m_name m = lit "episode_title") -> ms' = ms) /\
  exists keep new, ms' = filter keep ms ++ new /\
  (forall m, In m ms -> keep m = false -> maybe_word s m /\ m_name m <> lit "episode_details") /\
  forall t, In t new -> m_name t = lit "episode_title" /\ m_tags t = [lit "title"] /\
    (exists u v, cleanup (slice (m_start t) (m_end t) s) = Ok u /\ v = reorder_title u [lit "the"] [lit ","; lit ", "] /\ m_value t = MvStr v /\ v <> []) /\
    (exists part title, In part markers /\ m_name part = lit "path" /\ m_start part <= m_start t < m_end t /\ m_end t <= m_end part + 1 /\
       In title ms /\ m_name title = lit "title" /\ m_start title < m_end part /\ m_start part < m_end title) /\
    (forall g, In g markers -> m_name g = lit "group" -> overlapping t g -> fills markers g) /\
    (forall m, In m ms -> keep m = true -> overlapping t m -> m_name m = lit "episode_details" \/
       (weak_tag m /\ exists p, In p markers /\ m_name p = lit "path" /\ season_folder ms p)) /\
    ((exists c, In c ms /\ m_name c = lit "crc32") \/
     exists m, In m ms /\ announces m /\ m_end m <= m_start t /\ forall y, In y ms -> m_end m < m_end y <= m_start t ->
       maybe_word s y \/ (weak_tag y /\ exists p, In p markers /\ m_name p = lit "path" /\ season_folder ms p)).
Proof.
  intros s context markers ms ms' W. unfold EpisodeTitleFromPosition. destruct (nonnil (named (lit "episode_title") ms)) eqn:En.
  { intros H; injection H as <-. split; [reflexivity|]. exists (fun _ => true), []. rewrite app_nil_r. split; [symmetry; apply filter_id; reflexivity|].
    split; [discriminate|]. intros t []. }
  intros H. split.
  { intros (m & M1 & M2). exfalso. apply Bool.not_true_iff_false in En. apply En. apply nonnil_iff. intros E. assert (F : In m []); [|destruct F]. rewrite <- E. apply named_In; auto. }
  set (r := episode_title_rule s) in *.
  assert (Rn : forall n, rule_name r n -> title_name n) by (intros n [->|E]; [right; right; reflexivity|discriminate]).
  destruct (rule_result r s context markers ms ms' W Rn H) as (app & rm & new & Ew & -> & Hnew & _).
  exists (fun m => negb (mmem m rm)), new. split; [reflexivity|]. pose proof (so_ends _ _ _ W) as He.
  destruct (title_when_spec _ _ _ _ _ _ _ Ew) as [(_ & -> & ->)|(_ & S)].
  { split; [intros m _ Hk; discriminate|]. intros t Ht. apply Hnew in Ht. destruct Ht. }
  split.
  - intros m Hm Hk. apply Bool.negb_false_iff in Hk. apply mmem_iff in Hk as (x & Hx & Ex).
    destruct (ws_rm _ _ _ _ _ _ _ S x Hx) as (ex2 & p2 & ts2 & rm2 & F2 & Hx2 & _). apply found_part in F2 as (_ & C2 & _).
    apply check_titles_some in C2 as (z2 & Z2); try apply W; [|exact He].
    destruct (zt_removed _ _ _ _ _ _ _ _ _ _ Z2 x Hx2) as (Hxm & Ig & _ & _ & Sr). assert (x = m) by (apply (distinct_inj ms); auto; apply W). subst x.
    split; [apply is_ignored_iff; exact Ig|]. intros N. cbn in Sr. unfold episode_should_remove in Sr. rewrite (proj2 (has_name_iff _ _) N) in Sr. discriminate.
  - intros t Ht. destruct (ws_app _ _ _ _ _ _ _ S t (Hnew t Ht)) as (ex & p & ts & rm' & t0 & F & Ht0 & R & Hrm).
    assert (Pf : exists title, In title ms /\ m_name title = lit "title" /\ m_start title < m_end p /\ m_start p < m_end title).
    { assert (Hp : In p (filter (tr_part_filter r ms) (marker_sorted s ms comparator_predicate (named (lit "path") markers)))).
      { destruct F as [l q p' l2 ts0 rm0 E _ _|l1 p' l2 ts0 rm0 E _ _|p' ts0 rm0 E _ _]; [rewrite E; apply in_app_iff; right; right; left; reflexivity|rewrite E; apply in_app_iff; right; left; reflexivity|exact E]. }
      assert (Hpm := Hp). apply parts_markers in Hpm as [Hpm _]. apply filter_In in Hp as [_ Hp]. cbn in Hp. unfold episode_part_filter in Hp.
      destruct (range s ms (m_start p) (m_end p) (has_name (lit "title"))) as [|x l] eqn:E; [discriminate|]. assert (Hx : In x (x :: l)) by (left; reflexivity). rewrite <- E in Hx.
      apply range_In' in Hx as (X1 & X2 & X3 & X4); [|apply W|apply (so_markers _ _ _ W p Hpm)]. apply has_name_iff in X4. exists x; auto. }
    apply found_part in F as ((Hp & Np) & C & Hex). apply check_titles_some in C as (z & Z); try apply W; [|exact He].
    destruct (zone_title' _ _ _ _ _ _ _ _ _ _ _ Z Ht0) as (N0 & T0 & P0 & A0 & B0 & V0 & V1).
    destruct (zt_part _ _ _ _ _ _ _ _ _ _ Z) as (Zp & Zq & Zr).
    assert (N0' : m_name t0 = lit "episode_title") by (destruct N0 as [N0|N0]; [exact N0|discriminate]).
    assert (Et : m_start t = m_start t0 /\ m_end t = m_end t0 /\ m_tags t = m_tags t0 /\ m_value t = m_value t0 /\ m_name t = lit "episode_title") by (destruct R as [->|(-> & _)]; repeat split; auto).
    destruct Et as (E1 & E2 & E3 & E4 & E5). rewrite E1, E2, E3, E4. clear E3 E4.
    assert (Zin : forall j, m_start t0 <= j < m_end t0 -> insp j z) by (intros j Hj; unfold insp; lia).
    assert (Wk : forall m, ex m = true -> weak_tag m /\ exists p, In p markers /\ m_name p = lit "path" /\ season_folder ms p).
    { intros m Hm. destruct Hex as [->|(-> & q & Hq & Nq & Hs)]; [discriminate|]. split; [apply weak_iff; exact Hm|]. exists q. split; [exact Hq|]. split; [exact Nq|].
      apply (season_only_spec s markers ms q W Hq Hs). }
    repeat apply conj.
    + exact E5.
    + exact T0.
    + unfold title_text in V0, V1. destruct (cleanup (slice (m_start t0) (m_end t0) s)) as [u|]; [|congruence].
      exists u, (reorder_title u [lit "the"] [lit ","; lit ", "]). auto.
    + destruct Pf as (title & X1 & X2 & X3 & X4). exists p, title. repeat split; auto; lia.
    + intros g Hg Ng (j & Hj & Hjg). rewrite E1, E2 in Hj. destruct (whole_part markers g) eqn:Wp; [apply whole_part_fills; exact Wp|]. exfalso.
      apply (zt_group _ _ _ _ _ _ _ _ _ _ Z j (m_span g) (Zin j Hj)); [apply crop_groups_all; auto|]. exact Hjg.
    + intros m Hm Hk (j & Hj & Hjm). rewrite E1, E2 in Hj. apply Bool.negb_true_iff in Hk.
      assert (Nrm : ~ In m rm') by (intros Hx; apply Hrm in Hx; apply mmem_In in Hx; congruence).
      destruct (zt_free _ _ _ _ _ _ _ _ _ _ Z j m (Zin j Hj) Hm Hjm) as [Ig|Ex]; [left|right; apply Wk; exact Ex].
      destruct (has_name (lit "episode_details") m) eqn:Ed; [apply has_name_iff; exact Ed|]. exfalso. apply Nrm.
      apply (zt_remove _ _ _ _ _ _ _ _ _ _ Z m j Hm Ig (Zin j Hj) Hjm). cbn. unfold episode_should_remove, base_should_remove. rewrite Ed, Bool.andb_false_r. reflexivity.
    + destruct (zt_hole _ _ _ _ _ _ _ _ _ _ Z) as (h & H1 & H2 & Hf & Hfree). cbn in Hf. apply hole_filter_iff in Hf; [|apply W].
      destruct Hf as [Hc|(m & M1 & M2 & M3 & M4)]; [left; exact Hc|right]. exists m. split; [exact M1|]. split; [exact M2|]. split; [lia|].
      intros y Hy Hy2. destruct (Nat.le_gt_cases (m_end y) (fst h)) as [Hle|Hgt]; [specialize (M4 y Hy Hle); lia|].
      destruct (so_inside _ _ _ W y Hy) as [Y1 _]. pose proof (so_nonempty _ _ _ W y Hy).
      destruct (Hfree (m_end y - 1) y) as [Ig|Ex]; [unfold insp; lia|exact Hy|lia|left; apply is_ignored_iff; exact Ig|right; apply Wk; exact Ex].
Qed.
Print Assumptions C59_position.
(** non-vacuity: "Show S01E02 Pilot.mkv" *)
Example ex_position : let s := lit "Show S01E02 Pilot.mkv" in
  let ms := [simple 0 5 (lit "title") (MvStr (lit "Show")) [lit "title"]; simple 5 8 (lit "season") (MvInt 1) []; simple 8 11 (lit "episode") (MvInt 2) []; simple 17 21 (lit "container") (MvStr (lit "mkv")) []] in
  EpisodeTitleFromPosition s [] [mk "path" 0 21] ms = Ok (ms ++ [simple 11 17 (lit "episode_title") (MvStr (lit "Pilot")) [lit "title"]]) /\
  store_ok s [mk "path" 0 21] ms.
Proof.
  cbv zeta. split; [vm_compute; reflexivity|].
  split; try (unfold inside, nonempty; cbn; intros m Hm; repeat (destruct Hm as [<-|Hm]; [cbn; lia|]); destruct Hm).
  - unfold distinct. cbn. repeat constructor; cbn; intuition discriminate.
  - unfold distinct. cbn. repeat constructor; cbn; intuition discriminate.
Qed.

Lemma check_none_hole r s context markers ms part : inside s ms -> nonempty ms -> ends_ok markers -> (forall g, In g markers -> m_name g = lit "group" -> m_start g < m_end g) ->
  check_titles r s context markers ms never part = Ok None ->
  forall j c, m_start part <= j <= m_end part -> nth_error s j = Some c -> is_sep c = false -> ~ covered ms j ->
  (forall g, In g markers -> m_name g = lit "group" -> ~ (m_start g <= j < m_end g)) ->
  exists p, insp j p /\ tr_hole_filter r ms p = false /\
    (forall k m, insp k p -> In m ms -> m_start m <= k < m_end m -> is_ignored s m = true) /\
    (fst p = m_start part \/ covered ms (fst p - 1) \/ exists g, In g markers /\ m_name g = lit "group" /\ m_start g <= fst p - 1 < m_end g).
Proof.
  intros Hi Hn He Hg H j c Hj Hc Ec Hu Hgr. unfold check_titles in H. assert (Hls : j < List.length s) by (apply nth_error_Some; congruence).
  set (ign := fun m => is_ignored s m || never m) in *.
  assert (Ng : forall g, In g (crop_groups markers) -> ~ insp j g).
  { intros g Hgm. apply crop_groups_In in Hgm as (g' & G1 & G2 & ->). exact (Hgr g' G1 G2). }
  destruct (proj2 (holes_cover_ignore s ms (m_start part) (m_end part + 1) ign Hn Hi j)) as (h & Hh & Hjh).
  { split; [lia|]. intros m Hm Hcm. exfalso; apply Hu; exists m; auto. }
  destruct (proj2 (crop_cover (crop_groups markers) h j (crop_groups_ok markers He)) (conj Hjh Ng)) as (p & Hp & Hjp).
  assert (Hin : In p (holes_process markers (filter (fun h => nonnil (hole_value s h)) (holes s ms (m_start part) (m_end part + 1) ign None)))).
  { unfold holes_process. apply in_flat_map. exists h. split; [|exact Hp]. apply filter_In. split; [exact Hh|]. apply hole_value_nonnil. exists j, c. auto. }
  assert (Q : forall k, insp k p -> m_start part <= k < Nat.min (List.length s) (m_end part + 1) /\ forall x, In x ms -> m_start x <= k < m_end x -> ign x = true).
  { intros k Hk. apply (holes_cover_ignore s ms (m_start part) (m_end part + 1) ign Hn Hi k). exists h. split; [exact Hh|].
    apply (crop_sub _ _ p k (crop_groups_ok markers He) Hp Hk). }
  assert (Hpl : snd p <= List.length s) by (destruct (Q (snd p - 1)) as [H1 _]; unfold insp in *; lia).
  exists p. split; [exact Hjp|]. split; [|split].
  - destruct (tr_hole_filter r ms p) eqn:Hf; [|reflexivity]. exfalso.
    pose proof (first_titles_none r s context ms part _ H p Hin) as N. unfold hole_titles in N. rewrite Hf in N.
    assert (Elt : (fst p <? snd p) = true) by (unfold insp in Hjp; lia). rewrite Elt in N. cbn [negb orb] in N.
    set (ignored := range s ms (fst p) (snd p) (is_ignored s)) in N.
    assert (Hig : forall m, In m ignored -> In m ms) by (intros m Hm; apply range_In in Hm; tauto).
    pose proof (trim_trimmed s ms part p ignored Hi Hig Hpl) as T. destruct (trim s ms part p ignored) as [h' keep].
    destruct T as [T1 T2 T3 T4 T5 T6]; cbn [fst snd] in *.
    assert (Hjh' : insp j h').
    { destruct (Nat.le_gt_cases (fst h') j) as [H1|H1], (Nat.lt_ge_cases j (snd h')) as [H2|H2]; try (split; assumption); exfalso.
      all: destruct (T6 j Hjp) as [Hs|(m & Hm & Hcm)]; [unfold insp; lia|unfold sep_at in Hs; rewrite Hc in Hs; congruence|].
      all: apply Hu; exists m; split; [apply Hig, T4; exact Hm|exact Hcm]. }
    assert (Hv : nonnil (hole_value s h') = true) by (apply hole_value_nonnil; exists j, c; auto).
    rewrite Hv in N. unfold insp in Hjh'. destruct (Nat.ltb_spec (snd h') (fst h')); [discriminate|]. destruct (Nat.ltb_spec (fst h') (snd h')); [discriminate|lia].
  - intros k m Hk Hm Hcm. destruct (Q k Hk) as [_ Qk]. specialize (Qk m Hm Hcm). unfold ign, never in Qk. rewrite Bool.orb_false_r in Qk. exact Qk.
  - set (e := Nat.min (List.length s) (m_end part + 1)). assert (Hae : m_start part < e) by (destruct (Q j Hjp) as [Q1 _]; fold e in Q1; lia).
    set (free := fun j => ~ covered (taken ign ms) j /\ forall c, In c (crop_groups markers) -> ~ insp j c).
    assert (Ed : edge free (m_start part) e p).
    { apply (crop_edge free (m_start part) e (crop_groups markers)) with (h := h); auto.
      - intros c' Hc'. apply crop_groups_In in Hc' as (g & G1 & G2 & ->). cbn. apply Hg; assumption.
      - intros c' k Hc' Hk [_ F]. exact (F c' Hc' Hk).
      - pose proof (holes_max s (taken ign ms) (m_start part) (m_end part + 1) (taken_nonempty ign ms Hn)) as M.
        rewrite max_end_inside in M by (apply taken_inside; exact Hi). rewrite holes_ignore in Hh by exact Hi. destruct (M Hae h Hh) as [M1 M2]. fold e in M2.
        split; [destruct M1 as [M1|M1]; [left; exact M1|right]|destruct M2 as [M2|M2]; [left; exact M2|right]]; intros [F _]; contradiction.
      - unfold insp in Hjp. lia. }
    destruct Ed as [[E1|E1] _]; [left; exact E1|right].
    destruct (covered_dec ms (fst p - 1)) as [Cv|Cv]; [left; exact Cv|right].
    destruct (existsb (fun g => (fst g <=? fst p - 1) && (fst p - 1 <? snd g)) (crop_groups markers)) eqn:Ex.
    + apply existsb_exists in Ex as (g & Gm & Gc). apply crop_groups_In in Gm as (g' & G1 & G2 & ->). exists g'. unfold m_span in Gc; cbn [fst snd] in Gc. repeat split; auto; lia.
    + exfalso. apply E1. split.
      * intros (m & Hm & Hcm). apply Cv. exists m. apply filter_In in Hm as [Hm _]. auto.
      * intros g Gm Gc. enough (existsb (fun g => (fst g <=? fst p - 1) && (fst p - 1 <? snd g)) (crop_groups markers) = true) by congruence.
        apply existsb_exists. exists g. split; [exact Gm|unfold insp in Gc; lia].
Qed.
(** C59: an episode title is found. When there is none yet and, in a part of the path with a title, some text comes right after a
    number, a date, a title or a year (or the name has a checksum), outside brackets and matches, there is one afterwards. *)
Theorem C59_found : forall s context markers ms ms' part title j c, store_ok s markers ms -> EpisodeTitleFromPosition s context markers ms = Ok ms' ->
  (forall g, In g markers -> m_name g = lit "group" -> m_start g < m_end g) ->
  (forall m, In m ms -> m_name m <> lit "episode_title") ->
  In part markers -> m_name part = lit "path" -> In title ms -> m_name title = lit "title" -> overlapping part title ->
  m_start part <= j <= m_end part -> nth_error s j = Some c -> is_sep c = false ->
  let free k := ~ covered ms k /\ forall g, In g markers -> m_name g = lit "group" -> ~ (m_start g <= k < m_end g) in
  free j ->
  ((exists x, In x ms /\ m_name x = lit "crc32") \/
   exists m, In m ms /\ announces m /\ m_start part < m_end m <= j /\ forall k, m_end m <= k <= j -> free k) ->
  exists t, In t ms' /\ m_name t = lit "episode_title".
Proof.
  intros s context markers ms ms' part title j c W H Hg Hno Hp Np Ht Nt Ot Hj Hc Ec free Hf Han.
  unfold EpisodeTitleFromPosition in H. destruct (nonnil (named (lit "episode_title") ms)) eqn:En.
  { exfalso. destruct (named (lit "episode_title") ms) as [|x l] eqn:E; [discriminate|]. assert (Hx : In x (x :: l)) by (left; reflexivity). rewrite <- E in Hx.
    apply named_In in Hx as [Hx Nx]. exact (Hno x Hx Nx). }
  set (r := episode_title_rule s) in *.
  assert (Rn : forall n, rule_name r n -> title_name n) by (intros n [->|E]; [right; right; reflexivity|discriminate]).
  destruct (rule_result r s context markers ms ms' W Rn H) as (app & rm & new & Ew & _ & _ & Happ). pose proof (so_ends _ _ _ W) as He.
  destruct (title_when_spec _ _ _ _ _ _ _ Ew) as [((m & Hm & Nm & _) & _)|(_ & S)]; [exfalso; exact (Hno m Hm Nm)|].
  destruct (ws_first _ _ _ _ _ _ _ S) as [Hn|(ex & p & ts & rm' & F & Hhd)].
  - exfalso. assert (Hin : In part (filter (tr_part_filter r ms) (marker_sorted s ms comparator_predicate (named (lit "path") markers)))).
    { apply filter_In. split.
      - unfold marker_sorted. apply (Permutation_in part (Permutation_sym (isort_perm _ _))). apply named_In; auto.
      - cbn. unfold episode_part_filter. apply nonnil_iff. intros E. assert (X : In title []); [|destruct X]. rewrite <- E.
        apply range_In'; [apply W|apply (so_markers _ _ _ W part Hp)|]. apply has_name_iff in Nt. destruct Ot as (i & I1 & I2). repeat split; auto; lia. }
    specialize (Hn part Hin).
    destruct (check_none_hole r s context markers ms part (so_inside _ _ _ W) (so_nonempty _ _ _ W) He Hg Hn j c Hj Hc Ec (proj1 Hf) (proj2 Hf)) as (p & Hjp & Hfl & Hfree & Hedge).
    apply Bool.not_true_iff_false in Hfl. apply Hfl. cbn. apply hole_filter_iff; [apply W|]. destruct Han as [Hcrc|(m & M1 & M2 & M3 & M4)]; [left; exact Hcrc|right].
    exists m. split; [exact M1|]. split; [exact M2|]. unfold insp in Hjp.
    assert (Nig : is_ignored s m = false).
    { unfold is_ignored, ignored_names. apply Bool.andb_false_intro2. apply Bool.not_true_iff_false. rewrite smem_In. cbn [In].
      intros I. unfold announces in M2. destruct M2 as [E|[E|[E|[E|[E|[E|E]]]]]]; rewrite E in I; destruct I as [I|[I|[I|[]]]]; discriminate. }
    assert (Efp : fst p = m_end m).
    { pose proof (so_nonempty _ _ _ W m M1). destruct (Nat.lt_trichotomy (fst p) (m_end m)) as [Hlt|[Heq|Hgt]]; [|exact Heq|].
      - exfalso. rewrite (Hfree (m_end m - 1) m) in Nig; [discriminate|unfold insp; lia|exact M1|lia].
      - exfalso. destruct (M4 (fst p - 1)) as [F1 F2]; [lia|]. destruct Hedge as [E|[E|(g & G1 & G2 & G3)]]; [lia|contradiction|exact (F2 g G1 G2 G3)]. }
    rewrite Efp. split; [lia|]. intros y Hy Hle. exact Hle.
  - apply found_part in F as (_ & C & _). apply check_titles_some in C as (z & Z); try apply W; [|exact He].
    destruct (zt_titles _ _ _ _ _ _ _ _ _ _ Z) as (l & -> & Sp). cbn in Sp. subst l. specialize (Hhd _ eq_refl).
    destruct (Happ _ Hhd) as (x & Hx' & Ex). exists x. split; [exact Hx'|]. unfold mkey in Ex. injection Ex as _ _ Ex _ _. rewrite Ex. reflexivity.
Qed.
Print Assumptions C59_found.

(** ** AlternativeTitleReplace *)
(** only separators between the end of [t] (or its last characters) and the position [i] *)
Definition reaches (s : str) (t : mt) (i : nat) : Prop :=
  exists q, m_start t <= q < m_end t /\ q < i /\ forall k, q < k < i -> exists c, nth_error s k = Some c /\ is_sep c = true.

Lemma merge_new_first acc x l : first (merge_new acc (x :: l)) = match acc with [] => Some x | y :: _ => Some y end.
Proof.
  destruct acc as [|y acc].
  - unfold merge_new. cbn [fold_left mmem existsb app]. destruct (merge_new_app [x] l) as (c & E). unfold merge_new in E. rewrite E. reflexivity.
  - destruct (merge_new_app (y :: acc) (x :: l)) as (c & ->). reflexivity.
Qed.
Lemma chain_down_first_acc s ms p : forall i y acc, first (chain_down s ms p i (y :: acc)) = Some y.
Proof.
  induction i as [|i IH]; intros y acc; cbn [chain_down]; [reflexivity|]. destruct (filter p (at_index i ms)) as [|x l].
  - destruct (sep_at s i); [apply IH|reflexivity].
  - destruct (merge_new_app (y :: acc) (x :: l)) as (c & ->). apply IH.
Qed.
Lemma chain_down_first s ms p : forall i,
  match first (chain_down s ms p i []) with
  | Some t => exists k, k < i /\ In t ms /\ p t = true /\ m_start t <= k < m_end t /\
      (forall l, k < l < i -> sep_at s l = true) /\ forall u l, In u ms -> p u = true -> k < l < i -> ~ (m_start u <= l < m_end u)
  | None => forall u k, In u ms -> p u = true -> k < i -> m_start u <= k < m_end u -> exists l, k < l < i /\ sep_at s l = false
  end.
Proof.
  induction i as [|i IH]; cbn [chain_down]; [cbn [first hd_error]; intros; lia|]. destruct (filter p (at_index i ms)) as [|x l] eqn:E.
  - assert (No : forall u, In u ms -> p u = true -> ~ (m_start u <= i < m_end u)).
    { intros u Hu Pu Hc. assert (H : In u []); [|destruct H]. rewrite <- E. apply filter_In. split; [|exact Pu]. apply filter_In. split; [exact Hu|unfold covers; lia]. }
    destruct (sep_at s i) eqn:Es.
    + destruct (first (chain_down s ms p i [])) as [t|].
      * destruct IH as (k & K1 & K2 & K3 & K4 & K5 & K6). exists k. split; [lia|]. split; [exact K2|]. split; [exact K3|]. split; [exact K4|]. split.
        -- intros l Hl. destruct (Nat.eq_dec l i) as [->|]; [exact Es|apply K5; lia].
        -- intros u l Hu Pu Hl. destruct (Nat.eq_dec l i) as [->|]; [apply No; assumption|apply K6; auto; lia].
      * intros u k Hu Pu Hk Hc. destruct (Nat.eq_dec k i) as [->|]; [exfalso; exact (No u Hu Pu Hc)|]. destruct (IH u k Hu Pu ltac:(lia) Hc) as (l & L1 & L2). exists l. split; [lia|exact L2].
    + cbn [first hd_error]. intros u k Hu Pu Hk Hc. destruct (Nat.eq_dec k i) as [->|]; [exfalso; exact (No u Hu Pu Hc)|]. exists i. split; [lia|exact Es].
  - pose proof (merge_new_first [] x l) as M. cbv iota beta in M. destruct (merge_new [] (x :: l)) as [|y acc] eqn:Em; [discriminate|]. cbn [first hd_error] in M. injection M as ->.
    rewrite chain_down_first_acc. assert (Hx : In x (x :: l)) by (left; reflexivity). rewrite <- E in Hx. apply filter_In in Hx as [Hx Px]. apply filter_In in Hx as [Hx Cx].
    unfold covers in Cx. exists i. repeat split; auto; try lia.
Qed.
(** the conditions: [a] is the first alternative title; [t] is the last match before it that is tagged as a title, only separators
    are between them, and a number, a date, a title or a year comes right before [t] or the name has a checksum *)
Definition replaceable (s : str) (ms : list mt) (a t : mt) : Prop :=
  In a ms /\ m_name a = lit "alternative_title" /\
  (forall b, In b ms -> m_name b = lit "alternative_title" -> m_start a < m_start b \/ m_start a = m_start b /\ m_end a <= m_end b) /\
  In t ms /\ In (lit "title") (m_tags t) /\ reaches s t (m_start a) /\
  ((exists c, In c ms /\ m_name c = lit "crc32") \/ exists m, In m ms /\ announces m /\ just_before ms t m).
Lemma announced_iff ms t : nonempty ms -> o_truthy (first (previous t ms (fun m => smem (m_name m) previous_names))) || nonnil (named (lit "crc32") ms) = true <->
  (exists c, In c ms /\ m_name c = lit "crc32") \/ exists m, In m ms /\ announces m /\ just_before ms t m.
Proof.
  intros Hn. pose proof (hole_filter_iff ms (m_start t, m_end t) Hn) as H. unfold episode_hole_filter, previous in H. cbn [hole_match simple m_start fst] in H.
  unfold previous. rewrite H. unfold just_before. split; (intros [A|(m & A)]; [left; exact A|right; exists m; tauto]).
Qed.
Definition replaced (a : mt) : mt := set_tags (set_name a (lit "episode_title")) (m_tags a ++ [lit "alternative-replaced"]).
Theorem C59_alternative : forall s markers ms, store_ok s markers ms ->
  exists ms', AlternativeTitleReplace s ms = Ok ms' /\
  (ms' = ms \/ exists a t p, replaceable s ms a t /\ (forall m, In m ms -> m_name m <> lit "episode_title") /\
    ms' = filter (fun m => negb (p m)) ms ++ [replaced a] /\ forall m, In m ms -> (p m = true <-> m = a)).
Proof.
  intros s markers ms W. unfold AlternativeTitleReplace. destruct (alternative_found s ms) as [a|] eqn:E; [|exists ms; auto].
  unfold alternative_found in E. destruct (nonnil (named (lit "episode_title") ms)) eqn:En; [discriminate|].
  assert (Ra : range_all s ms (has_name (lit "alternative_title")) = range s ms 0 (List.length s) (has_name (lit "alternative_title"))).
  { unfold range_all. rewrite max_end_inside by apply W. reflexivity. }
  rewrite Ra in E. pose proof (range_first s ms 0 (List.length s) (has_name (lit "alternative_title")) (so_inside _ _ _ W) (le_n _)) as R.
  destruct (first (range s ms 0 (List.length s) (has_name (lit "alternative_title")))) as [a'|]; [|discriminate]. destruct (m_truthy a'); [|discriminate].
  unfold chain_before in E. rewrite max_end_inside in E by apply W. destruct R as [(R1 & R2 & R3 & R4) R5]. rewrite Nat.min_r in E by lia.
  pose proof (chain_down_first s ms (has_tag (lit "title")) (m_start a')) as C. destruct (first (chain_down s ms (has_tag (lit "title")) (m_start a') [])) as [t|]; [|discriminate].
  destruct (m_truthy t && _) eqn:Et in E; [|discriminate]. injection E as <-. apply Bool.andb_true_iff in Et as [_ Et]. apply announced_iff in Et; [|apply W].
  destruct C as (k & C1 & C2 & C3 & C4 & C5 & C6). apply has_name_iff in R4. apply has_tag_iff in C3.
  rewrite mmem_In by exact R1. eexists. split; [reflexivity|]. right. exists a', t, (mt_eqb a'). split; [|split; [|split]].
  - split; [exact R1|]. split; [exact R4|]. split.
    + intros b Hb Nb. apply has_name_iff in Nb. destruct (so_inside _ _ _ W b Hb) as [B1 B2]. pose proof (so_nonempty _ _ _ W b Hb) as B3.
      assert (L : mt_le a' b = true) by (apply R5; auto; lia). unfold mt_le in L. lia.
    + split; [exact C2|]. split; [exact C3|]. split; [|exact Et]. exists k. split; [exact C4|]. split; [exact C1|]. intros l Hl. specialize (C5 l Hl).
      unfold sep_at in C5. destruct (nth_error s l) as [c|]; [|discriminate]. exists c. auto.
  - intros m Hm Nm. apply Bool.not_true_iff_false in En. apply En. apply nonnil_iff. intros E. assert (F : In m []); [|destruct F]. rewrite <- E. apply named_In; auto.
  - rewrite remove1_filter by apply W. reflexivity.
  - intros m Hm. rewrite mt_eqb_eq. split; [intros E|intros ->; reflexivity]. symmetry. apply (distinct_inj ms); auto. apply W.
Qed.
Print Assumptions C59_alternative.
(** and the conditions suffice: when no other alternative title starts where [a] does, and every other match tagged as a title ends before [t] starts or starts after [a] *)
Theorem C59_replaced : forall s markers ms a t, store_ok s markers ms -> (forall m, In m ms -> m_name m <> lit "episode_title") ->
  replaceable s ms a t -> (forall b, In b ms -> m_name b = lit "alternative_title" -> m_start b = m_start a -> b = a) ->
  (forall u, In u ms -> In (lit "title") (m_tags u) -> u = t \/ m_end u <= m_start t \/ m_start a <= m_start u) ->
  exists ms', AlternativeTitleReplace s ms = Ok ms' /\ In (replaced a) ms'.
Proof.
  intros s markers ms a t W Hno (A1 & A2 & A3 & T1 & T2 & (q & Q1 & Q2 & Q3) & An) Ua Ut.
  unfold AlternativeTitleReplace, alternative_found.
  assert (nonnil (named (lit "episode_title") ms) = false) as ->.
  { destruct (named (lit "episode_title") ms) as [|x l] eqn:E; [reflexivity|]. exfalso. assert (Hx : In x (x :: l)) by (left; reflexivity). rewrite <- E in Hx.
    apply named_In in Hx as [Hx Nx]. exact (Hno x Hx Nx). }
  unfold range_all, chain_before. rewrite max_end_inside by apply W. destruct (so_inside _ _ _ W a A1) as [B1 B2]. pose proof (so_nonempty _ _ _ W a A1) as B3.
  pose proof (range_first s ms 0 (List.length s) (has_name (lit "alternative_title")) (so_inside _ _ _ W) (le_n _)) as R. apply has_name_iff in A2.
  destruct (first (range s ms 0 (List.length s) (has_name (lit "alternative_title")))) as [a'|]; [|rewrite (R a A1) in A2 by lia; discriminate].
  destruct R as [(R1 & R2 & R3 & R4) R5]. apply has_name_iff in R4. specialize (R5 a A1 ltac:(lia) ltac:(lia) A2). unfold mt_le in R5.
  assert (a' = a) as ->. { apply Ua; auto. specialize (A3 a' R1 R4). lia. }
  unfold m_truthy at 1. assert ((m_start a <? m_end a) = true) as -> by lia. rewrite Nat.min_r by lia.
  pose proof (chain_down_first s ms (has_tag (lit "title")) (m_start a)) as C. apply has_tag_iff in T2.
  destruct (first (chain_down s ms (has_tag (lit "title")) (m_start a) [])) as [u|].
  - destruct C as (k & C1 & C2 & C3 & C4 & C5 & C6). assert (u = t) as ->.
    { apply has_tag_iff in C3. destruct (Ut u C2 C3) as [E|[E|E]]; [exact E| |lia]. exfalso. apply (C6 t q T1 T2); [lia|exact Q1]. }
    assert (m_truthy t = true) as -> by (unfold m_truthy; lia). rewrite (proj2 (announced_iff ms t (so_nonempty _ _ _ W)) An). cbn [andb].
    rewrite mmem_In by exact A1. eexists. split; [reflexivity|]. apply in_app_iff. right. left. reflexivity.
  - exfalso. destruct (C t q T1 T2 Q2 Q1) as (l & L1 & L2). destruct (Q3 l L1) as (c & E & Ec). unfold sep_at in L2. rewrite E in L2. congruence.
Qed.
Print Assumptions C59_replaced.
(** non-vacuity: "01 - Show - Name.mkv" *)
Example ex_replace : let s := lit "01 - Show - Name.mkv" in
  let ms := [simple 0 2 (lit "episode") (MvInt 1) []; simple 4 10 (lit "title") (MvStr (lit "Show")) [lit "title"]; simple 11 16 (lit "alternative_title") (MvStr (lit "Name")) [lit "title"]] in
  AlternativeTitleReplace s ms = Ok [simple 0 2 (lit "episode") (MvInt 1) []; simple 4 10 (lit "title") (MvStr (lit "Show")) [lit "title"];
    simple 11 16 (lit "episode_title") (MvStr (lit "Name")) [lit "title"; lit "alternative-replaced"]] /\
  store_ok s [] ms /\ exists a t, replaceable s ms a t.
Proof.
  cbv zeta. split; [vm_compute; reflexivity|]. split.
  - split; try (unfold inside, nonempty; cbn; intros m Hm; repeat (destruct Hm as [<-|Hm]; [cbn; lia|]); destruct Hm).
    + unfold distinct. cbn. repeat constructor; cbn; intuition discriminate.
    + constructor.
  - eexists. eexists. split; [right; right; left; reflexivity|]. split; [reflexivity|]. split; [intros b [<-|[<-|[<-|[]]]]; try discriminate; intros _; cbn; lia|].
    split; [right; left; reflexivity|]. split; [left; reflexivity|]. split.
    + exists 9. cbn. split; [lia|]. split; [lia|]. intros k Hk. assert (k = 10) as -> by lia. eexists. split; reflexivity.
    + right. eexists. split; [left; reflexivity|]. split; [left; reflexivity|]. split; [left; reflexivity|]. split; [cbn; lia|]. intros y [<-|[<-|[<-|[]]]]; cbn; lia.
Qed.
