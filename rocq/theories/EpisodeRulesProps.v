(** Weak numbers, counts, versions, details, discs: specification and proofs (C63, C64, C65) *)
From Verif Require Import Py PyFacts Text TextFacts Sort Formatters Common Rebulk RebulkFacts RuleSpec Title TitleProofs TitleProps TitleMore EpisodeTitle EpisodeTitleProps HolesMore TitleConflictProps Episodes EpisodesProofs EpisodesProps EpisodeRules.
From Coq Require Import Arith ZifyBool Sorted Permutation.

(** ** vocabulary *)
Record ep_ok (s : str) (markers ms : list mt) : Prop := {
  eo_distinct : distinct ms;
  eo_nonempty : nonempty ms;
  eo_inside : inside s ms;
  eo_markers : forall p, In p markers -> m_end p <= List.length s
}.
Definition path_part (markers : list mt) (part : mt) : Prop := In part markers /\ m_name part = lit "path".
Definition touches (part m : mt) : Prop := m_start m < m_end part /\ m_start part < m_end m.
Definition tag (t : string) (m : mt) : Prop := In (lit t) (m_tags m).
Definition is_num (m : mt) : Prop := m_name m = lit "season" \/ m_name m = lit "episode".

Lemma parts_iff markers p : In p (parts_of markers) <-> path_part markers p.
Proof. apply named_In. Qed.
Lemma part_In s markers ms part p m : ep_ok s markers ms -> In part markers -> In m (in_part_of s ms part p) <-> In m ms /\ touches part m /\ p m = true.
Proof. intros W Hp. unfold in_part_of. rewrite range_In'; [unfold touches; tauto|apply W|apply (eo_markers _ _ _ W); exact Hp]. Qed.
Lemma has_name_false n m : has_name n m = false <-> m_name m <> n.
Proof. rewrite <- Bool.not_true_iff_false, has_name_iff. reflexivity. Qed.
Lemma has_tag_false t m : has_tag t m = false <-> ~ In t (m_tags m).
Proof. rewrite <- Bool.not_true_iff_false, has_tag_iff. reflexivity. Qed.
Lemma nonnil_ex {A} (l : list A) : nonnil l = true <-> exists x, In x l.
Proof. destruct l as [|x l]; cbn; [split; [discriminate|intros (x & [])]|split; [intros _; exists x; auto|reflexivity]]. Qed.
Lemma nonnil_no {A} (l : list A) : nonnil l = false <-> forall x, ~ In x l.
Proof. rewrite <- Bool.not_true_iff_false, nonnil_ex. split; [intros H x Hx; apply H; exists x; exact Hx|intros H (x & Hx); exact (H x Hx)]. Qed.
Lemma concat_parts (f : mt -> list mt) markers m : In m (List.concat (map f (parts_of markers))) <-> exists part, path_part markers part /\ In m (f part).
Proof.
  rewrite in_concat. split.
  - intros (l & Hl & Hm). apply in_map_iff in Hl as (part & <- & Hp). apply parts_iff in Hp. exists part. auto.
  - intros (part & Hp & Hm). exists (f part). split; [apply in_map_iff; exists part; split; [reflexivity|apply parts_iff; exact Hp]|exact Hm].
Qed.
(** removing matches that may not be there *)
Lemma remove_any l ms m : distinct ms -> In m (remove_all l ms) <-> In m ms /\ forall r, In r l -> mkey r <> mkey m.
Proof.
  intros D. rewrite remove_all_filter by exact D. rewrite filter_In, Bool.negb_true_iff, mmem_false. split; intros [A B]; (split; [exact A|]); intros r Hr E; exact (B r Hr ltac:(congruence)).
Qed.
Lemma remove_filter_In p n ms m : distinct ms -> In m (remove_all (filter p (named n ms)) ms) <-> In m ms /\ ~ (m_name m = n /\ p m = true).
Proof.
  intros D. rewrite remove_all_In; [|exact D|intros y Hy; apply filter_In in Hy as [Hy _]; apply named_In in Hy; tauto].
  rewrite filter_In, named_In. split; intros [A B]; (split; [exact A|]); tauto.
Qed.

(** a separator or an end of the text before and after *)
Definition surrounded (s : str) (m : mt) : Prop :=
  (forall i c, S i = m_start m -> nth_error s i = Some c -> is_sep c = true) /\ (forall c, nth_error s (m_end m) = Some c -> is_sep c = true).
Lemma surrounded_iff s m : chars_surround is_sep s m = true <-> surrounded s m.
Proof.
  unfold chars_surround, chars_before, chars_after, surrounded. rewrite Bool.andb_true_iff. split.
  - intros [A B]. split.
    + intros i c Ei E. rewrite <- Ei, E in A. exact A.
    + intros c E. rewrite E in B. exact B.
  - intros [A B]. split.
    + destruct (m_start m) as [|i]; [reflexivity|]. destruct (nth_error s i) as [c|] eqn:E; [|reflexivity]. apply (A i c); auto.
    + destruct (nth_error s (m_end m)) as [c|] eqn:E; [|reflexivity]. apply B; reflexivity.
Qed.

(** ** C63: weak numbers give way *)
(** to a public SxxExx match of the same part, but those of the weak pattern that start the part *)
Theorem C63_marked s ini markers ms m : ep_ok s markers ms ->
  In m (RemoveWeakIfSxxExx s ini markers ms) <-> In m ms /\
  ~ (tag "weak-episode" m /\ exists part x, path_part markers part /\ touches part m /\
       In x ms /\ touches part x /\ m_private x = false /\ tag "SxxExx" x /\ ~ (m_start m = m_start part /\ m_name (ini m) = lit "weak_episode")).
Proof.
  intros W. unfold RemoveWeakIfSxxExx.
  assert (K : forall y, In y (List.concat (map (sxxexx_part s ini ms) (parts_of markers))) <-> In y ms /\ tag "weak-episode" y /\ exists part x, path_part markers part /\ touches part y /\
       In x ms /\ touches part x /\ m_private x = false /\ tag "SxxExx" x /\ ~ (m_start y = m_start part /\ m_name (ini y) = lit "weak_episode")).
  { intros y. rewrite concat_parts. split.
    - intros (part & Hp & Hy). unfold sxxexx_part in Hy. destruct (nonnil (in_part_of s ms part (fun m => negb (m_private m) && sxxexx m))) eqn:E; [|destruct Hy].
      apply nonnil_ex in E as (x & Hx). apply (part_In s markers) in Hx as (X1 & X2 & X3); [|exact W|apply Hp]. apply filter_In in Hy as [Hy Hc].
      apply (part_In s markers) in Hy as (Y1 & Y2 & Y3); [|exact W|apply Hp]. split; [exact Y1|]. split; [apply has_tag_iff; exact Y3|]. exists part, x.
      apply Bool.andb_true_iff in X3 as [X3 X4]. repeat (split; [assumption|]). split; [destruct (m_private x); [discriminate|reflexivity]|]. split; [apply has_tag_iff; exact X4|].
      intros [A B]. rewrite A, Nat.eqb_refl in Hc. apply has_name_iff in B. rewrite B in Hc. discriminate.
    - intros (Y1 & Y2 & part & x & P1 & P2 & X1 & X2 & X3 & X4 & X5). exists part. split; [exact P1|]. unfold sxxexx_part.
      assert (E : nonnil (in_part_of s ms part (fun m => negb (m_private m) && sxxexx m)) = true).
      { apply nonnil_ex. exists x. apply (part_In s markers); [exact W|apply P1|]. split; [exact X1|]. split; [exact X2|]. rewrite X3. apply has_tag_iff. exact X4. }
      rewrite E. apply filter_In. split; [apply (part_In s markers); [exact W|apply P1|]; split; [exact Y1|]; split; [exact P2|apply has_tag_iff; exact Y2]|].
      destruct (Nat.eqb_spec (m_start y) (m_start part)) as [A|A]; [|reflexivity]. destruct (has_name (lit "weak_episode") (ini y)) eqn:B; [|reflexivity]. apply has_name_iff in B. destruct X5. auto. }
  rewrite remove_all_In; [|apply W|intros y Hy; apply K in Hy; tauto]. rewrite K. tauto.
Qed.

(** ** C64: what follows or surrounds *)
(** a detail is kept if separators surround it or a season or an episode is next to it *)
Theorem C64_detail s ms m : distinct ms -> nonempty ms ->
  In m (EpisodeDetailValidator s ms) <-> In m ms /\
  (m_name m = lit "episode_details" -> surrounded s m \/ (exists p, just_before ms m p /\ is_num p) \/ (exists p, just_after ms m p /\ is_num p)).
Proof.
  intros D NE. unfold EpisodeDetailValidator. rewrite remove_filter_In by exact D.
  assert (Wf : forall y, In y ms -> m_start y <= m_end y) by (intros y Hy; specialize (NE y Hy); lia).
  assert (SE : forall p, season_or_episode p = true <-> is_num p).
  { intros p. unfold season_or_episode, is_num. rewrite smem_In. cbn [In]. split; intros H; [destruct H as [H|[H|[]]]; auto|destruct H as [H|H]; auto]. }
  assert (P : nonnil (previous m ms season_or_episode) = true <-> exists p, just_before ms m p /\ is_num p).
  { rewrite nonnil_ex. split; intros (p & H); exists p; [apply previous_In in H as (A & B & C & E)|apply previous_In; destruct H as [(B & C & E) A]]; rewrite ?SE in *; auto. split; [split; auto|exact A]. }
  assert (N : nonnil (next m ms season_or_episode) = true <-> exists p, just_after ms m p /\ is_num p).
  { rewrite nonnil_ex. split; intros (p & H); exists p; [apply next_In in H as (A & B & C & E); [|exact Wf]|apply next_In; [exact Wf|]; destruct H as [(B & C & E) A]]; rewrite ?SE in *; auto. split; [split; auto|exact A]. }
  rewrite !Bool.andb_true_iff, !Bool.negb_true_iff. rewrite <- P, <- N, <- surrounded_iff.
  destruct (chars_surround is_sep s m), (nonnil (previous m ms season_or_episode)), (nonnil (next m ms season_or_episode)); split; intros [A B]; (split; [exact A|]);
    try (intros; auto; fail); try (intros [C1 C2]; intuition discriminate).
  all: try (intros C; exfalso; apply B; auto; fail).
Qed.
(** a version is kept if an episode is just before or separators surround its pattern *)
Theorem C64_version s ini ms m : distinct ms -> nonempty ms ->
  In m (VersionValidator s ini ms) <-> In m ms /\
  (m_name m = lit "version" -> (exists p, just_before ms m p /\ m_name p = lit "episode") \/ surrounded s (ini m)).
Proof.
  intros D NE. unfold VersionValidator. rewrite remove_filter_In by exact D.
  assert (P : o_truthy (first (previous m ms (has_name (lit "episode")))) = true <-> exists p, just_before ms m p /\ m_name p = lit "episode").
  { split.
    - destruct (first (previous m ms (has_name (lit "episode")))) as [p|] eqn:E; [|discriminate]. intros _. apply hd_error_In in E. apply previous_In in E as (A & B & C & F). apply has_name_iff in A.
      exists p. split; [split; auto|exact A].
    - intros (p & (B & C & F) & A). assert (H : In p (previous m ms (has_name (lit "episode")))) by (apply previous_In; apply has_name_iff in A; auto).
      destruct (previous m ms (has_name (lit "episode"))) as [|q l] eqn:E; [destruct H|]. cbn [first hd_error o_truthy]. unfold m_truthy. apply Nat.ltb_lt. apply NE.
      assert (Hq : In q (previous m ms (has_name (lit "episode")))) by (rewrite E; left; reflexivity). apply previous_In in Hq. tauto. }
  rewrite !Bool.andb_true_iff, !Bool.negb_true_iff. rewrite <- P, <- surrounded_iff.
  destruct (o_truthy (first (previous m ms (has_name (lit "episode"))))), (chars_surround is_sep s (ini m)); split; intros [A B]; (split; [exact A|]);
    try (intros; auto; fail); try (intros [C1 C2]; intuition discriminate).
  all: try (intros C; exfalso; apply B; auto; fail).
Qed.
(** an episode of one character in a group is kept only if the group holds a title *)
Theorem C64_digit s ini markers ms m : ep_ok s markers ms -> (forall g, In g markers -> m_start g < m_end g) ->
  (forall g h, In g markers -> In h markers -> m_name g = lit "group" -> m_name h = lit "group" ->
     g = h \/ m_end g <= m_start h \/ m_end h <= m_start g) ->
  In m ms -> m_start m + 1 = m_end m ->
  In m (EpisodeSingleDigitValidator s ini markers ms) <->
  ~ (m_name m = lit "episode" /\ m_end (ini m) - m_start (ini m) = 1 /\
     exists g, In g markers /\ m_name g = lit "group" /\ m_start g <= m_start m /\ m_end m <= m_end g /\ forall t, In t ms -> touches g t -> m_name t <> lit "title").
Proof.
  intros W Wm Wg M1 M2. unfold EpisodeSingleDigitValidator. rewrite remove_filter_In by apply W.
  assert (G : forall g, In g (filter (has_name (lit "group")) (at_match m markers)) -> In g markers /\ m_name g = lit "group" /\ m_start g <= m_start m /\ m_end m <= m_end g).
  { intros g Hg. apply filter_In in Hg as [Hg N]. apply has_name_iff in N. unfold at_match, at_span in Hg. apply merge_new_sub in Hg as [Hg|Hg].
    - unfold at_index in Hg. apply filter_In in Hg as [Hg C]. unfold covers in C. repeat split; auto; lia.
    - rewrite <- M2, Nat.add_1_r in Hg. unfold at_index in Hg. apply filter_In in Hg as [Hg C]. unfold covers in C. repeat split; auto; lia. }
  assert (X : forall g, In g markers -> m_name g = lit "group" -> m_start g <= m_start m -> m_end m <= m_end g -> first (filter (has_name (lit "group")) (at_match m markers)) = Some g).
  { intros g G1 G2 G3 G4. assert (K : exists x, In x (at_match m markers) /\ m_name x = lit "group") by (apply at_match_iff; exists g; split; [exact G1|]; split; [exact G2|]; lia).
    destruct K as (x & K1 & K2). assert (Hx : In x (filter (has_name (lit "group")) (at_match m markers))) by (apply filter_In; split; [exact K1|apply has_name_iff; exact K2]).
    destruct (filter (has_name (lit "group")) (at_match m markers)) as [|h l] eqn:E; [destruct Hx|]. cbn [first hd_error]. f_equal.
    destruct (G h (or_introl eq_refl)) as (H1 & H2 & H3 & H4). pose proof (Wm g G1). pose proof (Wm h H1). destruct (Wg h g H1 G1 H2 G2) as [->|[C|C]]; [reflexivity|lia|lia]. }
  assert (T : forall g, In g markers -> nonnil (range s ms (m_start g) (m_end g) (has_name (lit "title"))) = false <-> forall t, In t ms -> touches g t -> m_name t <> lit "title").
  { intros g Hg. rewrite nonnil_no. split.
    - intros H t T1 T2 T3. apply (H t). apply range_In'; [apply W|apply (eo_markers _ _ _ W); exact Hg|]. destruct T2. apply has_name_iff in T3. auto.
    - intros H t Ht. apply range_In' in Ht; [|apply W|apply (eo_markers _ _ _ W); exact Hg]. destruct Ht as (T1 & T2 & T3 & T4). apply has_name_iff in T4. apply (H t T1); [split; auto|exact T4]. }
  split.
  - intros [_ H] (N & L & g & G1 & G2 & G3 & G4 & G5). apply H. split; [exact N|]. rewrite L. cbn [Nat.eqb andb]. rewrite (X g G1 G2 G3 G4).
    apply Bool.andb_true_iff. split; [unfold m_truthy; apply Nat.ltb_lt; apply Wm; exact G1|]. apply Bool.negb_true_iff. apply T; assumption.
  - intros H. split; [exact M1|]. intros [N C]. apply H. split; [exact N|]. apply Bool.andb_true_iff in C as [C1 C2]. apply Nat.eqb_eq in C1. split; [exact C1|].
    destruct (first (filter (has_name (lit "group")) (at_match m markers))) as [g|] eqn:E; [|discriminate]. apply hd_error_In in E. destruct (G g E) as (G1 & G2 & G3 & G4).
    exists g. repeat (split; [assumption|]). apply T; [exact G1|]. apply Bool.andb_true_iff in C2 as [_ C2]. apply Bool.negb_true_iff in C2. exact C2.
Qed.

(** ** renaming *)
Lemma rename_In n l ms m : distinct ms -> distinct l -> (forall x, In x l -> In x ms) -> (forall x, In x l -> m_name x <> n) ->
  In m (rename_all n l ms) <-> (In m ms /\ ~ In m l) \/ exists c, In c l /\ m = set_name c n.
Proof.
  intros D Dl Hl Hn. rewrite rename_all_eq by assumption. rewrite in_app_iff, in_map_iff, <- (remove_all_In l ms m D Hl), remove_all_filter by exact D.
  split; (intros [H|H]; [left; exact H|right]).
  - destruct H as (c & <- & Hc). exists c. auto.
  - destruct H as (c & Hc & ->). exists c. auto.
Qed.
Lemma filter_sub_distinct p ms : distinct ms -> distinct (filter p ms).
Proof. apply distinct_filter. Qed.
Lemma set_name_key c d n : mkey (set_name c n) = mkey (set_name d n) -> m_name c = m_name d -> mkey c = mkey d.
Proof. unfold mkey, set_name. cbn. intros E N. injection E as -> -> -> ->. rewrite N. reflexivity. Qed.
Lemma rename_distinct n k l ms : distinct ms -> distinct l -> (forall x, In x l -> In x ms /\ m_name x = k) -> k <> n -> (forall x, In x ms -> m_name x <> n) ->
  distinct (rename_all n l ms).
Proof.
  intros D Dl Hl Hk Hn. rewrite rename_all_eq; [|exact D|exact Dl|intros x Hx; apply Hl; exact Hx|intros x Hx; destruct (Hl x Hx) as [_ E]; congruence].
  unfold distinct. rewrite map_app. apply NoDup_app_disj.
  - apply distinct_filter. exact D.
  - rewrite map_map. clear Hn. induction l as [|c l IH]; cbn [map]; [constructor|]. unfold distinct in Dl. cbn [map] in Dl. inversion Dl as [|? ? Hc Dl']; subst.
    constructor; [|apply IH; [exact Dl'|intros x Hx; apply Hl; right; exact Hx]]. intros H. apply in_map_iff in H as (d & E & Hd). apply Hc. apply in_map_iff. exists d. split; [|exact Hd].
    apply (set_name_key d c n); [exact E|]. rewrite (proj2 (Hl c (or_introl eq_refl))), (proj2 (Hl d (or_intror Hd))). reflexivity.
  - intros y Hy H. apply in_map_iff in Hy as (x & <- & Hx). apply in_map_iff in H as (z & E & Hz). apply in_map_iff in Hz as (c & <- & Hc). apply filter_In in Hx as [Hx _].
    apply (Hn x Hx). unfold mkey, set_name in E. cbn in E. injection E. intros. congruence.
Qed.

(** ** C65: a count is named after what it counts *)
Definition counts (ms : list mt) (c : mt) (n : str) : Prop := exists p, just_before ms c p /\ m_name p = n.
Theorem C65_count ms m : distinct ms -> nonempty ms ->
  (forall x, In x ms -> m_name x <> lit "episode_count" /\ m_name x <> lit "season_count") ->
  (forall p q, In p ms -> In q ms -> is_num p -> is_num q -> m_end p = m_end q -> m_name p = m_name q) ->
  In m (CountValidator ms) <->
  (In m ms /\ m_name m <> lit "count") \/
  (exists c n, In c ms /\ m_name c = lit "count" /\ (n = lit "episode" \/ n = lit "season") /\ counts ms c n /\ m = set_name c (n ++ lit "_count")).
Proof.
  intros D NE Hn U. unfold CountValidator.
  assert (C : forall c, match counted ms c with
    | Some x => exists n, (n = lit "episode" \/ n = lit "season") /\ x = n ++ lit "_count" /\ forall n', (n' = lit "episode" \/ n' = lit "season") -> counts ms c n' <-> n' = n
    | None => forall n', (n' = lit "episode" \/ n' = lit "season") -> ~ counts ms c n' end).
  { intros c. unfold counted. set (pr := fun m => smem (m_name m) [lit "episode"; lit "season"]).
    assert (Pr : forall p, pr p = true <-> m_name p = lit "episode" \/ m_name p = lit "season").
    { intros p. unfold pr. rewrite smem_In. cbn [In]. split; [intros [H|[H|[]]]; auto|intros [H|H]; auto]. }
    destruct (first (previous c ms pr)) as [p|] eqn:E.
    - apply hd_error_In in E. apply previous_In in E as (A & B & F & G). assert (m_truthy p = true) as -> by (unfold m_truthy; apply Nat.ltb_lt; apply NE; exact B).
      apply Pr in A. exists (m_name p). split; [exact A|]. split; [reflexivity|]. intros n' Hn'. split.
      + intros (q & (Q1 & Q2 & Q3) & <-). apply U; auto; unfold is_num; [tauto|tauto|]. specialize (Q3 p B F). specialize (G q Q1 Q2). lia.
      + intros ->. exists p. split; [split; auto|reflexivity].
    - intros n' Hn' (q & (Q1 & Q2 & Q3) & Q4). assert (H : In q (previous c ms pr)) by (apply previous_In; split; [apply Pr; rewrite Q4; exact Hn'|auto]).
      destruct (previous c ms pr); [destruct H|discriminate]. }
  assert (NC : lit "episode_count" <> lit "season_count") by discriminate.
  assert (CA : forall c o, In c (counts_as ms o) <-> In c ms /\ m_name c = lit "count" /\ counted ms c = o).
  { intros c o. unfold counts_as. rewrite filter_In, named_In. destruct (counted ms c) as [a|], o as [b|]; try (split; [intros [_ H]; discriminate|intros (_ & _ & H); discriminate]).
    - rewrite str_eqb_eq. split; [intros [[A B] ->]; auto|intros (A & B & E); injection E as ->; auto].
    - tauto. }
  set (none := counts_as ms None). set (ec := counts_as ms (Some (lit "episode_count"))). set (sc := counts_as ms (Some (lit "season_count"))).
  assert (DC : forall o, distinct (counts_as ms o)) by (intros o; apply distinct_filter; apply distinct_filter; exact D).
  set (ms1 := remove_all none ms). assert (D1 : distinct ms1) by (unfold ms1; rewrite remove_all_filter by exact D; apply distinct_filter; exact D).
  assert (I1 : forall x, In x ms1 <-> In x ms /\ ~ In x none) by (intros x; apply remove_all_In; [exact D|]; intros y Hy; apply CA in Hy; tauto).
  assert (E1 : forall x, In x ec -> In x ms1 /\ m_name x = lit "count").
  { intros x Hx. apply CA in Hx as (A & B & E). split; [|exact B]. apply I1. split; [exact A|]. intros H. apply CA in H as (_ & _ & H). congruence. }
  assert (S1 : forall x, In x sc -> In x ms1 /\ m_name x = lit "count").
  { intros x Hx. apply CA in Hx as (A & B & E). split; [|exact B]. apply I1. split; [exact A|]. intros H. apply CA in H as (_ & _ & H). congruence. }
  set (ms2 := rename_all (lit "episode_count") ec ms1).
  assert (D2 : distinct ms2).
  { apply (rename_distinct (lit "episode_count") (lit "count")); [exact D1|apply DC|exact E1|discriminate|]. intros x Hx. apply I1 in Hx as [Hx _]. apply Hn. exact Hx. }
  assert (I2 : forall x, In x ms2 <-> (In x ms1 /\ ~ In x ec) \/ exists c, In c ec /\ x = set_name c (lit "episode_count")).
  { intros x. apply rename_In; [exact D1|apply DC|intros y Hy; apply E1; exact Hy|]. intros y Hy. destruct (E1 y Hy) as [_ ->]. discriminate. }
  assert (S2 : forall x, In x sc -> In x ms2).
  { intros x Hx. apply I2. left. split; [apply S1; exact Hx|]. intros H. apply CA in H as (_ & _ & H). apply CA in Hx as (_ & _ & Hx). rewrite H in Hx. discriminate. }
  rewrite rename_In; [|exact D2|apply DC|exact S2|intros y Hy; destruct (S1 y Hy) as [_ ->]; discriminate].
  rewrite I2. split.
  - intros [[[[A B]|(c & Hc & ->)] N2]|(c & Hc & ->)].
    + left. apply I1 in A as [A N1]. split; [exact A|]. intros N. specialize (C m). destruct (counted ms m) as [x|] eqn:E.
      * destruct C as (n & [->| ->] & -> & _); [apply B|apply N2]; apply CA; auto.
      * apply N1. apply CA. auto.
    + right. apply CA in Hc as (A & B & E). specialize (C c). rewrite E in C. destruct C as (n & Hn' & Ex & C). exists c, n. split; [exact A|]. split; [exact B|]. split; [exact Hn'|].
      split; [apply C; auto|]. rewrite Ex. reflexivity.
    + right. apply CA in Hc as (A & B & E). specialize (C c). rewrite E in C. destruct C as (n & Hn' & Ex & C). exists c, n. split; [exact A|]. split; [exact B|]. split; [exact Hn'|].
      split; [apply C; auto|]. rewrite Ex. reflexivity.
  - intros [[A N]|(c & n & A & B & Hn' & Hc & ->)].
    + left. assert (NA : forall o, ~ In m (counts_as ms o)) by (intros o H; apply CA in H as (_ & H & _); contradiction).
      split; [|apply NA]. left. split; [apply I1; split; [exact A|apply NA]|apply NA].
    + specialize (C c). destruct (counted ms c) as [x|] eqn:E; [|destruct (C n Hn' Hc)]. destruct C as (n0 & Hn0 & -> & C). apply C in Hc; [|exact Hn']. subst n0.
      destruct Hn' as [->| ->].
      * left. split; [right; exists c; split; [apply CA; auto|reflexivity]|]. intros H. apply CA in H as (_ & H & _). discriminate.
      * right. exists c. split; [apply CA; auto|reflexivity].
Qed.

(** ** cases that meet the hypotheses *)
Ltac each_in := repeat match goal with H : In _ (_ :: _) |- _ => destruct H as [<-|H] | H : In _ [] |- _ => destruct H end.
Ltac ep_ok_t := constructor;
  [repeat constructor; cbn; intuition discriminate|intros ? ?; each_in; cbn; lia|intros ? ?; each_in; cbn; lia|intros ? ?; each_in; cbn; lia].
(** 12.Show.S01E02 and Show.12.S01E02: the 12 is weak; it stays when it starts the part *)
Definition text63 : str := lit "12.Show.S01E02".
Definition weak63 : mt := simple 0 2 (lit "episode") (MvInt 12) [lit "weak-episode"].
Definition strong63 : mt := simple 12 14 (lit "episode") (MvInt 2) [lit "SxxExx"].
Definition part63 : mt := simple 0 14 (lit "path") (MvStr []) [].
Example C63_ex_ok : ep_ok text63 [part63] [weak63; strong63].
Proof. ep_ok_t. Qed.
Example C63_ex_kept : RemoveWeakIfSxxExx text63 (fun m => simple 0 2 (lit "weak_episode") (MvStr []) []) [part63] [weak63; strong63] = [weak63; strong63].
Proof. vm_compute. reflexivity. Qed.
Example C63_ex_gone : RemoveWeakIfSxxExx text63 (fun m => simple 0 2 (lit "weak_duplicate") (MvStr []) []) [part63] [weak63; strong63] = [strong63].
Proof. vm_compute. reflexivity. Qed.
Example C63_ex_later : RemoveWeakIfSxxExx (lit "Show.12.S01E02") (fun m => simple 5 7 (lit "weak_episode") (MvStr []) []) [part63] [set_tags (simple 5 7 (lit "episode") (MvInt 12) []) [lit "weak-episode"]; strong63] = [strong63].
Proof. vm_compute. reflexivity. Qed.
(** Show.S01E02Special, xSpecialx *)
Example C64_ex_detail : let d := simple 11 18 (lit "episode_details") (MvStr (lit "Special")) [] in
  EpisodeDetailValidator (lit "Show.S01E02Specialx") [simple 9 11 (lit "episode") (MvInt 2) []; d] = [simple 9 11 (lit "episode") (MvInt 2) []; d] /\
  EpisodeDetailValidator (lit "Show.S01xxxSpecialx") [d] = [].
Proof. split; vm_compute; reflexivity. Qed.
Example C64_ex_version : let v := simple 4 5 (lit "version") (MvInt 2) [] in let i := fun _ : mt => simple 3 5 (lit "v") (MvStr []) [] in
  VersionValidator (lit "E01v2x") i [simple 1 3 (lit "episode") (MvInt 1) []; v] = [simple 1 3 (lit "episode") (MvInt 1) []; v] /\
  VersionValidator (lit "abcv2x") i [v] = [] /\ VersionValidator (lit "ab.v2.") i [v] = [v].
Proof. repeat split; vm_compute; reflexivity. Qed.
(** Show [3] and [3 Show] *)
Definition group64 (a b : nat) : mt := simple a b (lit "group") (MvStr []) [].
Definition ep64 (a : nat) : mt := simple a (a + 1) (lit "episode") (MvInt 3) [].
Example C64_ex_digit : EpisodeSingleDigitValidator (lit "Show [3]") (fun m => m) [group64 5 8] [simple 0 4 (lit "title") (MvStr (lit "Show")) []; ep64 6] = [simple 0 4 (lit "title") (MvStr (lit "Show")) []] /\
  EpisodeSingleDigitValidator (lit "[3 Show]") (fun m => m) [group64 0 8] [ep64 1; simple 3 7 (lit "title") (MvStr (lit "Show")) []] = [ep64 1; simple 3 7 (lit "title") (MvStr (lit "Show")) []] /\
  ep_ok (lit "Show [3]") [group64 5 8] [simple 0 4 (lit "title") (MvStr (lit "Show")) []; ep64 6].
Proof. split; [vm_compute; reflexivity|]. split; [vm_compute; reflexivity|]. ep_ok_t. Qed.
(** E01of12: the count comes after an episode; alone it is dropped *)
Definition count65 : mt := simple 5 7 (lit "count") (MvInt 12) [].
Example C65_ex : CountValidator [simple 1 3 (lit "episode") (MvInt 1) []; count65] = [simple 1 3 (lit "episode") (MvInt 1) []; set_name count65 (lit "episode_count")] /\
  CountValidator [simple 1 3 (lit "season") (MvInt 1) []; count65] = [simple 1 3 (lit "season") (MvInt 1) []; set_name count65 (lit "season_count")] /\
  CountValidator [simple 1 3 (lit "title") (MvInt 1) []; count65] = [simple 1 3 (lit "title") (MvInt 1) []].
Proof. repeat split; vm_compute; reflexivity. Qed.

Print Assumptions C63_marked.
Print Assumptions C64_detail.
Print Assumptions C64_version.
Print Assumptions C64_digit.
Print Assumptions C65_count.
