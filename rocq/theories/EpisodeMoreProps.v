(** Discs, invalid seasons and episodes: specification and proofs (C67, C68) *)
From Verif Require Import Py PyFacts Text TextFacts Sort Formatters Common Rebulk RebulkFacts RuleSpec Title TitleProofs TitleProps TitleMore EpisodeTitle EpisodeTitleProps HolesMore TitleConflictProps Episodes EpisodesProofs EpisodesProps EpisodeRules EpisodeRulesProps EpisodeWeakProps.
From Coq Require Import Arith ZifyBool Sorted Permutation.

(** ** renaming matches that may be listed twice, or not be there *)
Lemma removed_spec : forall l ms, distinct ms ->
  distinct (removed l ms) /\ (forall x, In x (removed l ms) -> In x l /\ exists y, In y ms /\ mkey y = mkey x) /\
  (forall x y, In x l -> In y ms -> mkey y = mkey x -> exists z, In z (removed l ms) /\ mkey z = mkey x).
Proof.
  induction l as [|a l IH]; intros ms D; cbn [removed]; [split; [constructor|]; split; [intros x []|intros x y []]|].
  destruct (mmem a ms) eqn:E.
  - rewrite remove1_filter by exact D. set (ms' := filter _ ms). assert (D' : distinct ms') by (apply distinct_filter; exact D). destruct (IH ms' D') as (A & B & C).
    assert (M : forall y, In y ms' <-> In y ms /\ mkey y <> mkey a).
    { intros y. unfold ms'. rewrite filter_In, Bool.negb_true_iff, <- Bool.not_true_iff_false, mt_eqb_eq. split; intros [H1 H2]; (split; [exact H1|congruence]). }
    split; [|split].
    + unfold distinct. cbn [map]. apply NoDup_cons_iff. split; [|exact A]. intros H. apply in_map_iff in H as (x & Ex & Hx). destruct (B x Hx) as [_ (y & Hy & Ey)]. apply M in Hy as [_ Hy]. congruence.
    + intros x [<-|Hx]; [split; [left; reflexivity|]; apply mmem_iff in E as (y & H1 & H2); exists y; auto|]. destruct (B x Hx) as [H1 (y & H2 & H3)]. split; [right; exact H1|]. exists y. split; [apply M in H2; tauto|exact H3].
    + intros x y [<-|Hx] Hy Ey; [exists a; split; [left; reflexivity|reflexivity]|]. destruct (mkey_eq_dec (mkey x) (mkey a)) as [Ea|Ea]; [exists a; split; [left; reflexivity|congruence]|].
      destruct (C x y Hx) as (z & Z1 & Z2); [apply M; split; [exact Hy|congruence]|exact Ey|]. exists z. split; [right; exact Z1|exact Z2].
  - destruct (IH ms D) as (A & B & C). split; [exact A|]. split.
    + intros x Hx. destruct (B x Hx) as [H1 H2]. split; [right; exact H1|exact H2].
    + intros x y [<-|Hx] Hy Ey; [|exact (C x y Hx Hy Ey)]. exfalso. exact (proj1 (mmem_false a ms) E y Hy Ey).
Qed.
Definition agree (l ms : list mt) : Prop := forall x y, In x l -> In y ms -> mkey x = mkey y -> x = y.
Lemma removed_In l ms x : distinct ms -> agree l ms -> In x (removed l ms) <-> In x l /\ In x ms.
Proof.
  intros D G. destruct (removed_spec l ms D) as (A & B & C). split.
  - intros H. destruct (B x H) as [H1 (y & H2 & H3)]. split; [exact H1|]. rewrite (G x y H1 H2 (eq_sym H3)). exact H2.
  - intros [H1 H2]. destruct (C x x H1 H2 eq_refl) as (z & Z1 & Z2). destruct (B z Z1) as [Z3 (y & Z4 & Z5)]. assert (z = y) by (apply G; auto). subst y. assert (z = x) by (apply (distinct_inj ms); auto). subst z. exact Z1.
Qed.
Lemma rename_any n l ms m : distinct ms -> agree l ms -> (forall x, In x l -> m_name x <> n) ->
  In m (rename_all n l ms) <-> (In m ms /\ ~ In m l) \/ exists c, In c l /\ In c ms /\ m = set_name c n.
Proof.
  intros D G Hn. destruct (removed_spec l ms D) as (A & B & C).
  assert (E : rename_all n l ms = rename_all n (removed l ms) ms).
  { unfold rename_all. rewrite (removed_all (removed l ms) ms D A) by (intros x Hx; apply removed_In in Hx; tauto). f_equal. rewrite !remove_all_filter by exact D. apply filter_ext_In. intros x Hx. f_equal.
    apply Bool.eq_true_iff_eq. rewrite !mmem_iff. split.
    - intros (y & Y1 & Y2). destruct (C y x Y1 Hx (eq_sym Y2)) as (z & Z1 & Z2). exists z. split; [exact Z1|congruence].
    - intros (y & Y1 & Y2). destruct (B y Y1) as [H _]. exists y. auto. }
  rewrite E, rename_In; [|exact D|exact A|intros x Hx; apply removed_In in Hx; tauto|intros x Hx; apply Hn; apply removed_In in Hx; tauto].
  split.
  - intros [[H1 H2]|(c & Hc & ->)]; [left|right; exists c; apply removed_In in Hc; tauto]. split; [exact H1|]. intros H. apply H2. apply removed_In; auto.
  - intros [[H1 H2]|(c & H1 & H2 & ->)]; [left|right; exists c; split; [apply removed_In; auto|reflexivity]]. split; [exact H1|]. intros H. apply removed_In in H; tauto.
Qed.

(** ** C67: discs *)
(** a marker whose text is the letter d *)
Definition disc_mark (ms : list mt) (d : mt) : Prop :=
  In d ms /\ m_name d = lit "episodeMarker" /\ (m_value d = MvStr (lit "d") \/ m_value d = MvStr (lit "D")).
Lemma lower_d t : lower t = lit "d" -> t = lit "d" \/ t = lit "D".
Proof.
  destruct t as [|c [|c' t]]; try discriminate. unfold lower. cbn [map]. intros H. injection H as H. unfold to_lower in H. destruct (is_upper c) eqn:E.
  - right. assert (c = 68%N) by lia. subst c. reflexivity.
  - left. subst c. reflexivity.
Qed.
Lemma disc_markers_iff ms d : In d (disc_markers ms) <-> disc_mark ms d.
Proof.
  unfold disc_markers, disc_mark, disc_marker, val_text. rewrite filter_In, named_In. split.
  - intros [[A B] H]. split; [exact A|]. split; [exact B|]. destruct (m_value d) as [z|t|q u|o|q]; try discriminate. apply str_eqb_eq in H. apply lower_d in H as [->| ->]; auto.
  - intros (A & B & [H|H]); (split; [split; assumption|]); rewrite H; reflexivity.
Qed.
(** the episodes of the pattern of such a marker *)
Definition disc_number (ini : mt -> mt) (kids : mt -> list mt) (ms : list mt) (e : mt) : Prop :=
  exists d, disc_mark ms d /\ In e (kids (ini d)) /\ m_name e = lit "episode".
(** the children of a pattern are the matches of the store *)
Definition kids_agree (kids : mt -> list mt) (ms : list mt) : Prop := forall i x y, In x (kids i) -> In y ms -> mkey x = mkey y -> x = y.
Theorem C67_disc context ini kids ms ms' m : distinct ms -> kids_agree kids ms ->
  (forall x, In x ms -> m_name x <> lit "disc" /\ m_name x <> lit "discMarker") ->
  is_disabled context (lit "disc") = Ok false -> RenameToDiscMatch context ini kids ms = Ok ms' ->
  In m ms' <-> (In m ms /\ ~ disc_mark ms m /\ ~ disc_number ini kids ms m) \/
    (exists e, In e ms /\ disc_number ini kids ms e /\ m = set_name e (lit "disc")) \/
    (exists d, disc_mark ms d /\ m = set_name d (lit "discMarker")).
Proof.
  intros D G Hn Hd. unfold RenameToDiscMatch. rewrite Hd. cbn [bind]. intros E. injection E as <-.
  set (discs := List.concat _). set (marks := disc_markers ms).
  assert (DI : forall e, In e discs <-> disc_number ini kids ms e).
  { intros e. unfold discs, disc_number. rewrite in_concat. split.
    - intros (l & Hl & He). apply in_map_iff in Hl as (d & <- & Hd'). apply disc_markers_iff in Hd'. exists d. split; [exact Hd'|]. apply named_In. eapply Permutation_in; [apply isort_perm|exact He].
    - intros (d & Hd' & He). exists (by_value (named (lit "episode") (kids (ini d)))). split; [apply in_map_iff; exists d; split; [reflexivity|apply disc_markers_iff; exact Hd']|]. eapply Permutation_in; [symmetry; apply isort_perm|]. apply named_In. exact He. }
  assert (A1 : agree discs ms) by (intros x y Hx Hy; apply DI in Hx as (d & _ & Hx & _); apply (G (ini d)); assumption).
  assert (N1 : forall x, In x discs -> m_name x <> lit "disc") by (intros x Hx; apply DI in Hx as (d & _ & _ & E); rewrite E; discriminate).
  set (ms1 := rename_all (lit "disc") discs ms).
  assert (I1 : forall x, In x ms1 <-> (In x ms /\ ~ In x discs) \/ exists c, In c discs /\ In c ms /\ x = set_name c (lit "disc")) by (intros x; apply rename_any; assumption).
  assert (MI : forall x, In x marks -> In x ms1).
  { intros x Hx. apply I1. left. apply disc_markers_iff in Hx. split; [apply Hx|]. intros H. apply DI in H as (d & _ & _ & H). destruct Hx as (_ & Hx & _). rewrite Hx in H. discriminate. }
  assert (D1 : distinct ms1).
  { destruct (removed_spec discs ms D) as (A & B & C).
    assert (E : ms1 = rename_all (lit "disc") (removed discs ms) ms).
    { unfold ms1, rename_all. rewrite (removed_all (removed discs ms) ms D A) by (intros x Hx; apply removed_In in Hx; tauto). f_equal. rewrite !remove_all_filter by exact D. apply filter_ext_In. intros x Hx. f_equal.
      apply Bool.eq_true_iff_eq. rewrite !mmem_iff. split.
      - intros (y & Y1 & Y2). destruct (C y x Y1 Hx (eq_sym Y2)) as (z & Z1 & Z2). exists z. split; [exact Z1|congruence].
      - intros (y & Y1 & Y2). destruct (B y Y1) as [H _]. exists y. auto. }
    rewrite E. apply (rename_distinct (lit "disc") (lit "episode")); [exact D|exact A| |discriminate|intros x Hx; apply Hn; exact Hx].
    intros x Hx. apply removed_In in Hx as [H1 H2]; [|exact D|exact A1]. split; [exact H2|]. apply DI in H1 as (d & _ & _ & H1). exact H1. }
  rewrite rename_any; [|exact D1|intros x y Hx Hy; apply MI in Hx; apply (distinct_inj ms1); assumption|intros x Hx; apply disc_markers_iff in Hx as (_ & -> & _); discriminate].
  rewrite I1. unfold marks. rewrite disc_markers_iff, DI. split.
  - intros [[[[A B]|(c & C1 & C2 & ->)] H]|(c & C1 & C2 & ->)].
    + left. auto.
    + right. left. exists c. apply DI in C1. auto.
    + right. right. exists c. apply disc_markers_iff in C1. auto.
  - intros [(A & B & C)|[(e & A & B & ->)|(d & A & ->)]].
    + left. split; [left; auto|exact B].
    + left. split; [right; exists e; split; [apply DI; exact B|auto]|]. intros (H & _). destruct (Hn _ H) as [H' _]. apply H'. reflexivity.
    + right. exists d. split; [apply disc_markers_iff; exact A|]. split; [|reflexivity]. apply MI. apply disc_markers_iff. exact A.
Qed.
(** when discs are not wanted the marker goes with all its pattern *)
Theorem C67_disabled context ini kids ms ms' m : distinct ms -> is_disabled context (lit "disc") = Ok true -> RenameToDiscMatch context ini kids ms = Ok ms' ->
  In m ms' <-> In m ms /\ forall d, disc_mark ms d -> m <> d /\ forall x, In x (kids (ini d)) -> mkey x <> mkey m.
Proof.
  intros D Hd. unfold RenameToDiscMatch. rewrite Hd. cbn [bind]. intros E. injection E as <-. rewrite remove_any by exact D. split; intros [A B]; (split; [exact A|]).
  - intros d Hm. assert (H : forall r, In r (d :: kids (ini d)) -> mkey r <> mkey m).
    { intros r Hr. apply B. apply in_concat. exists (d :: kids (ini d)). split; [|exact Hr]. apply in_map_iff. exists d. split; [reflexivity|apply disc_markers_iff; exact Hm]. }
    split; [intros ->; apply (H d); [left; reflexivity|reflexivity]|]. intros x Hx. apply H. right. exact Hx.
  - intros r Hr Er. apply in_concat in Hr as (l & Hl & Hr). apply in_map_iff in Hl as (d & <- & Hm). apply disc_markers_iff in Hm. destruct (B d Hm) as [B1 B2]. destruct Hr as [<-|Hr]; [|exact (B2 r Hr Er)].
    apply B1. symmetry. apply (distinct_inj ms); auto. apply Hm.
Qed.

(** ** C68: a season or an episode after a marked one *)
Definition with_episode (ini : mt -> mt) (kids : mt -> list mt) (m : mt) : Prop := exists e, In e (kids (ini m)) /\ m_name e = lit "episode".
Lemma with_episode_iff ini kids m : nonnil (named (lit "episode") (kids (ini m))) = true <-> with_episode ini kids m.
Proof. rewrite nonnil_ex. split; intros (e & H); exists e; apply named_In; exact H. Qed.
Definition public_of (n : str) (m : mt) : Prop := m_name m = n /\ m_private m = false.
(** the first public SxxExx match of a name in a part *)
Definition strong (n : str) (ms : list mt) (part x : mt) : Prop := leftmost ms (m_start part) (m_end part) (fun m => public_of n m /\ tag "SxxExx" m) x.
(** a public match of the name that ends after it, in the part *)
Definition later (n : str) (ms : list mt) (part st x : mt) : Prop := In x ms /\ public_of n x /\ m_start x < m_end part /\ m_end st < m_end x.
Definition one_number (n : str) (ms : list mt) : Prop := forall x y, In x ms -> In y ms -> public_of n x -> public_of n y -> m_start x = m_start y -> m_end x = m_end y -> x = y.
Lemma strong_iff s markers n ms part x : ep_ok s markers ms -> one_number n ms -> path_part markers part ->
  first (in_part_of s ms part (fun m => has_name n m && negb (m_private m) && sxxexx m)) = Some x <-> strong n ms part x.
Proof.
  intros W O HP. assert (B : m_end part <= List.length s) by (apply (eo_markers _ _ _ W); apply HP).
  assert (P : forall m, has_name n m && negb (m_private m) && sxxexx m = true <-> public_of n m /\ tag "SxxExx" m).
  { intros m. rewrite !Bool.andb_true_iff, Bool.negb_true_iff, has_name_iff. unfold sxxexx, public_of, tag. rewrite has_tag_iff. tauto. }
  pose proof (leftmost_range s ms (m_start part) (m_end part) _ _ (eo_inside _ _ _ W) B P) as L. fold (in_part_of s ms part (fun m => has_name n m && negb (m_private m) && sxxexx m)) in L.
  destruct (first (in_part_of s ms part _)) as [y|].
  - split; [intros E; injection E as <-; exact L|]. intros H. f_equal. destruct (leftmost_span _ _ _ _ _ _ L H) as [E1 E2]. destruct L as [(L1 & _ & _ & L2 & _) _], H as [(H1 & _ & _ & H2 & _) _]. apply O; auto.
  - split; [discriminate|]. intros [(A1 & A2 & A3 & A4) _]. destruct (L x A1 A2 A3 A4).
Qed.
Lemma later_iff s markers n ms part st x : ep_ok s markers ms -> path_part markers part ->
  In x (range s ms (m_end st) (m_end part) (fun m => has_name n m && negb (m_private m))) <-> later n ms part st x.
Proof.
  intros W HP. rewrite range_In'; [|apply W|apply (eo_markers _ _ _ W); apply HP]. rewrite Bool.andb_true_iff, Bool.negb_true_iff, has_name_iff. unfold later, public_of. tauto.
Qed.
(** seasons after the first marked one that has an episode go, with their patterns, when they are not marked or have no episode *)
Theorem C68_season s ini kids markers ms m : ep_ok s markers ms -> one_number (lit "season") ms -> (forall x, In x ms -> m_start (ini x) < m_end (ini x)) ->
  In m (RemoveInvalidSeason s ini kids markers ms) <-> In m ms /\
  ~ exists part st x, path_part markers part /\ strong (lit "season") ms part st /\ with_episode ini kids st /\ later (lit "season") ms part st x /\
      (~ tag "SxxExx" x \/ ~ with_episode ini kids x) /\ (mkey (ini x) = mkey m \/ exists r, In r (kids (ini x)) /\ mkey r = mkey m).
Proof.
  intros W O Hi. unfold RemoveInvalidSeason. rewrite remove_any by apply W. split; intros [A B]; (split; [exact A|]).
  - intros (part & st & x & HP & S & E & L & Q & K).
    assert (H : forall r, In r (ini x :: kids (ini x)) -> mkey r <> mkey m).
    { intros r Hr. apply B. apply concat_parts. exists part. split; [exact HP|]. unfold invalid_season_part. rewrite (proj2 (strong_iff s markers _ ms part st W O HP) S).
      assert (m_truthy st = true) as -> by (unfold m_truthy; apply Nat.ltb_lt; apply (eo_nonempty _ _ _ W); apply S). rewrite (proj2 (with_episode_iff ini kids st) E). cbn [andb].
      apply in_concat. exists (ini x :: kids (ini x)). split; [|exact Hr]. apply in_map_iff. exists x. split; [|apply (later_iff s markers); auto].
      assert (negb (sxxexx x) || negb (nonnil (named (lit "episode") (kids (ini x)))) = true) as ->.
      { apply Bool.orb_true_iff. rewrite !Bool.negb_true_iff. destruct Q as [Q|Q]; [left; apply has_tag_false; exact Q|right]. apply Bool.not_true_iff_false. rewrite with_episode_iff. exact Q. }
      assert (m_truthy (ini x) = true) as -> by (unfold m_truthy; apply Nat.ltb_lt; apply Hi; apply L). reflexivity. }
    destruct K as [K|(r & K1 & K2)]; [apply (H (ini x)); [left; reflexivity|exact K]|apply (H r); [right; exact K1|exact K2]].
  - intros r Hr Er. apply concat_parts in Hr as (part & HP & Hr). unfold invalid_season_part in Hr. destruct (first _) as [st|] eqn:S in Hr; [|destruct Hr]. apply (strong_iff s markers) in S; [|exact W|exact O|exact HP].
    destruct (m_truthy st && nonnil (named (lit "episode") (kids (ini st)))) eqn:E; [|destruct Hr]. apply Bool.andb_true_iff in E as [_ E]. apply with_episode_iff in E.
    apply in_concat in Hr as (l & Hl & Hr). apply in_map_iff in Hl as (x & <- & L). apply (later_iff s markers) in L; [|exact W|exact HP].
    destruct (negb (sxxexx x) || negb (nonnil (named (lit "episode") (kids (ini x))))) eqn:Q; [|destruct Hr].
    assert (T : m_truthy (ini x) = true) by (unfold m_truthy; apply Nat.ltb_lt; apply Hi; apply L). rewrite T in Hr.
    apply B. exists part, st, x. repeat (split; [assumption|]). split.
    + apply Bool.orb_true_iff in Q. rewrite !Bool.negb_true_iff in Q. destruct Q as [Q|Q]; [left; apply has_tag_false; exact Q|right]. rewrite <- with_episode_iff. rewrite Q. discriminate.
    + destruct Hr as [<-|Hr]; [left; exact Er|right; exists r; auto].
Qed.

(** the text, in lower case, of the marker or separator just before a number *)
Definition prefix_name (p : mt) : Prop := m_name p = lit "episodeMarker" \/ m_name p = lit "episodeSeparator".
Definition prefixed (ms : list mt) (x : mt) (t : str) : Prop := exists p u, just_before ms x p /\ prefix_name p /\ m_value p = MvStr u /\ t = lower u.
(** markers and separators are texts, the same if they end at the same place *)
Definition prefixes_ok (ms : list mt) : Prop :=
  (forall p, In p ms -> prefix_name p -> exists u, m_value p = MvStr u) /\
  (forall p q, In p ms -> In q ms -> prefix_name p -> prefix_name q -> m_end p = m_end q -> m_value p = m_value q).
Lemma prefix_iff s markers ms x : ep_ok s markers ms -> prefixes_ok ms ->
  match episode_prefix ms x with Some p => forall t, prefixed ms x t <-> t = prefix_text p | None => forall t, ~ prefixed ms x t end.
Proof.
  intros W [P1 P2]. unfold episode_prefix. set (pr := fun x => smem (m_name x) [lit "episodeMarker"; lit "episodeSeparator"]).
  assert (Pr : forall p, pr p = true <-> prefix_name p).
  { intros p. unfold pr, prefix_name. rewrite smem_In. cbn [In]. split; [intros [H|[H|[]]]; auto|intros [H|H]; auto]. }
  destruct (first (previous x ms pr)) as [p|] eqn:E.
  - apply hd_error_In in E. apply previous_In in E as (A & B & C & F). apply Pr in A. assert (m_truthy p = true) as -> by (unfold m_truthy; apply Nat.ltb_lt; apply (eo_nonempty _ _ _ W); exact B).
    destruct (P1 p B A) as (u & Eu). unfold prefix_text, val_text. rewrite Eu. intros t. split.
    + intros (q & v & (Q1 & Q2 & Q3) & Q4 & Q5 & ->). f_equal. assert (Eq : m_value q = m_value p) by (apply P2; auto; specialize (Q3 p B C); specialize (F q Q1 Q2); lia). congruence.
    + intros ->. exists p, u. split; [split; auto|]. auto.
  - intros t (q & v & (Q1 & Q2 & Q3) & Q4 & _). assert (H : In q (previous x ms pr)) by (apply previous_In; split; [apply Pr; exact Q4|auto]). destruct (previous x ms pr); [destruct H|discriminate].
Qed.
(** episodes after the first marked one go, with their patterns, when both have a prefix and the prefixes differ *)
Theorem C68_episode s ini kids markers ms m : ep_ok s markers ms -> one_number (lit "episode") ms -> prefixes_ok ms -> (forall x, In x ms -> m_start (ini x) < m_end (ini x)) ->
  In m (RemoveInvalidEpisode s ini kids markers ms) <-> In m ms /\
  ~ exists part st x t u, path_part markers part /\ strong (lit "episode") ms part st /\ later (lit "episode") ms part st x /\ prefixed ms st t /\ prefixed ms x u /\ t <> u /\
      (mkey (ini x) = mkey m \/ exists r, In r (kids (ini x)) /\ mkey r = mkey m).
Proof.
  intros W O PO Hi. unfold RemoveInvalidEpisode. rewrite remove_any by apply W. split; intros [A B]; (split; [exact A|]).
  - intros (part & st & x & t & u & HP & S & L & T & U & N & K).
    assert (H : forall r, In r (ini x :: kids (ini x)) -> mkey r <> mkey m).
    { intros r Hr. apply B. apply concat_parts. exists part. split; [exact HP|]. unfold invalid_episode_part. rewrite (proj2 (strong_iff s markers _ ms part st W O HP) S).
      assert (m_truthy st = true) as -> by (unfold m_truthy; apply Nat.ltb_lt; apply (eo_nonempty _ _ _ W); apply S).
      apply in_concat. exists (ini x :: kids (ini x)). split; [|exact Hr]. apply in_map_iff. exists x. split; [|apply (later_iff s markers); auto].
      pose proof (prefix_iff s markers ms st W PO) as P1. destruct (episode_prefix ms st) as [a|]; [|destruct (P1 t T)]. apply P1 in T.
      pose proof (prefix_iff s markers ms x W PO) as P2. destruct (episode_prefix ms x) as [b|]; [|destruct (P2 u U)]. apply P2 in U.
      destruct (str_eqb (prefix_text a) (prefix_text b)) eqn:E; [apply str_eqb_eq in E; congruence|].
      assert (m_truthy (ini x) = true) as -> by (unfold m_truthy; apply Nat.ltb_lt; apply Hi; apply L). reflexivity. }
    destruct K as [K|(r & K1 & K2)]; [apply (H (ini x)); [left; reflexivity|exact K]|apply (H r); [right; exact K1|exact K2]].
  - intros r Hr Er. apply concat_parts in Hr as (part & HP & Hr). unfold invalid_episode_part in Hr. destruct (first _) as [st|] eqn:S in Hr; [|destruct Hr]. apply (strong_iff s markers) in S; [|exact W|exact O|exact HP].
    destruct (m_truthy st); [|destruct Hr].
    apply in_concat in Hr as (l & Hl & Hr). apply in_map_iff in Hl as (x & <- & L). apply (later_iff s markers) in L; [|exact W|exact HP].
    pose proof (prefix_iff s markers ms st W PO) as P1. destruct (episode_prefix ms st) as [a|]; [|destruct Hr].
    pose proof (prefix_iff s markers ms x W PO) as P2. destruct (episode_prefix ms x) as [b|]; [|destruct Hr].
    destruct (str_eqb (prefix_text a) (prefix_text b)) eqn:E; [destruct Hr|].
    assert (T : m_truthy (ini x) = true) by (unfold m_truthy; apply Nat.ltb_lt; apply Hi; apply L). rewrite T in Hr.
    apply B. exists part, st, x, (prefix_text a), (prefix_text b). split; [exact HP|]. split; [exact S|]. split; [exact L|]. split; [apply P1; reflexivity|]. split; [apply P2; reflexivity|].
    split; [intros H; rewrite H, str_eqb_refl in E; discriminate|]. destruct Hr as [<-|Hr]; [left; exact Er|right; exists r; auto].
Qed.

(** ** cases that meet the hypotheses *)
(** S01D02: the d says a disc *)
Definition m67 : mt := simple 3 4 (lit "episodeMarker") (MvStr (lit "D")) [].
Definition e67 : mt := simple 4 6 (lit "episode") (MvInt 2) [lit "SxxExx"].
Definition s67 : mt := simple 1 3 (lit "season") (MvInt 1) [lit "SxxExx"].
Definition i67 (m : mt) : mt := simple 0 6 (lit "SxxExx") (MvStr []) [].
Definition k67 (m : mt) : list mt := [s67; m67; e67].
Example C67_ex : RenameToDiscMatch [] i67 k67 [s67; m67; e67] = Ok [s67; set_name e67 (lit "disc"); set_name m67 (lit "discMarker")] /\
  RenameToDiscMatch [(KS (lit "excludes"), VList [VStr (lit "disc")])] i67 k67 [s67; m67; e67] = Ok [] /\
  is_disabled [] (lit "disc") = Ok false /\ is_disabled [(KS (lit "excludes"), VList [VStr (lit "disc")])] (lit "disc") = Ok true.
Proof. repeat split; vm_compute; reflexivity. Qed.
Example C67_ex_ok : distinct [s67; m67; e67] /\ kids_agree k67 [s67; m67; e67] /\ (forall x, In x [s67; m67; e67] -> m_name x <> lit "disc" /\ m_name x <> lit "discMarker").
Proof.
  split; [repeat constructor; cbn; intuition discriminate|]. split; [intros i x y Hx Hy E; unfold k67 in Hx; each_in; try reflexivity; discriminate|]. intros x Hx. each_in; split; discriminate.
Qed.
(** S01E02 Season 3: the second season goes *)
Definition x68 : mt := simple 14 15 (lit "season") (MvInt 3) [].
Definition s68 : mt := simple 1 3 (lit "season") (MvInt 1) [lit "SxxExx"].
Definition e68 : mt := simple 4 6 (lit "episode") (MvInt 2) [lit "SxxExx"].
Definition i68 (m : mt) : mt := if m_start m <? 6 then simple 0 6 (lit "a") (MvStr []) [] else simple 7 15 (lit "b") (MvStr []) [].
Definition k68 (m : mt) : list mt := if m_start m <? 6 then [s68; e68] else [x68].
Definition part68 (n : nat) : mt := simple 0 n (lit "path") (MvStr []) [].
Example C68_ex_season : RemoveInvalidSeason (lit "S01E02 Season 3") i68 k68 [part68 15] [s68; e68; x68] = [s68; e68] /\
  ep_ok (lit "S01E02 Season 3") [part68 15] [s68; e68; x68] /\ one_number (lit "season") [s68; e68; x68] /\ (forall x, In x [s68; e68; x68] -> m_start (i68 x) < m_end (i68 x)).
Proof.
  split; [vm_compute; reflexivity|]. split; [ep_ok_t|]. split; [intros x y Hx Hy _ _ E _; each_in; try reflexivity; discriminate|]. intros x Hx. each_in; vm_compute; lia.
Qed.
(** S01E02 x03: another prefix *)
Definition p68 : mt := simple 3 4 (lit "episodeMarker") (MvStr (lit "E")) [].
Definition q68 : mt := simple 7 8 (lit "episodeSeparator") (MvStr (lit "x")) [].
Definition f68 : mt := simple 8 10 (lit "episode") (MvInt 3) [].
Definition j68 (m : mt) : mt := if m_start m <? 6 then simple 0 6 (lit "a") (MvStr []) [] else simple 7 10 (lit "b") (MvStr []) [].
Definition l68 (m : mt) : list mt := if m_start m <? 6 then [s68; p68; e68] else [q68; f68].
Example C68_ex_episode : RemoveInvalidEpisode (lit "S01E02 x03") j68 l68 [part68 10] [s68; p68; e68; q68; f68] = [s68; p68; e68] /\
  ep_ok (lit "S01E02 x03") [part68 10] [s68; p68; e68; q68; f68] /\ prefixes_ok [s68; p68; e68; q68; f68].
Proof.
  split; [vm_compute; reflexivity|]. split; [ep_ok_t|]. split.
  - intros p Hp [N|N]; each_in; try discriminate; eexists; reflexivity.
  - intros p q Hp Hq _ _ E. each_in; try reflexivity; discriminate.
Qed.

Print Assumptions C67_disc.
Print Assumptions C67_disabled.
Print Assumptions C68_season.
Print Assumptions C68_episode.
