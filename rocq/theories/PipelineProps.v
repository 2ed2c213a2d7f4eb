(** Bounds (C82) and names (C83) of all the matches the rules can make. *)
From Verif Require Import Py PyFacts Text TextFacts Sort Formatters FormattersProofs FormattersProps Common Rebulk RebulkFacts RuleSpec Processors Language Other ScreenSize SmallRules Title TitleProofs HolesMore HolesCut EpisodeTitle Episodes EpisodesProofs EpisodeRules EpisodeRulesProps Technical ReleaseGroup SceneGroupProps WebsiteProps Equivalent EquivalentProps Pipeline.
From Coq Require Import Arith ZifyBool.

(** ** Specification *)
Definition one_of (l : list string) (n : str) : Prop := exists t, In t l /\ n = lit t.
(** a match is inside the input and not empty: only the type, the mimetype and private separators may have no length *)
Definition placed (s : str) (m : mt) : Prop :=
  m_start m <= m_end m /\ m_end m <= List.length s /\
  (m_start m < m_end m \/ one_of ["type"; "mimetype"]%string (m_name m) \/ (one_of ["episodeSeparator"; "seasonSeparator"]%string (m_name m) /\ m_private m = true)) /\
  forall c, In c (m_children m) -> c_start c < c_end c /\ c_end c <= List.length s.
(** the markers: a bracket group has a bracket at each end *)
Definition markers_ok (s : str) (markers : list mt) : Prop := forall g, In g markers ->
  m_start g < m_end g /\ m_end g <= List.length s /\ m_children g = [] /\ m_raw_start g = m_start g /\ m_raw_end g = m_end g /\ m_tags g = [] /\
  (m_name g = lit "group" -> sep_at s (m_start g) = true /\ sep_at s (m_end g - 1) = true).
(** a name a rule may give although the context does not say it is enabled *)
Definition unchecked (context : dict) (ms : list mt) (n : str) : Prop :=
  one_of ["episode_count"; "season_count"; "absolute_episode"; "year"; "season"; "episodeSeparator"; "seasonSeparator"; "discMarker"]%string n \/
  (one_of ["title"; "alternative_title"]%string n /\ on context (lit "episode_title")) \/
  (n = lit "episode_title" /\ on context (lit "title")) \/
  (n = lit "bonus_title" /\ on context (lit "bonus")) \/
  (n = lit "proper_count" /\ on context (lit "other")) \/
  (n = lit "episode" /\ exists m, In m ms /\ tag "weak-episode" m).
Definition allowed (context : dict) (ms : list mt) (n : str) : Prop := on context n \/ unchecked context ms n.

(** ** What a rule may do *)
Section Grow.
  Context (context : dict) (s : str) (markers ms : list mt).
  Definition derived (x : mt) : Prop := exists m, In m ms /\ m_start x <= m_start m /\ m_end m <= m_end x /\ (m_end x = m_end m \/ m_end x <= List.length s) /\
    m_children x = m_children m /\ (m_private m = true -> m_private x = true) /\ (tag "weak-episode" x -> tag "weak-episode" m) /\
    (m_name x = m_name m \/ (allowed context ms (m_name x) /\ m_start m < m_end m)).
  Definition fresh (x : mt) : Prop := placed s x /\ (allowed context ms (m_name x) \/ exists m, In m ms /\ m_name m = m_name x) /\ (tag "weak-episode" x -> exists m, In m ms /\ tag "weak-episode" m).
  Definition grows (ms' : list mt) : Prop := forall x, In x ms' -> derived x \/ fresh x.
  Lemma derived_self x : In x ms -> derived x.
  Proof. intros H. exists x. repeat split; auto. Qed.
  Lemma grows_sub l : (forall x, In x l -> In x ms) -> grows l.
  Proof. intros H x Hx. left. apply derived_self. auto. Qed.
  Lemma derived_name m n : In m ms -> allowed context ms n -> m_start m < m_end m -> derived (set_name m n).
  Proof. intros H A L. exists m. destruct m; cbn in *. repeat split; auto. Qed.
  Lemma derived_value m v : In m ms -> derived (set_value m v).
  Proof. intros H. exists m. destruct m; cbn in *. repeat split; auto. Qed.
End Grow.
Lemma remove1_sub m ms x : In x (remove1 m ms) -> In x ms.
Proof. induction ms as [|y r IH]; cbn [remove1]; [intros []|]. destruct (mt_eqb m y); [intros H; right; exact H|]. intros [->|H]; [left; reflexivity|right; auto]. Qed.
Lemma remove_sub l : forall ms x, In x (remove_all l ms) -> In x ms.
Proof. unfold remove_all. induction l as [|m l IH]; intros ms x H; [exact H|]. cbn [fold_left] in H. apply IH in H. eapply remove1_sub; exact H. Qed.
Lemma append_sub l : forall ms x, In x (append_all l ms) -> In x ms \/ In x l.
Proof. intros ms x H. destruct (append_all_app l ms) as (new & E & N). rewrite E in H. apply in_app_iff in H as [H|H]; auto. Qed.
Lemma change_sub c ms x : In x (apply_change c ms) -> In x ms \/ In x (snd c).
Proof. intros H. apply append_sub in H as [H|H]; [left; eapply remove_sub; exact H|right; exact H]. Qed.
Lemma removed_sub l : forall ms x, In x (removed l ms) -> In x l /\ mmem x ms = true.
Proof.
  induction l as [|m l IH]; intros ms x; cbn [removed]; [intros []|]. destruct (mmem m ms) eqn:E.
  - intros [->|H]; [split; [left; reflexivity|exact E]|]. apply IH in H as [H1 H2]. split; [right; exact H1|]. apply mmem_iff in H2 as (y & Hy & K). apply mmem_iff. exists y. split; [eapply remove1_sub; exact Hy|exact K].
  - intros H. apply IH in H as [H1 H2]. split; [right; exact H1|exact H2].
Qed.
Lemma rename_sub n l ms x : In x (rename_all n l ms) -> In x ms \/ exists m, In m l /\ mmem m ms = true /\ x = set_name m n.
Proof.
  unfold rename_all. assert (G : forall r acc, In x (fold_left (fun ms m => if mmem m ms then ms else ms ++ [set_name m n]) r acc) -> In x acc \/ exists m, In m r /\ x = set_name m n).
  { induction r as [|m r IH]; intros acc H; [left; exact H|]. cbn [fold_left] in H. apply IH in H as [H|(y & Hy & ->)]; [|right; exists y; split; [right; exact Hy|reflexivity]].
    destruct (mmem m acc); [left; exact H|]. apply in_app_iff in H as [H|[<-|[]]]; [left; exact H|right; exists m; split; [left; reflexivity|reflexivity]]. }
  intros H. apply G in H as [H|(m & Hm & ->)]; [left; eapply remove_sub; exact H|]. apply removed_sub in Hm as [H1 H2]. right. exists m. auto.
Qed.
Lemma joins_snd l : snd (joins l) = List.concat (map snd l).
Proof. rewrite joins_eq. reflexivity. Qed.
Lemma on_not_zero s m n : placed s m -> m_name m = lit n -> existsb (str_eqb (lit n)) [lit "type"; lit "mimetype"; lit "episodeSeparator"; lit "seasonSeparator"] = false -> m_start m < m_end m.
Proof.
  intros (A & B & [C|[C|[C _]]] & _) E X; [exact C| |]; exfalso; destruct C as (t & T & E2); rewrite E2 in E; rewrite <- E in X; cbn [existsb In] in *; destruct T as [<-|[<-|[]]]; cbn in X; discriminate.
Qed.
Section Rules.
  Context (context : dict) (s : str) (markers ms : list mt) (I : forall m, In m ms -> placed s m) (M : markers_ok s markers).
  Notation grows := (grows context s ms).
  Notation derived := (derived context s ms).
  Notation fresh := (fresh context s ms).
  Notation allowed := (allowed context ms).
  Lemma ins : inside s ms. Proof. intros m Hm. destruct (I m Hm) as (A & B & _). lia. Qed.
  Lemma unch (n : string) : In n ["episode_count"; "season_count"; "absolute_episode"; "year"; "season"; "episodeSeparator"; "seasonSeparator"; "discMarker"]%string -> allowed (lit n).
  Proof. intros H. right. left. exists n. auto. Qed.
  (** renaming matches of one property *)
  Lemma grows_rename n n0 l ms' : (forall x, In x ms' -> In x ms \/ exists m, In m l /\ x = set_name m n) -> (forall m, In m l -> In m ms /\ m_name m = lit n0) ->
    existsb (str_eqb (lit n0)) [lit "type"; lit "mimetype"; lit "episodeSeparator"; lit "seasonSeparator"] = false -> allowed n -> grows ms'.
  Proof.
    intros H L Z A x Hx. left. destruct (H x Hx) as [G|(m & Hm & ->)]; [apply derived_self; exact G|]. destruct (L m Hm) as [L1 L2]. apply derived_name; auto. eapply on_not_zero; eauto.
  Qed.
  Lemma derived_copy m x : In m ms -> m_start x = m_start m -> m_end x = m_end m -> m_name x = m_name m -> m_children x = m_children m -> (m_private m = true -> m_private x = true) ->
    (tag "weak-episode" x -> tag "weak-episode" m) -> derived x.
  Proof. intros H E1 E2 E3 E4 E5 E6. exists m. repeat split; auto; lia. Qed.
  Lemma derived_tags m t : In m ms -> (In (lit "weak-episode") t -> tag "weak-episode" m) -> derived (set_tags m t).
  Proof. intros H T. apply (derived_copy m); auto. Qed.

  (** *** episodes *)
  Lemma g_weak_conflict ini kids : grows (WeakConflictSolver context s ini kids markers ms).
  Proof.
    unfold WeakConflictSolver. destruct (type_is _ _); [apply grows_sub; auto|]. intros x Hx. left. apply change_sub in Hx as [Hx|Hx]; [apply derived_self; exact Hx|].
    unfold weak_conflict in Hx. revert x Hx. set (an := is_anime s markers ms).
    assert (G : forall parts st, (forall x, In x (snd st) -> derived x) -> forall x, In x (snd (fold_left (weak_conflict_part s ini kids an ms) parts st)) -> derived x); [|apply (G _ ([], [])); intros x []].
    induction parts as [|p parts IH]; intros st H; [exact H|]. cbn [fold_left]. apply IH. clear IH. intros x. unfold weak_conflict_part.
    assert (R : forall f y, In y (in_part_of s ms p f) -> In y ms) by (intros f y Hy; apply range_In in Hy; apply Hy).
    destruct an.
    - destruct (nonnil (in_part_of _ _ _ _)); [|apply H]. cbn [snd]. intros Hx. apply in_app_iff in Hx as [Hx|Hx]; [auto|]. apply in_map_iff in Hx as (y & <- & Hy). apply R in Hy. unfold add_tag. apply derived_tags; [exact Hy|].
      intros T. apply in_app_iff in T as [T|[T|[]]]; [exact T|discriminate].
    - destruct (nonnil (in_part_of s ms p (fun m => has_name (lit "weak_duplicate") (ini m)))); [|apply H].
      assert (G : forall st', (forall x, In x (snd st') -> derived x) -> In x (snd (if nonnil (snd st') then (fst st' ++ in_part_of s ms p (fun m => has_name (lit "weak_duplicate") (ini m)), snd st') else st')) -> derived x).
      { intros st' H'. destruct (nonnil (snd st')); cbn [snd]; apply H'. }
      apply G. destruct (negb _ && negb _); cbn [snd]; [apply H|]. intros y Hy. apply in_app_iff in Hy as [Hy|Hy]; [auto|]. apply in_map_iff in Hy as (z & <- & Hz). apply R in Hz. apply derived_tags; [exact Hz|intros []].
  Qed.
  Lemma copies_derived nx a b x : In nx ms -> In x (copies nx a b) -> derived x.
  Proof. intros H Hx. unfold copies in Hx. apply in_map_iff in Hx as (z & <- & _). apply derived_value. exact H. Qed.
  Lemma first_sub {A} (l : list A) x : first l = Some x -> In x l.
  Proof. destruct l; [discriminate|]. cbn. intros E. injection E as ->. left. reflexivity. Qed.
  Lemma next_sub m p x : In x (next m ms p) -> In x ms.
  Proof. intros H. apply next_In in H; [apply H|]. intros y Hy. apply ins; exact Hy. Qed.
  Lemma g_see seps : grows (SeePatternRange seps ms).
  Proof.
    intros x Hx. left. apply change_sub in Hx as [Hx|Hx]; [apply derived_self; exact Hx|]. rewrite joins_snd in Hx. apply in_concat in Hx as (l & Hl & Hx). rewrite map_map in Hl. apply in_map_iff in Hl as (sep & <- & _).
    unfold see_one in Hx. destruct (first (next sep ms _)) as [n1|]; [|destruct Hx]. destruct (m_truthy n1); [|destruct Hx].
    destruct (first (previous sep ms _)) as [p|]; [|destruct Hx]. destruct (first (next n1 ms _)) as [nx|] eqn:E; [|destruct Hx]. destruct (_ && _ && _); [|destruct Hx]. apply first_sub, next_sub in E. eapply copies_derived; eassumption.
  Qed.
  Lemma smem_false_nil l : ~ In [] l -> forall t, smem t l = true -> t <> [].
  Proof. intros H t T ->. apply smem_In in T. auto. Qed.
  Lemma g_range n ini seps can : (n = lit "episode" \/ n = lit "season") -> in_initiator ini ms -> ~ In [] seps -> grows (apply_change (separator_range s ini seps n can ms) ms).
  Proof.
    intros Hn HI NS x Hx. apply change_sub in Hx as [Hx|Hx]; [left; apply derived_self; exact Hx|]. unfold separator_range, join in Hx. cbn [snd] in Hx. apply in_app_iff in Hx as [Hx|Hx].
    - left. rewrite joins_snd in Hx. apply in_concat in Hx as (l & Hl & Hx). rewrite map_map in Hl. apply in_map_iff in Hl as (sep & <- & _). unfold sep_one in Hx.
      destruct (first (previous sep ms _)) as [p|]; [|destruct Hx]. destruct (first (next sep ms _)) as [nx|] eqn:E; [|destruct Hx]. destruct (_ && _ && _); [|destruct Hx]. apply first_sub, next_sub in E. cbn [snd] in Hx.
      apply in_app_iff in Hx as [Hx|[<-|[]]]; [eapply copies_derived; eassumption|apply derived_self; exact E].
    - rewrite joins_snd in Hx. apply in_concat in Hx as (l & Hl & Hx). apply in_map_iff in Hl as (c & <- & Hc).
      assert (G : exists p nx, In p ms /\ In nx ms /\ c = pair_one s ini seps n p nx).
      { assert (S0 : forall y, In y (by_start (named n ms)) -> In y ms). { intros y Hy. unfold by_start in Hy. apply (Permutation.Permutation_in _ (Permutation.Permutation_sym (isort_perm _ _))) in Hy || apply (Permutation.Permutation_in _ (isort_perm _ _)) in Hy. apply filter_In in Hy. apply Hy. }
        revert Hc S0. generalize (by_start (named n ms)). intros l0. assert (G : forall l prev, (forall q, prev = Some q -> In q ms) -> (forall y, In y l -> In y ms) -> In c (pairs s ini seps n can prev l) -> exists p nx, In p ms /\ In nx ms /\ c = pair_one s ini seps n p nx).
        { induction l as [|y l IH]; intros prev P L; cbn [pairs]; [intros []|]. destruct prev as [q|].
          - intros [<-|H]; [exists q, y; split; [apply P; reflexivity|]; split; [apply L; left; reflexivity|reflexivity]|]. apply (IH (Some y)); auto; [intros q' E; injection E as <-; apply L; left; reflexivity|intros z Hz; apply L; right; exact Hz].
          - assert (L' : forall z, In z l -> In z ms) by (intros z Hz; apply L; right; exact Hz). destruct (can y); intros H; [apply (IH (Some y)); auto; intros q' E; injection E as <-; apply L; left; reflexivity|apply (IH None); auto]. }
        intros Hc S0. apply (G l0 None); auto. discriminate. }
      destruct G as (p & nx & Hp & Hnx & ->). unfold pair_one in Hx. cbn [snd] in Hx. apply in_app_iff in Hx as [Hx|[<-|[]]]; [|left; apply derived_self; exact Hnx].
      destruct (joined_text s ini seps p nx) eqn:J; [|destruct Hx]. apply in_app_iff in Hx as [Hx|[<-|[]]]; [left; eapply copies_derived; eassumption|]. right.
      assert (T : text_from s ini p nx <> []).
      { unfold joined_text in J. apply orb_true_iff in J as [J|J]; apply (smem_false_nil _ NS) in J; [exact J|]. intros E. rewrite E in J. apply J. reflexivity. }
      unfold text_from in T. assert (m_end (ini p) < m_start (ini nx)) by (destruct (Nat.lt_ge_cases (m_end (ini p)) (m_start (ini nx))) as [L|L]; [exact L|exfalso; apply T; unfold slice; replace (m_start (ini nx) - m_end (ini p)) with 0 by lia; reflexivity]).
      destruct (HI p Hp), (HI nx Hnx), (I nx Hnx) as (X1 & X2 & _). unfold range_separator. split.
      + unfold placed; cbn [m_start m_end m_name m_private m_children]. split; [lia|]. split; [lia|]. split; [|intros c []]. right. right. split; [|reflexivity]. destruct Hn as [-> | ->]; [exists "episodeSeparator"%string|exists "seasonSeparator"%string]; split; cbn; auto.
      + split; [|intros []]. left. destruct Hn as [-> | ->]; [apply (unch "episodeSeparator")|apply (unch "seasonSeparator")]; cbn; auto 10.
  Qed.
  Lemma g_weak words : grows (RemoveWeak s words markers ms).
  Proof.
    intros x Hx. apply change_sub in Hx as [Hx|Hx]; [left; apply derived_self; exact Hx|]. rewrite joins_snd in Hx. apply in_concat in Hx as (l & Hl & Hx). rewrite map_map in Hl. apply in_map_iff in Hl as (part & <- & _).
    unfold remove_weak_part in Hx. destruct (in_part_of s ms part weak_ep) as [|w rest] eqn:E; [destruct Hx|]. assert (W : In w ms /\ weak_ep w = true) by (assert (In w (in_part_of s ms part weak_ep)) as H by (rewrite E; left; reflexivity); apply range_In in H; tauto).
    destruct (first (previous w ms _)) as [p|] eqn:F; [|destruct Hx]. apply first_sub in F. apply previous_In in F as (_ & Hp & Lp & _). destruct (m_truthy p && _) eqn:T; [|destruct Hx]. apply andb_true_iff in T as [T _]. unfold m_truthy in T. cbn [snd] in Hx.
    destruct (smem _ words); [|destruct Hx]. unfold worded in Hx. destruct (int_value (m_value w)) as [z|]; [|destruct Hx]. destruct Hx as [<-|[]]. right. destruct W as [W1 W2]. destruct (I p Hp) as (A1 & A2 & _), (I w W1) as (B1 & B2 & _ & B4). split; [|split; [|intros []]].
    - unfold placed; cbn [m_start m_end m_name m_private m_children]. split; [lia|]. split; [lia|]. split; [left; lia|exact B4].
    - cbn. left. right. do 5 right. split; [reflexivity|]. exists w. split; [exact W1|]. apply has_tag_iff. exact W2.
  Qed.
  Lemma g_absolute ini kids : own_initiator ini ms -> grows (RenameToAbsoluteEpisode s ini kids markers ms).
  Proof.
    intros O x Hx. left. unfold RenameToAbsoluteEpisode in Hx. apply remove_sub in Hx. apply rename_sub in Hx as [Hx|(m & Hm & _ & ->)]; [apply derived_self; exact Hx|].
    assert (A : allowed (lit "absolute_episode")) by (apply (unch "absolute_episode"); cbn; auto).
    assert (G : In m ms /\ (m_name m = lit "episode" \/ m_name (ini m) = lit "weak_episode")).
    { assert (P : forall l, In m (fst (joins (map (absolute_part s ini ms) l))) -> In m ms /\ (m_name m = lit "episode" \/ m_name (ini m) = lit "weak_episode")).
      { intros l H. rewrite joins_eq in H. cbn [fst] in H. apply in_concat in H as (k & Hk & H). rewrite map_map in Hk. apply in_map_iff in Hk as (part & <- & _). unfold absolute_part in H. destruct (nonnil _); [|destruct H]. destruct (nonnil _); [destruct H|]. cbn [fst] in H. apply filter_In in H as [H1 H2]. apply filter_In in H1 as [H1 _]. apply has_name_iff in H2. auto. }
      unfold absolute in Hm. destruct (isort _ (initiators ini kids ms)) as [|a [|b [|c r]]]; try (apply P in Hm; exact Hm).
      unfold absolute_groups in Hm. destruct (negb _); [|destruct Hm]. destruct (_ =? _); [|destruct Hm].
      assert (Q : forall i, In m (filter (fun m => mt_eqb (ini m) i) (named (lit "episode") ms)) -> In m ms /\ (m_name m = lit "episode" \/ m_name (ini m) = lit "weak_episode")).
      { intros i H. apply filter_In in H as [H _]. apply filter_In in H as [H1 H2]. apply has_name_iff in H2. auto. }
      destruct (filter (fun m => mt_eqb (ini m) a) _) eqn:E1; [destruct Hm|]. destruct (filter (fun m => mt_eqb (ini m) b) _) eqn:E2; [destruct Hm|].
      destruct (_ <? _)%Z; [apply (Q b); rewrite E2; exact Hm|]. destruct (_ <? _)%Z; [apply (Q a); rewrite E1; exact Hm|destruct Hm]. }
    destruct G as [G1 G2]. apply derived_name; auto. destruct G2 as [G2|G2]; [eapply (on_not_zero s m "episode"); [apply I; exact G1|exact G2|reflexivity]|].
    destruct (I m G1) as (L1 & L2 & [L|L] & _); [exact L|]. destruct (Nat.eq_dec (m_start m) (m_end m)) as [E|]; [|lia]. rewrite (O m G1 E) in G2. exfalso.
    destruct L as [(t & T & E2)|[(t & T & E2) _]]; rewrite E2 in G2; cbn in T; destruct T as [<-|[<-|[]]]; discriminate.
  Qed.
  Lemma g_count : grows (CountValidator ms).
  Proof.
    assert (C : forall o m, In m (counts_as ms o) -> In m ms /\ m_name m = lit "count") by (intros o m H; apply filter_In in H as [H _]; apply filter_In in H as [H1 H2]; apply has_name_iff in H2; auto).
    intros x Hx. left. unfold CountValidator in Hx. apply rename_sub in Hx as [Hx|(m & Hm & _ & ->)].
    - apply rename_sub in Hx as [Hx|(m & Hm & _ & ->)]; [apply derived_self; eapply remove_sub; exact Hx|]. apply C in Hm as [H1 H2]. apply derived_name; [exact H1|apply (unch "episode_count"); cbn; auto|eapply (on_not_zero s m "count"); [apply I; exact H1|exact H2|reflexivity]].
    - apply C in Hm as [H1 H2]. apply derived_name; [exact H1|apply (unch "season_count"); cbn; auto|eapply (on_not_zero s m "count"); [apply I; exact H1|exact H2|reflexivity]].
  Qed.
  Lemma g_disc ini kids ms' : same_objects kids ms -> RenameToDiscMatch context ini kids ms = Ok ms' -> grows ms'.
  Proof.
    intros SO. unfold RenameToDiscMatch. destruct (is_disabled context (lit "disc")) as [d|] eqn:D; [|discriminate]. cbn [bind]. intros E. injection E as <-. destruct d; [apply grows_sub; intros x; apply remove_sub|].
    intros x Hx. left. apply rename_sub in Hx as [Hx|(m & Hm & _ & ->)].
    - apply rename_sub in Hx as [Hx|(m & Hm & K & ->)]; [apply derived_self; exact Hx|]. apply in_concat in Hm as (l & Hl & Hm). apply in_map_iff in Hl as (d & <- & _). unfold by_value in Hm.
      assert (In m (named (lit "episode") (kids (ini d)))) as H by (apply (Permutation.Permutation_in _ (Permutation.Permutation_sym (isort_perm _ _))) in Hm || apply (Permutation.Permutation_in _ (isort_perm _ _)) in Hm; exact Hm). apply filter_In in H as [H1 H2]. apply has_name_iff in H2.
      apply mmem_iff in K as (y & Hy & K). assert (m = y) as -> by (apply (SO (ini d)); auto; apply mt_eqb_eq; auto). apply derived_name; [exact Hy|left; exact D|eapply (on_not_zero s y "episode"); [apply I; exact Hy|exact H2|reflexivity]].
    - apply filter_In in Hm as [Hm _]. apply filter_In in Hm as [H1 H2]. apply has_name_iff in H2. apply derived_name; [exact H1|apply (unch "discMarker"); cbn; auto 10|eapply (on_not_zero s m "episodeMarker"); [apply I; exact H1|exact H2|reflexivity]].
  Qed.
  (** *** source, screen size *)
  Lemma derived_upd x x' : derived x -> m_start x' = m_start x -> m_end x' = m_end x -> m_name x' = m_name x -> m_children x' = m_children x -> (m_private x = true -> m_private x' = true) -> m_tags x' = m_tags x -> derived x'.
  Proof.
    intros (m & H1 & H2 & H3 & H4 & H5 & H6 & H7 & H8) E1 E2 E3 E4 E5 E6. exists m. rewrite E1, E2, E3, E4. unfold tag in *. rewrite E6. repeat (split; [solve [auto]|]). exact H8.
  Qed.
  Lemma g_ultra : grows (UltraHdBluray s markers ms).
  Proof.
    set (Q := fun st : list mt * change => (forall x, In x (fst st) -> derived x) /\ (forall x, In x (snd (snd st)) -> derived x)).
    assert (S1 : forall part l st, (forall x, In x l -> derived x) -> Q st -> Q (fold_left (uhd_step s part) l st)).
    { intros part. induction l as [|m l IH]; intros st L H; [exact H|]. cbn [fold_left]. apply IH; [intros x Hx; apply L; right; exact Hx|]. destruct H as [H1 H2]. unfold uhd_step. destruct (uhd_other s (fst st) part m) as [[|] o]; [|split; auto]. split; cbn [fst snd].
      - destruct o as [o|]; [|exact H1]. intros x Hx. unfold make_private in Hx. apply in_map_iff in Hx as (y & <- & Hy). destruct (mt_eqb o y); [|auto]. apply (derived_upd y); auto; destruct y; reflexivity.
      - intros x Hx. apply in_app_iff in Hx as [Hx|[<-|[]]]; [auto|]. apply (derived_upd m); auto; [apply L; left; reflexivity|..]; destruct m; auto. }
    assert (S2 : forall parts st, Q st -> Q (fold_left (uhd_part s) parts st)).
    { induction parts as [|p parts IH]; intros st H; [exact H|]. cbn [fold_left]. apply IH. unfold uhd_part. apply S1; [|exact H]. intros x Hx. apply range_In in Hx as [Hx _]. apply (proj1 H). exact Hx. }
    unfold UltraHdBluray. destruct (S2 (parts_of markers) (ms, ([], []))) as [A B]; [split; cbn [fst snd]; [intros x; apply derived_self|intros x []]|].
    intros x Hx. left. apply change_sub in Hx as [Hx|Hx]; auto.
  Qed.
  Lemma mapM_In {A B} (f : A -> res B) l : forall r, mapM f l = Ok r -> forall y, In y r -> exists x, In x l /\ f x = Ok y.
  Proof.
    induction l as [|a l IH]; intros r H y Hy; cbn [mapM] in H; [injection H as <-; destruct Hy|]. destruct (f a) as [b|] eqn:E; [|discriminate]. cbn [bind] in H. destruct (mapM f l) as [bs|] eqn:E2; [|discriminate]. cbn [bind] in H. injection H as <-.
    destruct Hy as [<-|Hy]; [exists a; split; [left; reflexivity|exact E]|]. destruct (IH bs eq_refl y Hy) as (x & Hx & Ex). exists x. split; [right; exact Hx|exact Ex].
  Qed.
  Lemma simple_fresh a b n v tags : a < b -> b <= List.length s -> allowed n -> ~ In (lit "weak-episode") tags -> fresh (simple a b n v tags).
  Proof. intros H1 H2 A T. split; [|split; [left; exact A|intros X; contradiction]]. unfold placed, simple. cbn [m_start m_end m_name m_private m_children]. split; [lia|]. split; [lia|]. split; [left; lia|intros c []]. Qed.
  Lemma g_screen standard lo hi ms' : PostProcess context s standard lo hi ms = Ok ms' -> grows ms'.
  Proof.
    unfold PostProcess. destruct (mapM _ ms) as [l|] eqn:E; [|discriminate]. cbn [bind]. intros H. injection H as <-.
    assert (G : forall p, In p l -> derived (fst p) /\ forall x, In x (snd p) -> fresh x).
    { intros [y new] Hp. cbn [fst snd]. destruct (mapM_In _ _ _ E _ Hp) as (m & Hm & F). destruct (has_name (lit "screen_size") m) eqn:N; [|injection F as <- <-; split; [apply derived_self; exact Hm|intros x []]].
      apply has_name_iff in N. assert (L : m_start m < m_end m) by (eapply (on_not_zero s m "screen_size"); [apply I; exact Hm|exact N|reflexivity]). destruct (I m Hm) as (I1 & I2 & _ & I4).
      unfold post_one in F. destruct (frame_rates context s m) as [rates|] eqn:R; [|discriminate]. cbn [bind] in F.
      assert (FR : forall x, In x rates -> fresh x).
      { unfold frame_rates in R. destruct (is_disabled context (lit "frame_rate")) as [off|] eqn:D; [|discriminate]. cbn [bind] in R. destruct off; [injection R as <-; intros x []|]. intros x Hx. destruct (mapM_In _ _ _ R _ Hx) as (c & Hc & Fc). apply filter_In in Hc as [Hc Nc]. apply str_eqb_eq in Nc. destruct (I4 c Hc) as [C1 C2].
        unfold frame_rate_match in Fc. destruct (Quantity.fromstring _ _) as [q|]; [|discriminate]. cbn [bind] in Fc. injection Fc as <-. split; [|split].
        - unfold placed. cbn [m_start m_end m_name m_private m_children]. split; [lia|]. split; [lia|]. split; [left; lia|intros ? []].
        - left. left. cbn [m_name]. rewrite Nc. exact D.
        - intros T. exists m. split; [exact Hm|exact T]. }
      destruct (child_text s m (lit "height")) as [h|]; [|injection F as <- <-; split; [apply derived_self; exact Hm|exact FR]].
      destruct (child_text s m (lit "width")) as [w|]; [|injection F as <- <-; split; [apply derived_value; exact Hm|exact FR]].
      destruct (_ =? 0)%Z; [discriminate|]. destruct (is_disabled context (lit "aspect_ratio")) as [off|] eqn:D; [|discriminate]. cbn [bind] in F.
      assert (AR : forall x, In x (if off then rates else rates ++ [simple (m_start m) (m_end m) (lit "aspect_ratio") (MvFloat (round3 (Numeral.dec w) (Numeral.dec h))) []]) -> fresh x).
      { intros x Hx. destruct off; [auto|]. apply in_app_iff in Hx as [Hx|[<-|[]]]; [auto|]. apply simple_fresh; auto. left. exact D. }
      destruct (_ && _); injection F as <- <-; (split; [apply derived_value; exact Hm|exact AR]). }
    intros x Hx. apply append_sub in Hx as [Hx|Hx].
    - apply in_map_iff in Hx as (p & <- & Hp). left. apply G. exact Hp.
    - apply in_flat_map in Hx as (p & Hp & Hx). right. apply (G p Hp). exact Hx.
  Qed.

  (** *** titles *)
  Lemma title_not_weak : ~ In (lit "weak-episode") [lit "title"]. Proof. intros [H|[]]. discriminate. Qed.
  Lemma hole_titles_fresh r part hole ts rm : snd hole <= List.length s -> allowed (tr_name r) -> (forall a, tr_alternative r = Some a -> allowed a) -> tr_tags r = [lit "title"] ->
    hole_titles r s context ms part hole = Ok (Some (ts, rm)) -> forall t, In t ts -> fresh t /\ m_start t < m_end t.
  Proof.
    intros HL A1 A2 AT. unfold hole_titles. destruct (negb _ || negb _); [discriminate|]. set (ign := range s ms (fst hole) (snd hole) (is_ignored s)).
    destruct (trim s ms part hole ign) as [hole' to_keep] eqn:ET.
    assert (HL' : snd hole' <= List.length s).
    { unfold trim in ET. assert (P1 : forall l st, (forall m, In m l -> In m ms) -> snd (fst st) <= List.length s -> snd (fst (fold_left (trail_step s ms part) l st)) <= List.length s).
      { induction l as [|m l IH]; intros st L H; [exact H|]. cbn [fold_left]. apply IH; [intros x Hx; apply L; right; exact Hx|]. destruct st as [h k]. unfold trail_step. destruct (_ && _); [|exact H]. cbn [fst snd]. destruct (I m (L m (or_introl eq_refl))) as (X1 & X2 & _). lia. }
      assert (P2 : forall l st, snd (fst st) <= List.length s -> snd (fst (fold_left (lead_step s ms part) l st)) <= List.length s).
      { induction l as [|m l IH]; intros st H; [exact H|]. cbn [fold_left]. apply IH. destruct st as [h k]. unfold lead_step. destruct (mmem m k); [exact H|]. destruct (_ && _); exact H. }
      assert (G : forall m, In m ign -> In m ms) by (intros m Hm; apply range_In in Hm; apply Hm).
      assert (X : snd (fst (hole', to_keep)) <= List.length s); [|exact X]. rewrite <- ET. apply P2, P1; [intros m Hm; apply G, in_rev, Hm|exact HL]. }
    destruct (snd hole' <? fst hole') eqn:X1; [discriminate|]. destruct ((fst hole' <? snd hole') && _) eqn:X2; [|discriminate]. intros E. injection E as <- _. apply andb_true_iff in X2 as [X2 X3].
    intros t Ht. apply in_map_iff in Ht as ([n h] & <- & Hh). unfold to_match. cbn [fst snd]. rewrite AT.
    assert (G : fst h < snd h /\ snd h <= List.length s /\ allowed n); [|destruct G as (G1 & G2 & G3); split; [apply simple_fresh; auto; apply title_not_weak|exact G1]].
    destruct (tr_alternative r) as [alt|]; [|destruct Hh as [Hh|[]]; injection Hh as <- <-; split; [lia|]; split; [lia|exact A1]].
    specialize (A2 alt eq_refl). unfold split_titles in Hh.
    destruct (runs_spec (fun c => cmem c title_seps) (raw s hole') (fst hole') None ltac:(discriminate)) as (R1 & _).
    assert (RB : forall q, In q (filter (fun h => nonnil (hole_value s h)) (runs (fun c => cmem c title_seps) (raw s hole') (fst hole') None)) -> fst q < snd q /\ snd q <= List.length s).
    { intros q Hq. apply filter_In in Hq as [Hq _]. destruct (R1 q Hq) as [Q1 Q2]. unfold raw, slice in Q2. rewrite firstn_length, skipn_length in Q2. lia. }
    destruct (filter _ (runs _ _ _ _)) as [|q qs]; [destruct Hh|]. apply in_rev in Hh.
    assert (F : forall l acc, (forall q, In q l -> fst q < snd q /\ snd q <= List.length s) -> (forall x, In x acc -> fst (snd x) < snd (snd x) /\ snd (snd x) <= List.length s /\ allowed (fst x)) ->
       forall x, In x (fold_left (merge_title s alt) l acc) -> fst (snd x) < snd (snd x) /\ snd (snd x) <= List.length s /\ allowed (fst x)).
    { induction l as [|q' l IH]; intros acc L H; [exact H|]. cbn [fold_left]. apply IH; [intros y Hy; apply L; right; exact Hy|]. destruct (L q' (or_introl eq_refl)) as [Q1 Q2]. unfold merge_title. destruct acc as [|[n1 p] r0].
      - intros x [<-|[]]. cbn [fst snd]. auto.
      - destruct (_ && _ && _) eqn:C.
        + apply andb_true_iff in C as [C _]. apply andb_true_iff in C as [C _]. apply str_eqb_eq in C. assert (snd p < fst q').
          { destruct (Nat.lt_ge_cases (snd p) (fst q')) as [Y|Y]; [exact Y|]. exfalso. unfold slice in C. replace (fst q' - snd p) with 0 in C by lia. discriminate. }
          intros x [<-|Hx]; [|apply H; right; exact Hx]. destruct (H _ (or_introl eq_refl)) as (H1 & H2 & H3). cbn [fst snd] in *. split; [lia|]. split; [lia|exact H3].
        + intros x [<-|Hx]; [cbn [fst snd]; auto|apply H; exact Hx]. }
    apply (F qs [(tr_name r, q)]) in Hh; [exact Hh|intros y Hy; apply RB; right; exact Hy|]. intros x [<-|[]]. cbn [fst snd]. destruct (RB q (or_introl eq_refl)). auto.
  Qed.
  Lemma crop_len (crops : list span) : (forall c, In c crops -> fst c <= snd c) -> forall h p : span, In p (crop crops h) -> snd p <= snd h.
  Proof.
    unfold crop. intros C h p. assert (R : forall p : span, In p [h] -> snd p <= snd h) by (intros q [<-|[]]; lia). revert C R. generalize [h] as ret.
    induction crops as [|c cs IH]; intros ret C R; [apply R|]. cbn [fold_left]. apply IH; [intros x Hx; apply C; right; exact Hx|]. clear p IH. intros p Hp. apply crop_step_In in Hp as (cur & Hc & H). specialize (R cur Hc). specialize (C c (or_introl eq_refl)).
    destruct c as [gs ge], cur as [us ue], p as [ps pe]. unfold crop1 in H. cbn [fst snd] in C, R |- *.
    destruct ((gs <? us) && (ue <? ge)); [destruct H; discriminate|]. destruct ((us <=? gs) && (ge <=? ue)) eqn:E1; [destruct H as [H|H]; cbn [fst snd] in H; [destruct (us <? gs)|destruct (ge <? ue)]; try discriminate; injection H as <- <-; lia|].
    destruct ((ge <=? ue) && (us <? ge)) eqn:E2; [destruct H as [H|H]; cbn [fst snd] in H; [injection H as <- <-; lia|discriminate]|].
    destruct ((us <=? gs) && (gs <? ue)) eqn:E3; (destruct H as [H|H]; cbn [fst snd] in H; [injection H as <- <-; lia|discriminate]).
  Qed.
  Lemma check_fresh r extra part ts rm : allowed (tr_name r) -> (forall a, tr_alternative r = Some a -> allowed a) -> tr_tags r = [lit "title"] ->
    check_titles r s context markers ms extra part = Ok (Some (ts, rm)) -> forall t, In t ts -> fresh t /\ m_start t < m_end t.
  Proof.
    intros A1 A2 AT. unfold check_titles. set (hs := holes_process _ _).
    assert (B : forall h, In h hs -> snd h <= List.length s).
    { intros h Hh. unfold hs, holes_process in Hh. apply in_flat_map in Hh as (h0 & H0 & Hh). apply crop_len in Hh; [|intros c Hc; apply crop_groups_In in Hc as (g & Hg & _ & ->); destruct (M g Hg) as (G1 & _); cbn; lia]. apply filter_In in H0 as [H0 _].
      rewrite (holes_ignore s ms) in H0 by exact ins. apply holes_bounds in H0 as [_ H0]. rewrite max_end_inside in H0 by (intros m Hm; apply filter_In in Hm as [Hm _]; apply ins; exact Hm). lia. }
    clearbody hs. induction hs as [|h hs IH]; cbn [first_titles]; [discriminate|]. destruct (hole_titles r s context ms part h) as [[[ts0 rm0]|]|] eqn:E; cbn [bind]; try discriminate.
    - intros H. injection H as -> ->. eapply hole_titles_fresh; eauto. apply B. left. reflexivity.
    - apply IH. intros h' Hh. apply B. right. exact Hh.
  Qed.
  Lemma fresh_rename x n : fresh x -> m_start x < m_end x -> allowed n -> fresh (set_name x n).
  Proof. intros ((P1 & P2 & P3 & P4) & F2 & F3) L A. split; [|split; [left; exact A|exact F3]]. unfold placed. cbn. split; [exact P1|]. split; [exact P2|]. split; [left; exact L|exact P4]. Qed.
  Lemma title_fresh r w : allowed (tr_name r) -> (forall a, tr_alternative r = Some a -> allowed a) -> tr_tags r = [lit "title"] -> allowed (lit "episode_title") ->
    existsb (str_eqb (tr_name r)) [lit "type"; lit "mimetype"; lit "episodeSeparator"; lit "seasonSeparator"] = false ->
    title_when r s context markers ms = Ok w -> forall t, In t (fst w) -> fresh t.
  Proof.
    intros A1 A2 AT AE Z. unfold title_when. destruct (existsb (has_tag (lit "expected")) _); [intros H; injection H as <-; intros t []|].
    set (parts := filter _ _). destruct (serie_titles r s context markers ms (serie_part s ms parts)) as [serie|] eqn:ES; [|discriminate]. cbn [bind].
    destruct (main_part r s context markers ms parts _) as [[years main]|] eqn:EM; [|discriminate]. cbn [bind].
    destruct (mapM _ years) as [others|] eqn:EO; [|discriminate]. cbn [bind]. intros H. injection H as <-. cbn [fst]. intros t Ht. apply in_app_iff in Ht as [Ht|Ht]; [|apply in_app_iff in Ht as [Ht|Ht]].
    - destruct serie as [[x rm]|]; [|destruct Ht]. destruct Ht as [<-|[]]. unfold serie_titles in ES. destruct (serie_part s ms parts) as [p|]; [|discriminate]. destruct (m_truthy p); [|discriminate].
      destruct (check_titles r s context markers ms weak p) as [[[l rm']|]|] eqn:E; cbn [bind] in ES; try discriminate. destruct l as [|y [|]]; try discriminate. injection ES as -> ->. eapply (check_fresh r); eauto. left. reflexivity.
    - apply in_map_iff in Ht as (y & <- & Hy).
      assert (FY : fresh y /\ m_start y < m_end y).
      { destruct main as [[l rm]|]; [|destruct Hy]. cbn [titles_of fst] in Hy. clear - I M A1 A2 AT EM Hy. revert EM. generalize (filter (with_year s ms) parts). induction parts as [|p ps IH]; cbn [main_part]; intros years0 EM; [discriminate|].
        destruct (check_titles r s context markers ms never p) as [[[l' rm']|]|] eqn:E; cbn [bind] in EM; try discriminate; [|apply (IH _ EM)]. injection EM as _ -> ->.
        eapply check_fresh; eauto. }
      destruct FY as [FY L]. unfold rename_title. destruct serie as [[x rm]|]; [|exact FY]. destruct (_ && _); [|exact FY]. apply fresh_rename; auto.
    - apply in_flat_map in Ht as (o & Ho & Ht). destruct (mapM_In _ _ _ EO _ Ho) as (p & _ & E). destruct o as [[l rm]|]; [|destruct Ht]. eapply (check_fresh r); eauto.
  Qed.
  Lemma g_title_base r ms' : allowed (tr_name r) -> (forall a, tr_alternative r = Some a -> allowed a) -> tr_tags r = [lit "title"] -> allowed (lit "episode_title") ->
    existsb (str_eqb (tr_name r)) [lit "type"; lit "mimetype"; lit "episodeSeparator"; lit "seasonSeparator"] = false ->
    title_base r s context markers ms = Ok ms' -> grows ms'.
  Proof.
    intros A1 A2 AT AE Z. unfold title_base. destruct (title_when r s context markers ms) as [w|] eqn:E; [|discriminate]. cbn [bind]. intros H. injection H as <-. intros x Hx. unfold title_then in Hx. apply remove_sub in Hx. apply append_sub in Hx as [Hx|Hx]; [left; apply derived_self; exact Hx|].
    right. eapply title_fresh; eauto.
  Qed.
  Lemma on_allowed n : on context n -> allowed n. Proof. intros H. left. exact H. Qed.
  Lemma g_title ms' : on context (lit "title") -> on context (lit "alternative_title") -> TitleFromPosition s context markers ms = Ok ms' -> grows ms'.
  Proof.
    intros T A. apply g_title_base; [left; exact T| |reflexivity| |reflexivity].
    - cbn. intros a E. injection E as <-. left. exact A.
    - right. right. right. left. auto.
  Qed.
  Lemma g_episode_title ms' : on context (lit "episode_title") -> EpisodeTitleFromPosition s context markers ms = Ok ms' -> grows ms'.
  Proof.
    intros T. unfold EpisodeTitleFromPosition. destruct (nonnil _); [intros H; injection H as <-; apply grows_sub; auto|]. apply g_title_base; [left; exact T|discriminate|reflexivity|left; exact T|reflexivity].
  Qed.
  Lemma g_title_year : grows (PreferTitleWithYear s markers ms).
  Proof.
    unfold PreferTitleWithYear. destruct (prefer_year s markers ms) as [rm tg] eqn:E. intros x Hx. left. unfold append_tags in Hx. apply append_sub in Hx as [Hx|Hx]; [apply derived_self; do 2 apply remove_sub in Hx; exact Hx|].
    apply in_map_iff in Hx as (y & <- & Hy). apply removed_sub in Hy as [Hy _]. unfold prefer_year in E. injection E as _ <-.
    assert (In y ms). { destruct (nonnil _) in Hy; apply filter_In in Hy as [Hy _]; apply filter_In in Hy as [Hy _]; exact Hy. }
    apply derived_tags; [assumption|]. intros T. apply in_app_iff in T as [T|[T|[]]]; [exact T|discriminate].
  Qed.
  Lemma foldM_inv {A B} (f : A -> B -> res A) (P : A -> Prop) l : (forall a b c, In b l -> P a -> f a b = Ok c -> P c) -> forall a c, P a -> foldM f l a = Ok c -> P c.
  Proof.
    induction l as [|b l IH]; intros H a c Ha E; cbn [foldM] in E; [injection E as <-; exact Ha|]. destruct (f a b) as [d|] eqn:F; [|discriminate]. cbn [bind] in E. apply (IH (fun a b c Hb => H a b c (or_intror Hb)) d c); [|exact E]. apply (H a b d); auto. left. reflexivity.
  Qed.
  Lemma g_rename_now n n0 l ms' : (forall m, In m l -> In m ms /\ m_name m = lit n0) -> existsb (str_eqb (lit n0)) [lit "type"; lit "mimetype"; lit "episodeSeparator"; lit "seasonSeparator"] = false -> allowed n ->
    foldM (rename_now n) l ms = Ok ms' -> grows ms'.
  Proof.
    intros L Z A E. assert (D : forall x, In x ms' -> In x ms \/ exists m, In m l /\ x = set_name m n); [|eapply grows_rename; eauto].
    revert E. apply (foldM_inv (rename_now n) (fun ms' => forall x, In x ms' -> In x ms \/ exists m, In m l /\ x = set_name m n)); [|auto].
    intros a b c Hb Ha F. unfold rename_now in F. destruct (mmem b a); [|discriminate]. injection F as <-. intros x Hx. apply in_app_iff in Hx as [Hx|[<-|[]]]; [apply remove1_sub in Hx; auto|right; exists b; auto].
  Qed.
  Lemma g_to_episode_title ms' : on context (lit "episode_title") -> TitleToEpisodeTitle ms = Ok ms' -> grows ms'.
  Proof.
    intros T. apply (g_rename_now _ "title"); [|reflexivity|left; exact T]. intros m Hm. unfold to_episode_title in Hm. destruct (_ <? _); [destruct Hm|]. apply filter_In in Hm as [Hm _]. apply named_In in Hm. tauto.
  Qed.
  Lemma g_rename_title ms' : on context (lit "episode_title") -> RenameEpisodeTitle ms = Ok ms' -> grows ms'.
  Proof.
    intros T. unfold RenameEpisodeTitle. destruct (_ && _); [|intros E; injection E as <-; apply grows_sub; auto]. apply (g_rename_now _ "episode_title"); [intros m Hm; apply named_In in Hm; tauto|reflexivity|].
    right. right. left. split; [exists "alternative_title"%string; cbn; auto|exact T].
  Qed.
  Lemma g_alternative ms' : on context (lit "episode_title") -> AlternativeTitleReplace s ms = Ok ms' -> grows ms'.
  Proof.
    intros T. unfold AlternativeTitleReplace. destruct (alternative_found s ms) as [a|] eqn:E; [|intros H; injection H as <-; apply grows_sub; auto]. destruct (mmem a ms); [|discriminate]. intros H. injection H as <-.
    assert (A : In a ms /\ m_name a = lit "alternative_title").
    { unfold alternative_found in E. destruct (nonnil _); [discriminate|]. destruct (first (range_all _ _ _)) as [a'|] eqn:F; [|discriminate]. apply first_sub in F. unfold range_all in F.
      assert (a' = a) as <- by (destruct (m_truthy a'); [|discriminate]; destruct (first (chain_before _ _ _ _)) as [t|]; [|discriminate]; destruct (_ && _); [injection E as <-; reflexivity|discriminate]).
      apply range_In in F as [F1 F2]. split; [exact F1|]. apply has_name_iff. tauto. }
    destruct A as [A1 A2]. intros x Hx. left. apply in_app_iff in Hx as [Hx|[<-|[]]]; [apply derived_self; eapply remove1_sub; exact Hx|].
    assert (L : m_start a < m_end a) by (eapply (on_not_zero s a "alternative_title"); [apply I; exact A1|exact A2|reflexivity]).
    exists a. cbn. repeat split; auto. - intros W. unfold tag in W. cbn in W. apply in_app_iff in W as [W|[W|[]]]; [exact W|discriminate]. - right. split; [left; exact T|exact L].
  Qed.
  Lemma clean_text_lt (h : span) : nonnil (clean_text (Title.raw s h)) = true -> fst h < snd h.
  Proof.
    intros N. destruct (Nat.lt_ge_cases (fst h) (snd h)) as [L|L]; [exact L|]. exfalso. unfold Title.raw, slice in N. replace (snd h - fst h) with 0 in N by lia. cbn in N. discriminate.
  Qed.
  Lemma hole_len a b ign hseps h : In h (holes s ms a b ign hseps) -> a <= fst h /\ snd h <= b /\ snd h <= List.length s.
  Proof. intros H0. rewrite (holes_ignore s ms) in H0 by exact ins. apply holes_bounds in H0 as [H1 H0]. rewrite max_end_inside in H0 by (intros m Hm; apply filter_In in Hm as [Hm _]; apply ins; exact Hm). lia. Qed.
  Lemma g_folder n part h tags : folder_hole s ms part = Some h -> ~ In (lit "weak-episode") tags -> allowed n -> grows (append_named n (clean_hole s [] tags h) ms).
  Proof.
    intros F T A x Hx. unfold append_named in Hx. destruct (mmem _ ms); [left; apply derived_self; exact Hx|]. apply in_app_iff in Hx as [Hx|[<-|[]]]; [left; apply derived_self; exact Hx|]. right.
    unfold folder_hole in F. apply first_sub, filter_In in F as [F1 F2]. apply hole_len in F1. apply clean_text_lt in F2. unfold clean_hole. change (set_name (simple (fst h) (snd h) [] (MvStr (clean_text (Title.raw s h))) tags) n) with (simple (fst h) (snd h) n (MvStr (clean_text (Title.raw s h))) tags).
    apply simple_fresh; auto; lia.
  Qed.
  Lemma title_with_episode : on context (lit "episode_title") -> allowed (lit "title").
  Proof. intros T. right. right. left. split; [exists "title"%string; cbn; auto|exact T]. Qed.
  Lemma g_filepart3 : on context (lit "episode_title") -> grows (Filepart3EpisodeTitle s markers ms).
  Proof.
    intros T. unfold Filepart3EpisodeTitle. assert (G : grows ms) by (apply grows_sub; auto). destruct (nonnil _); [exact G|]. destruct (rev _) as [|f [|d [|sd r]]]; auto. destruct (_ && _); [|exact G]. destruct (folder_hole s ms sd) eqn:E; [|exact G].
    eapply g_folder; eauto. apply title_with_episode; exact T.
  Qed.
  Lemma g_filepart2 : on context (lit "episode_title") -> grows (Filepart2EpisodeTitle s markers ms).
  Proof.
    intros T. unfold Filepart2EpisodeTitle. assert (G : grows ms) by (apply grows_sub; auto). destruct (nonnil _); [exact G|]. destruct (rev _) as [|f [|d r]]; auto. destruct (_ && _); [|exact G]. destruct (folder_hole s ms d) eqn:E; [|exact G].
    eapply g_folder; eauto; [intros [H|[]]; discriminate|]. apply title_with_episode; exact T.
  Qed.
  Lemma g_number n tn zone ms' : allowed tn -> number_title n tn zone s markers ms = Ok ms' -> grows ms'.
  Proof.
    intros A. unfold number_title. assert (G : grows ms) by (apply grows_sub; auto). destruct (first (filter public (named n ms))) as [b|]; [|intros H; injection H as <-; exact G]. destruct (m_truthy b); [|intros H; injection H as <-; exact G].
    destruct (first (filter _ (at_match _ _))) as [p|]; [|discriminate]. destruct (first (holes _ _ _ _ _ _)) as [h|] eqn:F; [|intros H; injection H as <-; exact G]. destruct (snd h <? fst h); [discriminate|]. destruct ((fst h <? snd h) && _) eqn:E; intros H; [|injection H as <-; exact G].
    apply andb_true_iff in E as [E1 _]. apply first_sub, hole_len in F. intros x Hx. injection H as H. rewrite <- H in Hx. apply (append_sub [clean_hole s tn [] h]) in Hx as [Hx|[<-|[]]]; [left; apply derived_self; exact Hx|right]. apply simple_fresh; auto; lia.
  Qed.
  (** *** languages *)
  Lemma to_subtitle_grows l0 base ms' : on context (lit "subtitle_language") -> (forall x, In x base -> In x ms) -> (forall pl : mt * mt, In pl l0 -> In (snd pl) ms /\ m_name (snd pl) = lit "language") ->
    foldM (fun ms pl => to_subtitle (remove1 (set_name (fst pl) (lit "subtitle_language.suffix")) ms) (snd pl)) l0 base = Ok ms' -> grows ms'.
  Proof.
    intros T B L E. assert (D : forall x, In x ms' -> In x ms \/ exists m, In m (map snd l0) /\ x = set_name m (lit "subtitle_language")).
    - revert E. apply (foldM_inv _ (fun ms' => forall x, In x ms' -> In x ms \/ exists m, In m (map snd l0) /\ x = set_name m (lit "subtitle_language"))); [|auto].
      intros a b c Hb Ha F. unfold to_subtitle in F. destruct (mmem (snd b) _); [|discriminate]. injection F as <-. intros x Hx. apply in_app_iff in Hx as [Hx|[<-|[]]]; [do 2 apply remove1_sub in Hx; auto|right; exists (snd b); split; [apply in_map; exact Hb|reflexivity]].
    - apply (grows_rename (lit "subtitle_language") "language" (map snd l0)); [exact D| |reflexivity|left; exact T]. intros m Hm. apply in_map_iff in Hm as (pl & <- & Hpl). apply L. exact Hpl.
  Qed.
  Lemma g_sub_prefix ms' : on context (lit "subtitle_language") -> SubtitlePrefix s markers ms = Ok ms' -> grows ms'.
  Proof.
    intros T. unfold SubtitlePrefix. apply to_subtitle_grows; [exact T|intros x; apply remove_sub|].
    unfold prefix_when. assert (G : forall l st, (forall m, In m l -> In m ms /\ m_name m = lit "language") -> (forall pl : mt * mt, In pl (fst st) -> In (snd pl) ms /\ m_name (snd pl) = lit "language") ->
      forall pl, In pl (fst (fold_left (prefix_step s markers ms) l st)) -> In (snd pl) ms /\ m_name (snd pl) = lit "language").
    { induction l as [|m l IH]; intros st L H; [exact H|]. cbn [fold_left]. apply IH; [intros y Hy; apply L; right; exact Hy|]. unfold prefix_step. destruct (prefix_of s markers ms m) as [p|]; [|exact H]. cbn [fst]. intros pl Hpl. apply in_app_iff in Hpl as [Hpl|[<-|[]]]; [auto|cbn [snd]; apply L; left; reflexivity]. }
    apply G; [|intros pl []]. intros m Hm. apply named_In in Hm. tauto.
  Qed.
  Lemma g_sub_suffix ms' : on context (lit "subtitle_language") -> SubtitleSuffix ms = Ok ms' -> grows ms'.
  Proof.
    intros T. unfold SubtitleSuffix.
    assert (L : forall m, In m (fst (fold_left (suffix_step ms) (named (lit "language") ms) ([], named (lit "subtitle_language.suffix") ms))) -> In m ms /\ m_name m = lit "language").
    { assert (G : forall l st, (forall m, In m l -> In m ms /\ m_name m = lit "language") -> (forall m, In m (fst st) -> In m ms /\ m_name m = lit "language") -> forall m, In m (fst (fold_left (suffix_step ms) l st)) -> In m ms /\ m_name m = lit "language").
      { induction l as [|m l IH]; intros st L H; [exact H|]. cbn [fold_left]. apply IH; [intros y Hy; apply L; right; exact Hy|]. unfold suffix_step. destruct (suffix_of ms m) as [p|]; [|exact H]. cbn [fst]. intros y Hy. apply in_app_iff in Hy as [Hy|[<-|[]]]; [auto|apply L; left; reflexivity]. }
      apply G; [intros m Hm; apply named_In in Hm; tauto|intros m []]. }
    revert L. generalize (fst (fold_left (suffix_step ms) (named (lit "language") ms) ([], named (lit "subtitle_language.suffix") ms))) as l0. generalize (snd (fold_left (suffix_step ms) (named (lit "language") ms) ([], named (lit "subtitle_language.suffix") ms))) as rm. intros rm l0 L E.
    assert (D : forall x, In x ms' -> In x ms \/ exists m, In m l0 /\ x = set_name m (lit "subtitle_language")).
    - revert E. apply (foldM_inv _ (fun ms' => forall x, In x ms' -> In x ms \/ exists m, In m l0 /\ x = set_name m (lit "subtitle_language"))); [|intros x Hx; left; eapply remove_sub; exact Hx].
      intros a b c Hb Ha F. unfold to_subtitle in F. destruct (mmem b _); [|discriminate]. injection F as <-. intros x Hx. apply in_app_iff in Hx as [Hx|[<-|[]]]; [apply remove1_sub in Hx; auto|right; exists b; auto].
    - apply (grows_rename (lit "subtitle_language") "language" l0); [exact D|exact L|reflexivity|left; exact T].
  Qed.
  Lemma previous_sub m p x : In x (previous m ms p) -> In x ms /\ p x = true.
  Proof. intros H. apply previous_In in H. tauto. Qed.
  Lemma g_sub_extension : on context (lit "subtitle_language") -> grows (SubtitleExtension ms).
  Proof.
    intros T. unfold SubtitleExtension. assert (G : grows ms) by (apply grows_sub; auto). destruct (first (filter _ _)) as [e|]; [|exact G]. destruct (negb (m_truthy e)); [exact G|]. destruct (first (previous e ms _)) as [l|] eqn:E; [|exact G]. destruct (negb (m_truthy l)); [exact G|].
    apply first_sub, previous_sub in E as [E1 E2]. apply has_name_iff in E2. cbv zeta. intros x Hx. left. apply rename_sub in Hx as [Hx|(m & [<-|[]] & _ & ->)].
    - apply remove_sub in Hx. apply in_map_iff in Hx as (y & <- & Hy). destruct (_ && _); [apply (derived_copy y); destruct y; auto|apply derived_self; exact Hy].
    - apply derived_name; [exact E1|left; exact T|eapply (on_not_zero s l "language"); [apply I; exact E1|exact E2|reflexivity]].
  Qed.
  (** *** other, bit rates *)
  Lemma g_another : on context (lit "other") -> grows (RenameAnother ms).
  Proof.
    intros T. apply (grows_rename (lit "other") "another" (named (lit "another") ms)); [|intros m Hm; apply named_In in Hm; tauto|reflexivity|left; exact T]. intros x Hx. apply rename_sub in Hx as [Hx|(m & Hm & _ & ->)]; [left; exact Hx|right; exists m; auto].
  Qed.
  Lemma raws_sub l : forall d d', foldM (fun d m => k <- raw_cleanup (raw_of s m); Ok (raw_put k m d)) l d = Ok d' -> (forall m, In m (map snd d') -> In m (map snd d) \/ In m l) /\ (l <> [] \/ d <> [] -> d' <> []).
  Proof.
    assert (P : forall k m d x, In x (map snd (raw_put k m d)) -> In x (map snd d) \/ x = m). { induction d as [|[k' m'] d IH]; cbn [raw_put map snd]; [intros x [<-|[]]; auto|]. destruct (str_eqb k k'); cbn [map snd]; intros x [<-|H]; cbn; auto. apply IH in H as [H|H]; auto. }
    induction l as [|m l IH]; intros d d' E; cbn [foldM] in E; [injection E as <-; split; [auto|intros [[]|]; auto; intros _; contradiction]|]. destruct (raw_cleanup _) as [k|]; [|discriminate]. cbn [bind] in E. apply IH in E as [E1 E2]. split.
    - intros x Hx. apply E1 in Hx as [Hx|Hx]; [|right; right; exact Hx]. apply P in Hx as [Hx| ->]; [left; exact Hx|right; left; reflexivity].
    - intros _. apply E2. right. destruct d as [|[k' m'] d]; cbn [raw_put]; [discriminate|]. destruct (str_eqb k k'); discriminate.
  Qed.
  Lemma proper_bounds l : l <> [] -> (forall m, In m l -> m_start m < m_end m /\ m_end m <= List.length s) -> proper_start l < proper_end l /\ proper_end l <= List.length s.
  Proof.
    assert (A : forall l a, let st := fold_left (fun start m => if (start =? 0) || (m_start m <? start) then m_start m else start) l a in st = a \/ exists m, In m l /\ st = m_start m).
    { clear. induction l as [|m l IH]; intros a; cbn [fold_left]; [left; reflexivity|]. destruct (IH (if (a =? 0) || (m_start m <? a) then m_start m else a)) as [E|(x & Hx & E)]; cbv zeta in E |- *; [|right; exists x; split; [right; exact Hx|exact E]].
      rewrite E. destruct ((a =? 0) || (m_start m <? a)); [right; exists m; split; [left; reflexivity|reflexivity]|left; reflexivity]. }
    assert (B : forall l a, let e := fold_left (fun e m => if (e =? 0) || (e <? m_end m) then m_end m else e) l a in a <= e /\ (forall m, In m l -> m_end m <= e) /\ (e = a \/ exists m, In m l /\ e = m_end m)).
    { clear. induction l as [|m l IH]; intros a; cbn [fold_left]; [repeat split; auto; intros m []|]. destruct (IH (if (a =? 0) || (a <? m_end m) then m_end m else a)) as (E1 & E2 & E3). cbv zeta in *.
      destruct ((a =? 0) || (a <? m_end m)) eqn:C; (split; [lia|]); (split; [intros x [<-|Hx]; [lia|auto]|]); (destruct E3 as [E3|(x & Hx & E3)]; [|right; exists x; split; [right; exact Hx|exact E3]]); [right; exists m; split; [left; reflexivity|exact E3]|left; exact E3]. }
    intros N L. destruct l as [|m l]; [contradiction|]. destruct (B (m :: l) 0) as (_ & B2 & B3). cbv zeta in B2, B3. fold (proper_end (m :: l)) in B2, B3. split.
    - destruct (A (m :: l) 0) as [E|(x & Hx & E)]; cbv zeta in E; fold (proper_start (m :: l)) in E.
      + destruct (L m (or_introl eq_refl)). specialize (B2 m (or_introl eq_refl)). lia.
      + destruct (L x Hx). specialize (B2 x Hx). lia.
    - destruct B3 as [E|(x & Hx & E)]; [lia|]. destruct (L x Hx). lia.
  Qed.
  Lemma g_proper ms' : on context (lit "other") -> ProperCount s ms = Ok ms' -> grows ms'.
  Proof.
    intros T. unfold ProperCount. destruct (filter is_proper ms) as [|p ps] eqn:F; [intros E; injection E as <-; apply grows_sub; auto|]. destruct (raws s (p :: ps)) as [d|] eqn:R; [|discriminate]. cbn [bind]. cbv zeta. intros E x Hx. injection E as E. rewrite <- E in Hx.
    apply (append_sub [_]) in Hx as [Hx|[<-|[]]]; [left; apply derived_self; exact Hx|]. right. unfold raws in R. apply raws_sub in R as [R1 R2].
    destruct (proper_bounds (map snd d)) as [B1 B2].
    - intros N. apply map_eq_nil in N. apply R2; [left; discriminate|exact N].
    - intros m Hm. apply R1 in Hm as [[]|Hm]. rewrite <- F in Hm. apply filter_In in Hm as [H1 H2]. unfold is_proper in H2. apply andb_true_iff in H2 as [H2 _]. apply has_name_iff in H2. destruct (I m H1) as (_ & X & _). split; [|exact X]. eapply (on_not_zero s m "other"); [apply I; exact H1|exact H2|reflexivity].
    - apply simple_fresh; auto. right. do 4 right. left. auto.
  Qed.
  Lemma g_bit_rate ms' : BitRateType context s ms = Ok ms' -> grows ms'.
  Proof.
    unfold BitRateType, bit_rate_split. destruct (is_disabled context (lit "audio_bit_rate")) as [a|]; [|discriminate]. cbn [bind]. destruct a; [intros E; injection E as <-; cbn [fst snd]; apply grows_sub; intros x Hx; apply remove_sub in Hx; apply rename_sub in Hx as [Hx|(m & [] & _)]; exact Hx|].
    destruct (is_disabled context (lit "video_bit_rate")) as [v|] eqn:D; [|discriminate]. cbn [bind]. intros E. injection E as <-. destruct v; cbn [fst snd].
    - apply grows_sub. intros x Hx. apply remove_sub in Hx. apply rename_sub in Hx as [Hx|(m & [] & _)]; exact Hx.
    - apply (grows_rename (lit "video_bit_rate") "audio_bit_rate" (filter (is_video_rate s ms) (named (lit "audio_bit_rate") ms))); [|intros m Hm; apply filter_In in Hm as [Hm _]; apply named_In in Hm; tauto|reflexivity|left; exact D].
      intros x Hx. apply remove_sub in Hx. apply rename_sub in Hx as [Hx|(m & Hm & _ & ->)]; [left; exact Hx|right; exists m; auto].
  Qed.
  (** *** release groups *)
  Lemma last_sub {A} (l : list A) x : last_o l = Some x -> In x l.
  Proof. intros H. apply last_o_split in H as (l1 & ->). apply in_or_app. right. left. reflexivity. Qed.
  Lemma at_match_sub c l x : In x (at_match c l) -> In x l.
  Proof.
    assert (A : forall i y, In y (at_index i l) -> In y l) by (intros i y Hy; apply filter_In in Hy; apply Hy). unfold at_match, at_span. intros H. apply merge_new_sub in H as [H|H]; [eapply A; exact H|]. destruct (m_end c); [destruct H|eapply A; exact H].
  Qed.
  Lemma sub_hole l a b ign hseps h : (forall x, In x l -> In x ms) -> In h (holes s l a b ign hseps) -> snd h <= List.length s.
  Proof. intros S H. rewrite (holes_ignore s l) in H by (intros m Hm; apply ins; auto). apply holes_bounds in H as [H1 H]. rewrite max_end_inside in H by (intros m Hm; apply filter_In in Hm as [Hm _]; apply ins; auto). lia. Qed.
  Lemma text_lt (h : span) : negb (forallb is_sep (Title.raw s h)) = true -> fst h < snd h.
  Proof. intros N. destruct (Nat.lt_ge_cases (fst h) (snd h)) as [L|L]; [exact L|]. exfalso. unfold Title.raw, slice in N. replace (snd h - fst h) with 0 in N by lia. cbn in N. discriminate. Qed.
  Lemma group_fresh clean tags a b : on context (lit "release_group") -> a < b -> b <= List.length s -> ~ In (lit "weak-episode") tags -> fresh (group_match clean s tags a b).
  Proof. intros T L1 L2 W. split; [|split; [left; left; exact T|intros X; contradiction]]. unfold placed. cbn. split; [lia|]. split; [lia|]. split; [left; lia|intros c []]. Qed.
  Lemma g_dash clean : on context (lit "release_group") -> grows (DashSeparatedReleaseGroup clean s markers ms).
  Proof.
    intros T. unfold DashSeparatedReleaseGroup. destruct (nonnil _); [apply grows_sub; auto|]. intros x Hx. apply change_sub in Hx as [Hx|Hx]; [left; apply derived_self; exact Hx|]. right.
    induction (parts_of markers) as [|p ps IH]; cbn [dash_parts] in Hx; [destruct Hx|]. destruct (nonnil (fst (dash_part clean s markers ms p)) || _); [|auto]. clear IH.
    assert (G : forall c, detect_end s markers ms p = Some c \/ detect_start s markers ms p = Some c -> m_start c < m_end c /\ m_end c <= List.length s).
    { intros c [E|E].
      - unfold detect_end in E. set (e := real_end ms (m_end p)) in E. destruct (candidate_end s ms (m_start p) e) as [c'|] eqn:C; [|discriminate]. cbn [keep_if] in E. destruct (valid_end _ _ _ _ _); [|discriminate]. injection E as ->.
        unfold candidate_end in C. destruct (truthy_o (first (filter _ _))) as [c'|] eqn:F.
        + injection C as ->. unfold truthy_o in F. destruct (first _) as [y|] eqn:Y; [|discriminate]. destruct (m_truthy y) eqn:YT; [|discriminate]. injection F as ->. apply first_sub, filter_In in Y as [Y _]. apply filter_In in Y as [Y _]. destruct (I c Y) as (_ & X & _). unfold m_truthy in YT. split; [lia|exact X].
        + destruct (last_o _) as [h|] eqn:Y; [|discriminate]. injection C as <-. apply last_sub in Y. apply filter_In in Y as [Y1 Y2]. apply (sub_hole ms) in Y1; auto. apply andb_true_iff in Y2 as [Y2 _]. apply andb_true_iff in Y2 as [_ Y2]. apply text_lt in Y2. cbn. auto.
      - unfold detect_start in E. destruct (candidate_start _ _ _ _) as [c'|] eqn:C; [|discriminate]. cbn [keep_if] in E. destruct (valid_start _ _ _ _ _); [|discriminate]. injection E as ->. unfold candidate_start in C.
        destruct (first _) as [h|] eqn:Y; [|discriminate]. injection C as <-. apply first_sub, filter_In in Y as [Y1 Y2]. apply (sub_hole ms) in Y1; auto. apply andb_true_iff in Y2 as [_ Y2]. apply text_lt in Y2. cbn. auto. }
    unfold dash_part in Hx. destruct (detect_end s markers ms p) as [c|] eqn:E.
    - cbn [snd] in Hx. destruct (nonnil _); [|destruct Hx]. destruct Hx as [<-|[]]. destruct (G c (or_introl eq_refl)). apply group_fresh; auto.
    - destruct (detect_start s markers ms p) as [c|] eqn:E2; [|destruct Hx]. cbn [snd] in Hx. destruct (nonnil _); [|destruct Hx]. destruct Hx as [<-|[]]. destruct (G c (or_intror eq_refl)). apply group_fresh; auto.
  Qed.
  Lemma g_scene clean : on context (lit "release_group") -> takes_away clean -> grows (SceneReleaseGroup clean s markers ms).
  Proof.
    intros T TA. unfold SceneReleaseGroup.
    assert (G : forall parts st, (forall x, In x (fst st) -> In x ms) -> (forall x, In x (snd st) -> fresh x) -> let st' := fold_left (scene_step clean s markers) parts st in (forall x, In x (fst st') -> In x ms) /\ (forall x, In x (snd st') -> fresh x)).
    { induction parts as [|p ps IH]; intros st H1 H2; [auto|]. cbn [fold_left]. apply IH; unfold scene_step; destruct (scene_part clean s markers (fst st) p) as [[g rem]|] eqn:E; auto; cbn [fst snd]; [intros x Hx; apply H1; eapply remove_sub; exact Hx|].
      intros x Hx. apply in_app_iff in Hx as [Hx|[<-|[]]]; [auto|]. unfold scene_part in E. destruct (nonnil _); [discriminate|]. destruct (scene_hole clean s (fst st) p) as [h|] eqn:SH; [|discriminate]. destruct ((fst h <? snd h) && _ && _) eqn:C; [|discriminate]. injection E as <- _.
      apply andb_true_iff in C as [C _]. apply andb_true_iff in C as [C _]. unfold scene_hole in SH. apply last_sub, filter_In in SH as [S1 S2]. apply (sub_hole (fst st)) in S1; auto. apply cleaned_iff in S2 as (c & Hc & NS).
      assert (HF : fresh (group_match clean s [lit "scene"] (fst h) (snd h))) by (apply group_fresh; [exact T|lia|lia|intros [X|[]]; discriminate]).
      unfold scene_match. destruct (truthy_o (first (in_group markers (hole_match s h)))) as [g|] eqn:F; [|exact HF]. destruct (str_eqb _ _) eqn:Q; [|exact HF]. apply str_eqb_eq in Q. rewrite <- Q in Hc. apply (fun H => TA _ _ H NS) in Hc.
      unfold truthy_o in F. destruct (first _) as [y|] eqn:Y; [|discriminate]. destruct (m_truthy y); [|discriminate]. injection F as ->. apply first_sub, filter_In in Y as [Y1 Y2]. apply has_name_iff in Y2. apply at_match_sub in Y1.
      destruct (M g Y1) as (G1 & G2 & _ & G4 & G5 & _ & G7). destruct (G7 Y2) as [G8 G9]. unfold m_raw in Hc. rewrite G4, G5 in Hc. apply In_nth_error in Hc as (i & Hi). rewrite slice_nth in Hi. destruct (i <? m_end g - m_start g) eqn:L; [|discriminate].
      unfold sep_at in G8, G9. assert (i <> 0) by (intros ->; rewrite Nat.add_0_r in Hi; rewrite Hi in G8; congruence). assert (m_start g + i <> m_end g - 1) by (intros X; rewrite X in Hi; rewrite Hi in G9; congruence).
      apply group_fresh; [exact T|lia|lia|intros [X|[]]; discriminate]. }
    destruct (G (marker_sorted s ms comparator_predicate (parts_of markers)) (ms, [])) as [A B]; [auto|intros x []|]. intros x Hx. apply append_sub in Hx as [Hx|Hx]; [left; apply derived_self; auto|right; auto].
  Qed.
  Lemma g_anime : on context (lit "release_group") -> grows (AnimeReleaseGroup s markers ms).
  Proof.
    intros T. unfold AnimeReleaseGroup. destruct (nonnil _); [apply grows_sub; auto|]. intros x Hx. apply change_sub in Hx as [Hx|Hx]; [left; apply derived_self; exact Hx|]. right. rewrite joins_snd in Hx. apply in_concat in Hx as (l & Hl & Hx). rewrite map_map in Hl. apply in_map_iff in Hl as (p & <- & _).
    unfold anime_part in Hx. destruct (truthy_o _) as [g|] eqn:F; [|destruct Hx]. destruct Hx as [<-|[]]. unfold truthy_o in F. destruct (first _) as [y|] eqn:Y; [|discriminate]. destruct (m_truthy y); [|discriminate]. injection F as ->. apply first_sub, range_In in Y as [Y _].
    destruct (M g Y) as (G1 & G2 & G3 & _). unfold anime_match. split; [|split; [left; left; exact T|intros [X|[]]; discriminate]]. unfold placed. cbn [m_start m_end m_name m_private m_children]. split; [lia|]. split; [exact G2|]. split; [left; exact G1|]. rewrite G3. intros c [].
  Qed.
  (** *** processors *)
  Lemma g_enlarge : grows (EnlargeGroupMatches markers ms).
  Proof.
    assert (R : forall f l base, (forall x, In x base -> derived x) -> (forall x, In x l -> derived (f x)) -> forall x, In x (replace_each f l base) -> derived x).
    { intros f. induction l as [|m l IH]; intros base H1 H2; [exact H1|]. unfold replace_each. cbn [fold_left]. apply IH; [|intros x Hx; apply H2; right; exact Hx]. intros x Hx. apply in_app_iff in Hx as [Hx|[<-|[]]]; [apply H1; eapply remove1_sub; exact Hx|apply H2; left; reflexivity]. }
    intros x Hx. left. revert x Hx. unfold EnlargeGroupMatches. cbv zeta. apply R; [apply R|].
    - intros x. apply derived_self.
    - intros x Hx. unfold enlarge_starting in Hx. apply in_flat_map in Hx as (g & _ & Hx). apply filter_In in Hx as [Hx _]. exists x. destruct (I x Hx) as (X1 & X2 & _). cbn. repeat split; auto; lia.
    - intros x Hx. apply in_map_iff in Hx as (m & <- & Hm). unfold enlarge_ending in Hm. apply in_flat_map in Hm as (g & Hg & Hm). apply filter_In in Hm as [Hm E]. apply filter_In in Hg as [Hg _]. destruct (M g Hg) as (G1 & G2 & _). exists m. apply Nat.eqb_eq in E.
      destruct (mmem m (enlarge_starting markers ms)); cbn; repeat split; auto; lia.
  Qed.
  Lemma g_equivalent names : no_empty_text ms -> grows (EquivalentHoles names s markers ms).
  Proof.
    intros NE. unfold EquivalentHoles.
    assert (RD : forall l, Forall2 recased ms l -> forall x, In x l -> exists m, In m ms /\ m_start x = m_start m /\ m_end x = m_end m /\ m_name x = m_name m /\ m_children x = m_children m /\ m_private x = m_private m /\ m_tags x = m_tags m).
    { intros l F x Hx. destruct (all2_in _ _ F x Hx) as (m & Hm & [->|(t & t' & _ & _ & _ & ->)]); exists m; destruct m; cbn; auto 10. }
    assert (G : forall parts st, Forall2 recased ms (e_ms st) -> (forall x, In x (e_new st) -> fresh x) -> let st' := fold_left (eq_part names s) parts st in Forall2 recased ms (e_ms st') /\ (forall x, In x (e_new st') -> fresh x)).
    { induction parts as [|p ps IH]; intros st H1 H2; [auto|]. cbn [fold_left].
      pose proof (eq_names_spec (fun _ => True) ms names (mk_eq (map (fun h => (h, cleaned (Title.raw s h))) (holes s (e_ms st) (m_start p) (m_end p) never None)) (e_ms st) (e_new st)) H1 (fun _ _ _ _ => Logic.I) (fun _ _ => Logic.I)) as X.
      cbv zeta in X. cbn [e_holes e_new] in X. destruct X as (F & _ & l & E & L & _). apply IH; [exact F|]. intros x Hx. unfold eq_part in Hx. rewrite E in Hx. apply in_app_iff in Hx as [Hx|Hx]; [auto|]. destruct (L x Hx) as (h & Hh & n & (l1 & l2 & _ & (m & t & Hm & Mn & Mv & SC & _) & _) & (v & _ & _ & ->)).
      apply in_map_iff in Hh as (h0 & <- & Hh). cbn [fst snd] in *.
      assert (In h0 (holes s (e_ms st) (m_start p) (m_end p) never None)) as Hh' by exact Hh. apply holes_bounds in Hh' as [_ Hh']. rewrite max_end_inside in Hh' by (intros y Hy; destruct (RD _ H1 y Hy) as (z & Hz & -> & -> & _); apply ins; exact Hz).
      assert (fst h0 < snd h0).
      { destruct (Nat.lt_ge_cases (fst h0) (snd h0)) as [Q|Q]; [exact Q|]. exfalso. unfold Title.raw, slice in SC. replace (snd h0 - fst h0) with 0 in SC by lia. cbn in SC. apply (NE m Hm). rewrite Mv. f_equal. destruct t; [reflexivity|discriminate]. }
      split; [|split; [right; exists m; auto|intros [X|[]]; discriminate]]. unfold placed. cbn. split; [lia|]. split; [lia|]. split; [left; lia|intros c []]. }
    destruct (G (marker_sorted s ms comparator_predicate (parts_of markers)) (mk_eq [] ms [])) as [A B]; [apply all2_refl|intros x []|]. intros x Hx. apply append_sub in Hx as [Hx|Hx]; [|right; auto]. left.
    destruct (RD _ A x Hx) as (m & Hm & R1 & R2 & R3 & R4 & R5 & R6). apply (derived_copy m); auto; [congruence|unfold tag; rewrite R6; auto].
  Qed.
  Lemma g_season_year : grows (SeasonYear context ms).
  Proof.
    apply (grows_rename (lit "year") "season" (named (lit "season") ms)); [|intros m Hm; apply named_In in Hm; tauto|reflexivity|apply (unch "year"); cbn; auto 10]. intros x Hx. apply append_sub in Hx as [Hx|Hx]; [left; exact Hx|]. right. unfold season_year in Hx. destruct (named (lit "year") ms); [|destruct Hx].
    apply in_map_iff in Hx as (m & <- & Hm). apply filter_In in Hm as [Hm _]. exists m. auto.
  Qed.
  Lemma g_year_season : grows (YearSeason context ms).
  Proof.
    apply (grows_rename (lit "season") "year" (named (lit "year") ms)); [|intros m Hm; apply named_In in Hm; tauto|reflexivity|apply (unch "season"); cbn; auto 10]. intros x Hx. apply append_sub in Hx as [Hx|Hx]; [left; exact Hx|]. right. unfold year_season in Hx. destruct (named (lit "season") ms); [|destruct Hx]. destruct (named (lit "episode") ms); [destruct Hx|].
    apply in_map_iff in Hx as (y & <- & Hy). exists y. auto.
  Qed.
  Lemma g_strip ms' : StripSeparators s ms = Ok ms' -> grows ms'.
  Proof.
    intros E x Hx. left. destruct (mapM_In _ _ _ E _ Hx) as (m & Hm & F). destruct (strip_raw _ _) as [ab|]; [|discriminate]. cbn [bind] in F. injection F as <-. apply (derived_copy m); auto.
  Qed.
  Lemma end_fresh n v : on context (lit n) -> In n ["type"; "mimetype"]%string -> fresh (simple (List.length s) (List.length s) (lit n) v []).
  Proof. intros T H. split; [|split; [left; left; exact T|intros []]]. unfold placed. cbn. split; [lia|]. split; [lia|]. split; [right; left; exists n; auto|intros c []]. Qed.
  Lemma g_mimetype mime : on context (lit "mimetype") -> grows (Mimetype mime s ms).
  Proof.
    intros T. unfold Mimetype. destruct mime as [t|]; [|apply grows_sub; auto]. destruct (nonnil t); [|apply grows_sub; auto]. intros x Hx. apply in_app_iff in Hx as [Hx|[<-|[]]]; [left; apply derived_self; exact Hx|right]. apply (end_fresh "mimetype"); [exact T|cbn; auto].
  Qed.
  Lemma g_type ms' : TypeProcessor context s ms = Ok ms' -> grows ms'.
  Proof.
    unfold TypeProcessor. destruct (is_disabled context (lit "type")) as [d|] eqn:D; [|discriminate]. cbn [bind]. destruct d; intros E; injection E as <-; [apply grows_sub; auto|]. intros x Hx. apply in_app_iff in Hx as [Hx|[<-|[]]]; [left; apply derived_self; exact Hx|right]. apply (end_fresh "type"); [exact D|cbn; auto].
  Qed.
  (** *** every rule *)
  Lemma g_remove l : grows (remove_all l ms).
  Proof. apply grows_sub. intros x. apply remove_sub. Qed.
  Lemma g_unless n rule ms' : grows (rule ms) -> unless_disabled context n rule ms = Ok ms' -> grows ms'.
  Proof. intros G. unfold unless_disabled. destruct (is_disabled context n) as [d|]; [|discriminate]. cbn [bind]. intros E. injection E as <-. destruct d; [apply grows_sub; auto|exact G]. Qed.
  Lemma step_grows ms' : step context s markers ms ms' -> grows ms'.
  Proof.
    intros H. destruct H.
    - apply g_weak_conflict.
    - apply g_remove.
    - apply g_remove.
    - apply g_see.
    - apply g_range; auto.
    - apply g_range; auto.
    - unfold RemoveWeakIfMovie. destruct (type_is _ _); [apply grows_sub; auto|apply g_remove].
    - apply g_remove.
    - apply g_remove.
    - apply g_remove.
    - unfold RemoveDetachedEpisodeNumber. destruct (detached ms); [apply g_remove|apply grows_sub; auto].
    - apply g_remove.
    - apply g_weak.
    - apply g_absolute; auto.
    - apply g_count.
    - apply g_remove.
    - eapply g_disc; eauto.
    - apply g_remove.
    - apply g_remove.
    - apply g_ultra.
    - eapply g_unless; [|eassumption]; cbv beta; apply g_remove.
    - eapply g_unless; [|eassumption]; cbv beta; apply g_remove.
    - eapply g_unless; [|eassumption]; cbv beta; apply g_remove.
    - apply g_remove.
    - eapply g_unless; [|eassumption]; cbv beta; apply g_remove.
    - eapply g_unless; [|eassumption]; cbv beta; apply g_remove.
    - eapply g_screen; eauto.
    - apply g_remove.
    - apply g_remove.
    - apply g_remove.
    - apply g_remove.
    - unfold KeepMarkedYear. destruct (1 <? _); [apply g_remove|apply grows_sub; auto].
    - apply g_title; auto.
    - apply g_title_year.
    - apply g_remove.
    - apply g_episode_title; auto.
    - apply g_alternative; auto.
    - apply g_to_episode_title; auto.
    - apply g_filepart3; auto.
    - apply g_filepart2; auto.
    - apply g_rename_title; auto.
    - apply g_sub_extension; auto.
    - apply g_sub_prefix; auto.
    - apply g_sub_suffix; auto.
    - unfold RemoveLanguage. destruct off; [apply g_remove|apply grows_sub; auto].
    - apply g_remove.
    - apply g_remove.
    - apply g_dash; auto.
    - apply g_scene; auto.
    - apply g_anime; auto.
    - apply g_remove.
    - apply g_another; auto.
    - apply g_remove.
    - apply g_remove.
    - apply g_remove.
    - apply g_remove.
    - apply g_remove.
    - apply g_remove.
    - apply g_remove.
    - apply g_remove.
    - apply g_remove.
    - apply g_proper; auto.
    - apply g_bit_rate; auto.
    - eapply g_number; [|eassumption]. right. do 3 right. left. auto.
    - eapply g_number; [|eassumption]. left. assumption.
    - apply g_enlarge.
    - apply g_equivalent; auto.
    - apply g_remove.
    - apply g_remove.
    - apply g_season_year.
    - apply g_year_season.
    - apply g_strip; auto.
    - apply g_mimetype; auto.
    - apply g_type; auto.
  Qed.
End Rules.

Lemma derived_placed context s ms x : (forall m, In m ms -> placed s m) -> derived context s ms x -> placed s x.
Proof.
  intros I (m & Hm & D1 & D2 & D3 & D4 & D5 & _ & D7). destruct (I m Hm) as (P1 & P2 & P3 & P4). unfold placed. split; [lia|]. split; [lia|]. split; [|rewrite D4; exact P4].
  destruct D7 as [E|[_ L]]; [|left; lia]. destruct P3 as [P3|[P3|[P3 P5]]]; [left; lia|right; left; rewrite E; exact P3|right; right; rewrite E; auto].
Qed.
(** C82. Whatever rules take place, in whatever order, every match is a zone of the input that is not empty (only the type, the mimetype and
    private separators may have no length), if the patterns gave such matches *)
Theorem C82_placed context s markers ms ms' : markers_ok s markers -> (forall m, In m ms -> placed s m) -> runs_rules context s markers ms ms' -> forall m, In m ms' -> placed s m.
Proof.
  intros M I R. induction R as [|ms1 ms2 R IH S]; [exact I|]. intros m Hm. destruct (step_grows context s markers ms1 IH M ms2 S m Hm) as [D|[F _]]; [eapply derived_placed; eauto|exact F].
Qed.
Print Assumptions C82_placed.
(** C83. Every name in the result was given by a pattern, or belongs to a property that is enabled, or is one of the few names that are not checked *)
Theorem C83_names context s markers ms ms' : markers_ok s markers -> (forall m, In m ms -> placed s m) -> runs_rules context s markers ms ms' ->
  forall m, In m ms' -> (exists m0, In m0 ms /\ m_name m0 = m_name m) \/ on context (m_name m) \/ unchecked context ms (m_name m).
Proof.
  intros M I R.
  assert (G : (forall m, In m ms' -> (exists m0, In m0 ms /\ m_name m0 = m_name m) \/ allowed context ms (m_name m)) /\ forall m, In m ms' -> tag "weak-episode" m -> exists m0, In m0 ms /\ tag "weak-episode" m0); [|apply G].
  induction R as [|ms1 ms2 R IH S].
  - split; [intros m Hm; left; exists m; auto|intros m Hm T; exists m; auto].
  - destruct IH as [IH1 IH2]. pose proof (step_grows context s markers ms1 (C82_placed _ _ _ _ _ M I R) M ms2 S) as G.
    assert (A : forall n, allowed context ms1 n -> allowed context ms n).
    { intros n [H|H]; [left; exact H|right]. unfold unchecked in *. destruct H as [H|[H|[H|[H|[H|(H1 & m & Hm & T)]]]]]; auto 6. do 5 right. split; [exact H1|]. eapply IH2; eauto. }
    split.
    + intros m Hm. destruct (G m Hm) as [(m1 & H1 & _ & _ & _ & _ & _ & _ & [E|[E _]])|(_ & [E|(m1 & H1 & E)] & _)]; [rewrite E; apply IH1; exact H1|right; auto|right; auto|rewrite <- E; apply IH1; exact H1].
    + intros m Hm T. destruct (G m Hm) as [(m1 & H1 & _ & _ & _ & _ & _ & W & _)|(_ & _ & W)]; [apply (IH2 m1 H1), W, T|]. destruct (W T) as (m1 & H1 & T1). eapply IH2; eauto.
Qed.
Print Assumptions C83_names.
(** An excluded property that no pattern gives is not in the result, apart from the names that are not checked *)
Theorem C83_excluded context s markers ms ms' n : markers_ok s markers -> (forall m, In m ms -> placed s m) -> runs_rules context s markers ms ms' ->
  is_disabled context n = Ok true -> (forall m, In m ms -> m_name m <> n) -> ~ unchecked context ms n -> forall m, In m ms' -> m_name m <> n.
Proof.
  intros M I R D N U m Hm E. destruct (C83_names _ _ _ _ _ M I R m Hm) as [(m0 & H0 & E0)|[O|O]]; [apply (N m0 H0); congruence| |apply U; rewrite <- E; exact O]. rewrite E in O. unfold on in O. congruence.
Qed.
Print Assumptions C83_excluded.
(** the properties that are never unchecked *)
Corollary C83_always context s markers ms ms' n : markers_ok s markers -> (forall m, In m ms -> placed s m) -> runs_rules context s markers ms ms' ->
  one_of ["audio_codec"; "audio_profile"; "audio_channels"; "video_codec"; "video_profile"; "video_api"; "screen_size"; "aspect_ratio"; "frame_rate"; "audio_bit_rate"; "video_bit_rate"; "source"; "streaming_service"; "website"; "release_group"; "language";
    "subtitle_language"; "country"; "container"; "other"; "edition"; "cd"; "cd_count"; "part"; "film"; "film_title"; "bonus"; "disc"; "date"; "week"; "crc32"; "uuid"; "size"; "version"; "episode_details"; "episode_format"; "mimetype"; "type"]%string n ->
  is_disabled context n = Ok true -> (forall m, In m ms -> m_name m <> n) -> forall m, In m ms' -> m_name m <> n.
Proof.
  intros M I R (t & T & ->) D N. eapply C83_excluded; eauto. clear - T. intros [(u & U & E)|[[(u & U & E) _]|[[E _]|[[E _]|[[E _]|[E _]]]]]].
  - cbn in T, U. repeat (destruct U as [<-|U]; [repeat (destruct T as [<-|T]; [discriminate|]); destruct T|]). destruct U.
  - cbn in T, U. repeat (destruct U as [<-|U]; [repeat (destruct T as [<-|T]; [discriminate|]); destruct T|]). destruct U.
  - cbn in T. repeat (destruct T as [<-|T]; [discriminate|]). destruct T.
  - cbn in T. repeat (destruct T as [<-|T]; [discriminate|]). destruct T.
  - cbn in T. repeat (destruct T as [<-|T]; [discriminate|]). destruct T.
  - cbn in T. repeat (destruct T as [<-|T]; [discriminate|]). destruct T.
Qed.
Print Assumptions C83_always.

(** ** Examples *)
Ltac okm := cbn [m_start m_end m_name m_children m_raw_start m_raw_end m_tags m_private List.length simple In]; repeat split; try lia; try (intros ? []); try (intros X; discriminate X); try (vm_compute; reflexivity); try (left; lia).
Ltac placing := intros m Hm; repeat (destruct Hm as [<-|Hm]; [unfold placed; okm; try (apply Nat.leb_le; vm_compute; reflexivity); left; apply Nat.ltb_lt; vm_compute; reflexivity|]); destruct Hm.
Ltac marking := intros g Hg; repeat (destruct Hg as [<-|Hg]; [split; [apply Nat.ltb_lt; vm_compute; reflexivity|]; split; [apply Nat.leb_le; vm_compute; reflexivity|]; repeat (split; [reflexivity|]); intros X; first [discriminate X|split; vm_compute; reflexivity]|]); destruct Hg.
(** a title and the type are added *)
Example C82_ex : let s := lit "My.Show.S01E02.mkv" in
  let ms := [simple 8 11 (lit "season") (MvInt 1) []; simple 11 14 (lit "episode") (MvInt 2) []; simple 15 18 (lit "container") (MvStr (lit "mkv")) []] in
  let markers := [simple 0 18 (lit "path") (MvStr []) []] in
  markers_ok s markers /\ (forall m, In m ms -> placed s m) /\
  runs_rules [] s markers ms (ms ++ [simple 0 8 (lit "title") (MvStr (lit "My Show")) [lit "title"]; simple 18 18 (lit "type") (MvStr (lit "episode")) []]).
Proof.
  cbv zeta. split; [marking|]. split; [placing|]. eapply runs_one; [eapply runs_one; [apply runs_none|]|].
  - apply st_title; [reflexivity|reflexivity|vm_compute; reflexivity].
  - apply st_type. vm_compute. reflexivity.
Qed.
(** Limits: these properties can be in the result although they are excluded *)
Definition excluding (n : string) : dict := [(KS (lit "excludes"), VList [VStr (lit n)])].
Definition leaks (n : string) : Prop := exists s markers ms ms', markers_ok s markers /\ (forall m, In m ms -> placed s m) /\ is_disabled (excluding n) (lit n) = Ok true /\
  step (excluding n) s markers ms ms' /\ (forall m, In m ms -> m_name m <> lit n) /\ exists m, In m ms' /\ m_name m = lit n.
Ltac leaking := split; [marking|]; split; [placing|]; split; [reflexivity|]; split; [|split; [intros m Hm; repeat (destruct Hm as [<-|Hm]; [discriminate|]); destruct Hm|]].
Theorem C83_limit : leaks "episode_count" /\ leaks "season_count" /\ leaks "year" /\ leaks "season" /\ leaks "title" /\ leaks "alternative_title" /\ leaks "proper_count" /\ leaks "bonus_title" /\ leaks "episode_title".
Proof.
  repeat split.
  - exists (lit "Show 2of9"), [simple 0 9 (lit "path") (MvStr []) []], [simple 5 6 (lit "episode") (MvInt 2) []; simple 8 9 (lit "count") (MvInt 9) []]. eexists. leaking; [apply st_count|]. vm_compute. eauto 10.
  - exists (lit "Show S2of9"), [simple 0 10 (lit "path") (MvStr []) []], [simple 6 7 (lit "season") (MvInt 2) []; simple 9 10 (lit "count") (MvInt 9) []]. eexists. leaking; [apply st_count|]. vm_compute. eauto 10.
  - exists (lit "Show S2012"), [simple 0 10 (lit "path") (MvStr []) []], [simple 5 10 (lit "season") (MvInt 2012) []]. eexists. leaking; [apply st_season_year|]. vm_compute. eauto 10.
  - exists (lit "Show 2012 E03"), [simple 0 13 (lit "path") (MvStr []) []], [simple 5 9 (lit "year") (MvInt 2012) []; simple 10 13 (lit "episode") (MvInt 3) []]. eexists. leaking; [apply st_year_season|]. vm_compute. eauto 10.
  - exists (lit "Show S01/E02.mkv"), [simple 0 8 (lit "path") (MvStr []) []; simple 9 16 (lit "path") (MvStr []) []], [simple 5 8 (lit "season") (MvInt 1) []; simple 9 12 (lit "episode") (MvInt 2) []]. eexists. leaking; [apply st_filepart2; reflexivity|]. vm_compute. eauto 10.
  - exists (lit "Film - Other"), [simple 0 12 (lit "path") (MvStr []) []], [simple 7 12 (lit "episode_title") (MvStr (lit "Other")) []]. eexists. leaking; [apply st_rename_title; [reflexivity|vm_compute; reflexivity]|]. vm_compute. eauto 10.
  - exists (lit "Film.PROPER"), [simple 0 11 (lit "path") (MvStr []) []], [simple 5 11 (lit "other") (MvStr (lit "Proper")) []]. eexists. leaking; [apply st_proper; [reflexivity|vm_compute; reflexivity]|]. vm_compute. eauto 10.
  - exists (lit "x01 Making of"), [simple 0 13 (lit "path") (MvStr []) []], [simple 0 3 (lit "bonus") (MvInt 1) []]. eexists. leaking; [apply st_bonus; [reflexivity|vm_compute; reflexivity]|]. vm_compute. eauto 10.
  - exists (lit "Show/Season 1/Pilot E02"), [simple 0 4 (lit "path") (MvStr []) []; simple 5 13 (lit "path") (MvStr []) []; simple 14 23 (lit "path") (MvStr []) []], [simple 5 13 (lit "season") (MvInt 1) []; simple 20 23 (lit "episode") (MvInt 2) []]. eexists. leaking; [apply st_title; [reflexivity|reflexivity|vm_compute; reflexivity]|]. vm_compute. eauto 10.
Qed.
Print Assumptions C83_limit.
(** The formatter of release groups takes characters away *)
From Verif Require Import GroupName GroupNameProofs GroupNameProps.
Lemma C82_takes_away ignored forbidden : takes_away (clean_groupname ignored forbidden).
Proof.
  intros t c H NS. destruct (clean_credits ignored forbidden t) as (u & (a & b & E) & C). apply credits_facts in C as (C & _). destruct (C c H) as [H1| ->]; [|discriminate]. rewrite E. apply in_app_iff. right. apply in_app_iff. left. exact H1.
Qed.
Print Assumptions C82_takes_away.
(** A limit: a forbidden name in brackets gives an empty release group, so that not every text is without it *)
Theorem C82_text_limit : let s := lit "Film.720p.[rip]" in
  let ms := [simple 5 9 (lit "screen_size") (MvStr (lit "720p")) []] in
  let markers := [simple 0 15 (lit "path") (MvStr []) []; simple 10 15 (lit "group") (MvStr []) []] in
  let clean := clean_groupname default_ignored [lit "bonus"; lit "by"; lit "for"; lit "par"; lit "pour"; lit "rip"] in
  step [] s markers ms (ms ++ [group_match clean s [lit "anime"] 11 14]) /\ m_value (group_match clean s [lit "anime"] 11 14) = MvStr [].
Proof.
  cbv zeta. split; [|vm_compute; reflexivity]. match goal with |- step ?c ?s ?mk ?ms ?r => replace r with (SceneReleaseGroup (clean_groupname default_ignored [lit "bonus"; lit "by"; lit "for"; lit "par"; lit "pour"; lit "rip"]) s mk ms) by (vm_compute; reflexivity) end.
  apply st_scene; [reflexivity|apply C82_takes_away].
Qed.
Print Assumptions C82_text_limit.
