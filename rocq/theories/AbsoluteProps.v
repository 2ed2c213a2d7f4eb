(** Absolute episodes: specification and proofs (C71) *)
From Verif Require Import Py PyFacts Text TextFacts Sort Formatters Common Rebulk RebulkFacts RuleSpec Title TitleProofs TitleProps TitleMore EpisodeTitle EpisodeTitleProps HolesMore TitleConflictProps Episodes EpisodesProofs EpisodesProps EpisodeRules EpisodeRulesProps EpisodeWeakProps EpisodeMoreProps EpisodeSolverProps.
From Coq Require Import Arith ZifyBool Sorted Permutation.

(** a pattern with several episodes, one of which is still a match *)
Definition group (ini : mt -> mt) (kids : mt -> list mt) (ms : list mt) (i : mt) : Prop :=
  exists e, In e ms /\ m_name e = lit "episode" /\ several kids (ini e) /\ i = ini e.
Definition two_groups (ini : mt -> mt) (kids : mt -> list mt) (ms : list mt) (a b : mt) : Prop :=
  group ini kids ms a /\ group ini kids ms b /\ a <> b /\ forall i, group ini kids ms i -> i = a \/ i = b.
(** the episodes of a pattern, in the order of the store *)
Definition numbers_of (ini : mt -> mt) (ms : list mt) (i : mt) : list mt := filter (fun m => mt_eqb (ini m) i) (filter (has_name (lit "episode")) ms).
(** equal patterns are the same object *)
Definition ini_ok (ini : mt -> mt) (ms : list mt) : Prop := forall x y, In x ms -> In y ms -> mkey (ini x) = mkey (ini y) -> ini x = ini y.

Lemma initiators_In ini kids ms i : ini_ok ini ms -> In i (initiators ini kids ms) <-> group ini kids ms i.
Proof.
  intros U. unfold initiators. set (l := filter _ (map ini (named (lit "episode") ms))).
  assert (L : forall i, In i l <-> group ini kids ms i).
  { intros j. unfold l, group, several. rewrite filter_In, in_map_iff, Nat.ltb_lt. unfold named. split.
    - intros [(e & <- & He) H]. apply filter_In in He as [He Hn]. apply has_name_iff in Hn. exists e. auto.
    - intros (e & H1 & H2 & H3 & ->). split; [exists e; split; [reflexivity|]; apply filter_In; split; [exact H1|apply has_name_iff; exact H2]|exact H3]. }
  rewrite <- L. split.
  - intros H. apply merge_new_sub in H as [[]|H]. exact H.
  - intros H. destruct (proj2 (merge_new_key [] l (mkey i))) as (x & Hx & Ex); [exists i; auto|]. assert (x = i); [|congruence]. assert (Hx' := Hx). apply merge_new_sub in Hx' as [[]|Hx'].
    apply L in Hx' as (e & E1 & _ & _ & ->). apply L in H as (e' & E1' & _ & _ & ->). apply U; assumption.
Qed.
Lemma initiators_two s ini kids markers ms a b : ini_ok ini ms -> two_groups ini kids ms a b -> m_end a < m_end b -> absolute s ini kids markers ms = absolute_groups s ini ms a b.
Proof.
  intros U (A & B & N & T) E. unfold absolute. set (l := initiators ini kids ms). set (q := isort (fun a b => m_end a <=? m_end b) l).
  assert (P : Permutation q l) by apply isort_perm.
  assert (S : StronglySorted (fun a b => (m_end a <=? m_end b) = true) q) by (apply isort_sorted; intros; lia).
  assert (D : NoDup q) by (eapply Permutation_NoDup; [symmetry; exact P|]; apply distinct_NoDup; apply merge_new_distinct; constructor).
  assert (I : forall i, In i q <-> i = a \/ i = b).
  { intros i. assert (In i q <-> In i l) as -> by (split; apply Permutation_in; [exact P|symmetry; exact P]). unfold l. rewrite initiators_In by exact U. split; [apply T|intros [-> | ->]; assumption]. }
  destruct q as [|x [|y [|z r]]].
  - destruct (proj2 (I a) (or_introl eq_refl)).
  - exfalso. destruct (proj2 (I a) (or_introl eq_refl)) as [->|[]]. destruct (proj2 (I b) (or_intror eq_refl)) as [->|[]]. contradiction.
  - apply NoDup_cons_iff in D as [D _]. apply StronglySorted_inv in S as [_ S]. rewrite Forall_forall in S. specialize (S y (or_introl eq_refl)). cbv beta in S.
    destruct (proj1 (I x) (or_introl eq_refl)) as [->| ->], (proj1 (I y) (or_intror (or_introl eq_refl))) as [->| ->]; [destruct D; left; reflexivity|reflexivity|lia|destruct D; left; reflexivity].
  - exfalso. apply NoDup_cons_iff in D as [D1 D]. apply NoDup_cons_iff in D as [D2 _].
    assert (Hx := proj1 (I x) (or_introl eq_refl)). assert (Hy := proj1 (I y) (or_intror (or_introl eq_refl))). assert (Hz := proj1 (I z) (or_intror (or_intror (or_introl eq_refl)))).
    assert (x <> y) by (intros ->; apply D1; left; reflexivity). assert (x <> z) by (intros ->; apply D1; right; left; reflexivity). assert (y <> z) by (intros ->; apply D2; left; reflexivity).
    destruct Hx, Hy, Hz; congruence.
Qed.
Lemma initiators_other s ini kids markers ms : ini_ok ini ms -> (forall a b, ~ two_groups ini kids ms a b) -> absolute s ini kids markers ms = joins (map (absolute_part s ini ms) (parts_of markers)).
Proof.
  intros U N. unfold absolute. set (l := initiators ini kids ms). set (q := isort (fun a b => m_end a <=? m_end b) l).
  assert (P : Permutation q l) by apply isort_perm.
  assert (D : NoDup q) by (eapply Permutation_NoDup; [symmetry; exact P|]; apply distinct_NoDup; apply merge_new_distinct; constructor).
  assert (I : forall i, In i q <-> group ini kids ms i).
  { intros i. assert (In i q <-> In i l) as -> by (split; apply Permutation_in; [exact P|symmetry; exact P]). unfold l. apply initiators_In. exact U. }
  destruct q as [|x [|y [|z r]]]; try reflexivity. exfalso. apply (N x y). split; [apply I; left; reflexivity|]. split; [apply I; right; left; reflexivity|].
  split; [intros ->; apply NoDup_cons_iff in D as [D _]; apply D; left; reflexivity|]. intros i Hi. apply I in Hi as [->|[->|[]]]; auto.
Qed.
Lemma numbers_In ini ms i e : In e (numbers_of ini ms i) <-> In e ms /\ m_name e = lit "episode" /\ mkey (ini e) = mkey i.
Proof. unfold numbers_of. rewrite !filter_In, has_name_iff, mt_eqb_eq. tauto. Qed.

Lemma rename_removed n l ms : distinct ms -> agree l ms -> rename_all n l ms = rename_all n (removed l ms) ms.
Proof.
  intros D G. destruct (removed_spec l ms D) as (A & B & C).
  unfold rename_all. rewrite (removed_all (removed l ms) ms D A) by (intros x Hx; apply removed_In in Hx; tauto). f_equal. rewrite !remove_all_filter by exact D. apply filter_ext_In. intros x Hx. f_equal.
  apply Bool.eq_true_iff_eq. rewrite !mmem_iff. split.
  - intros (y & Y1 & Y2). destruct (C y x Y1 Hx (eq_sym Y2)) as (z & Z1 & Z2). exists z. split; [exact Z1|congruence].
  - intros (y & Y1 & Y2). destruct (B y Y1) as [H _]. exists y. auto.
Qed.
Lemma remove_app l : forall P Q, (forall r x, In r l -> In x Q -> mkey r <> mkey x) -> remove_all l (P ++ Q) = remove_all l P ++ Q.
Proof.
  unfold remove_all. induction l as [|r l IH]; intros P Q H; cbn [fold_left]; [reflexivity|].
  assert (E : remove1 r (P ++ Q) = remove1 r P ++ Q).
  { induction P as [|x P IHP]; cbn [app remove1]; [|destruct (mt_eqb r x); [reflexivity|rewrite IHP; reflexivity]].
    assert (K : forall x, In x Q -> mt_eqb r x = false) by (intros x Hx; destruct (mt_eqb r x) eqn:E; [apply mt_eqb_eq in E; destruct (H r x); auto; left; reflexivity|reflexivity]).
    clear -K. induction Q as [|x Q IHQ]; cbn [remove1]; [reflexivity|]. rewrite K by (left; reflexivity). rewrite IHQ by (intros y Hy; apply K; right; exact Hy). reflexivity. }
  rewrite E. apply IH. intros x y Hx; apply H; right; exact Hx.
Qed.
(** two groups of as many episodes, with nothing but separators or matches between: the one with the greater first number is absolute *)
Theorem C71_groups s ini kids markers ms a b x y la lb : ep_ok s markers ms -> ini_ok ini ms -> two_groups ini kids ms a b -> m_end a < m_end b -> m_start b <= List.length s ->
  numbers_of ini ms a = x :: la -> numbers_of ini ms b = y :: lb ->
  (adjacent s ms (m_end a) (m_start b) /\ List.length la = List.length lb ->
     forall i, (i = b /\ (num x < num y)%Z) \/ (i = a /\ (num y < num x)%Z) ->
     forall m, In m (RenameToAbsoluteEpisode s ini kids markers ms) <-> (In m ms /\ ~ In m (numbers_of ini ms i)) \/ exists e, In e (numbers_of ini ms i) /\ m = set_name e (lit "absolute_episode")) /\
  (~ adjacent s ms (m_end a) (m_start b) \/ List.length la <> List.length lb \/ num x = num y -> RenameToAbsoluteEpisode s ini kids markers ms = ms).
Proof.
  intros W U T E B Ea Eb. unfold RenameToAbsoluteEpisode. rewrite (initiators_two s ini kids markers ms a b U T E). unfold absolute_groups.
  unfold named. change (filter (fun m : mt => mt_eqb (ini m) a) (filter (has_name (lit "episode")) ms)) with (numbers_of ini ms a).
  change (filter (fun m : mt => mt_eqb (ini m) b) (filter (has_name (lit "episode")) ms)) with (numbers_of ini ms b).
  pose proof (not_text s ms (m_end a) (m_start b) (eo_nonempty _ _ _ W) (eo_inside _ _ _ W) B) as NT.
  assert (Nil : remove_all [] (rename_all (lit "absolute_episode") [] ms) = ms) by reflexivity.
  split.
  - intros [Adj Len] i Hi m. apply NT in Adj. rewrite Adj, Ea, Eb. cbn [List.length]. rewrite (proj2 (Nat.eqb_eq _ _)) by lia. rewrite <- Ea, <- Eb.
    assert (G : In m (remove_all (snd (numbers_of ini ms i, @nil mt)) (rename_all (lit "absolute_episode") (fst (numbers_of ini ms i, @nil mt)) ms)) <-> (In m ms /\ ~ In m (numbers_of ini ms i)) \/ exists e, In e (numbers_of ini ms i) /\ m = set_name e (lit "absolute_episode")).
    { cbn [fst snd]. unfold remove_all. cbn [fold_left]. apply rename_In; [apply W|apply distinct_filter, distinct_filter; apply W|intros z Hz; apply numbers_In in Hz; tauto|]. intros z Hz. apply numbers_In in Hz as (_ & -> & _). discriminate. }
    destruct Hi as [[-> H]|[-> H]].
    + assert ((num x <? num y)%Z = true) as -> by lia. exact G.
    + assert ((num x <? num y)%Z = false) as -> by lia. assert ((num y <? num x)%Z = true) as -> by lia. exact G.
  - intros H. destruct (negb (text_between s ms (m_end a) (m_start b))) eqn:Adj; [|exact Nil]. rewrite Ea, Eb. cbn [List.length].
    destruct (S (List.length la) =? S (List.length lb)) eqn:Len; [|exact Nil]. apply Nat.eqb_eq in Len.
    destruct H as [H|[H|H]]; [destruct H; apply NT; reflexivity|lia|]. rewrite H, Z.ltb_irrefl. exact Nil.
Qed.
(** otherwise, in each part with an episode that ends after its first character: what the pattern of three digits made at the start is
    absolute, unless the part has a SxxExx episode: then it goes *)
Definition starts_absolute (ini : mt -> mt) (ms : list mt) (part m : mt) : Prop :=
  In m ms /\ m_start m = m_start part /\ made_by ini "weak_episode" m /\
  exists e, In e ms /\ m_name e = lit "episode" /\ m_start e < m_end part /\ m_start part + 1 < m_end e.
Definition marked_after (ms : list mt) (part : mt) : Prop :=
  exists e, In e ms /\ m_name e = lit "episode" /\ tag "SxxExx" e /\ m_start e < m_end part /\ m_start part + 1 < m_end e.
Lemma marked_dec ms part : {marked_after ms part} + {~ marked_after ms part}.
Proof.
  destruct (existsb (fun e => has_name (lit "episode") e && has_tag (lit "SxxExx") e && (m_start e <? m_end part) && (m_start part + 1 <? m_end e)) ms) eqn:E.
  - left. apply existsb_exists in E as (e & H1 & H2). rewrite !Bool.andb_true_iff, has_name_iff, has_tag_iff, !Nat.ltb_lt in H2. exists e. unfold tag. tauto.
  - right. intros (e & H1 & H2 & H3 & H4 & H5). apply Bool.not_true_iff_false in E. apply E. apply existsb_exists. exists e. split; [exact H1|]. rewrite !Bool.andb_true_iff, has_name_iff, has_tag_iff, !Nat.ltb_lt. unfold tag in H3. tauto.
Qed.
Theorem C71_part s ini kids markers ms m : ep_ok s markers ms -> ini_ok ini ms -> (forall a b, ~ two_groups ini kids ms a b) ->
  (forall x, In x ms -> m_name x <> lit "absolute_episode") ->
  In m (RenameToAbsoluteEpisode s ini kids markers ms) <->
  (In m ms /\ ~ exists part, path_part markers part /\ starts_absolute ini ms part m) \/
  exists part c, path_part markers part /\ starts_absolute ini ms part c /\ ~ marked_after ms part /\ m = set_name c (lit "absolute_episode").
Proof.
  intros W U N Hn. unfold RenameToAbsoluteEpisode. rewrite (initiators_other s ini kids markers ms U N), joins_eq. cbn [fst snd]. rewrite !map_map.
  set (ren := List.concat (map (fun x => fst (absolute_part s ini ms x)) (parts_of markers))). set (rem := List.concat (map (fun x => snd (absolute_part s ini ms x)) (parts_of markers))).
  assert (K : forall part, path_part markers part -> (forall c, In c (fst (absolute_part s ini ms part)) <-> starts_absolute ini ms part c /\ ~ marked_after ms part) /\
                                                    (forall c, In c (snd (absolute_part s ini ms part)) <-> starts_absolute ini ms part c /\ marked_after ms part)).
  { intros part HP. unfold absolute_part. assert (B : m_end part <= List.length s) by (apply (eo_markers _ _ _ W); apply HP).
    assert (E1 : nonnil (range s ms (m_start part + 1) (m_end part) (has_name (lit "episode"))) = true <-> exists e, In e ms /\ m_name e = lit "episode" /\ m_start e < m_end part /\ m_start part + 1 < m_end e).
    { rewrite nonnil_ex. split; intros (e & H); exists e; [apply range_In' in H; [|apply W|exact B]; rewrite has_name_iff in H|apply range_In'; [apply W|exact B|]; rewrite has_name_iff]; tauto. }
    assert (E2 : nonnil (range s ms (m_start part + 1) (m_end part) (fun m => has_name (lit "episode") m && sxxexx m)) = true <-> marked_after ms part).
    { rewrite nonnil_ex. unfold marked_after, tag. split; intros (e & H); exists e; [apply range_In' in H; [|apply W|exact B]|apply range_In'; [apply W|exact B|]]; unfold sxxexx in *; rewrite Bool.andb_true_iff, has_name_iff, has_tag_iff in *; tauto. }
    assert (C : forall c, In c (filter (fun m => has_name (lit "weak_episode") (ini m)) (starting (m_start part) ms)) <-> In c ms /\ m_start c = m_start part /\ made_by ini "weak_episode" c).
    { intros c. unfold starting, made_by. rewrite !filter_In, Nat.eqb_eq, has_name_iff. tauto. }
    destruct (nonnil (range s ms (m_start part + 1) (m_end part) (has_name (lit "episode")))).
    - destruct (proj1 E1 eq_refl) as (e0 & H0). destruct (nonnil (range s ms (m_start part + 1) (m_end part) (fun m => has_name (lit "episode") m && sxxexx m))); cbn [fst snd]; split; intros c.
      + split; [intros []|intros [_ H]; destruct H; apply E2; reflexivity].
      + rewrite C. unfold starts_absolute. split; [intros (C1 & C2 & C3); split; [|apply E2; reflexivity]; repeat (split; [assumption|]); exists e0; exact H0|tauto].
      + rewrite C. unfold starts_absolute. split; [intros (C1 & C2 & C3); split; [|intros H; apply E2 in H; discriminate]; repeat (split; [assumption|]); exists e0; exact H0|tauto].
      + split; [intros []|intros [_ H]; apply E2 in H; discriminate].
    - cbn [fst snd]. split; intros c; (split; [intros []|]); intros [(_ & _ & _ & H) _]; apply E1 in H; discriminate. }
  assert (RN : forall c, In c ren <-> exists part, path_part markers part /\ starts_absolute ini ms part c /\ ~ marked_after ms part).
  { intros c. unfold ren. rewrite concat_parts. split; intros (part & HP & H); exists part; (split; [exact HP|]); apply (proj1 (K part HP)); exact H. }
  assert (RM : forall c, In c rem <-> exists part, path_part markers part /\ starts_absolute ini ms part c /\ marked_after ms part).
  { intros c. unfold rem. rewrite concat_parts. split; intros (part & HP & H); exists part; (split; [exact HP|]); apply (proj2 (K part HP)); exact H. }
  assert (RI : forall c, In c ren -> In c ms) by (intros c H; apply RN in H as (part & _ & H & _); apply H).
  assert (MI : forall c, In c rem -> In c ms) by (intros c H; apply RM in H as (part & _ & H & _); apply H).
  assert (AG : agree ren ms) by (intros x y Hx Hy; apply (distinct_inj ms); auto; apply W).
  destruct (removed_spec ren ms (eo_distinct _ _ _ W)) as (A & B & C). pose proof (fun x => removed_In ren ms x (eo_distinct _ _ _ W) AG) as RV.
  assert (E : rename_all (lit "absolute_episode") ren ms = filter (fun x => negb (mmem x (removed ren ms))) ms ++ map (fun c => set_name c (lit "absolute_episode")) (removed ren ms)).
  { rewrite rename_removed by (try apply W; exact AG). apply rename_all_eq; [apply W|exact A|intros x Hx; apply RV in Hx; tauto|intros x Hx; apply Hn; apply RV in Hx; tauto]. }
  rewrite E, remove_app.
  2: { intros r x Hr Hx Ek. apply in_map_iff in Hx as (c & <- & Hc). apply (Hn r (MI r Hr)). unfold mkey in Ek. injection Ek as _ _ Ek _ _. exact Ek. }
  rewrite in_app_iff, in_map_iff, remove_any by (apply distinct_filter; apply W). rewrite filter_In, Bool.negb_true_iff, mmem_false. split.
  - intros [[[H1 H2] H3]|(c & <- & Hc)].
    + left. split; [exact H1|]. intros (part & HP & S). destruct (marked_dec ms part) as [M|M].
      * apply (H3 m); [apply RM; exists part; auto|reflexivity].
      * apply (H2 m); [apply RV; split; [apply RN; exists part; auto|exact H1]|reflexivity].
    + right. apply RV in Hc as [Hc _]. apply RN in Hc as (part & HP & H). exists part, c. tauto.
  - intros [[H1 H2]|(part & c & HP & S & M & ->)].
    + left. split; [split; [exact H1|]|].
      * intros x Hx Ex. apply RV in Hx as [Hx Hx']. assert (x = m) by (apply (distinct_inj ms); auto; apply W). subst x. apply RN in Hx as (part & HP & S & _). apply H2. exists part. auto.
      * intros r Hr Er. assert (r = m) by (apply (distinct_inj ms); auto; apply W). subst r. apply RM in Hr as (part & HP & S & _). apply H2. exists part. auto.
    + right. exists c. split; [reflexivity|]. apply RV. split; [apply RN; exists part; auto|apply S].
Qed.

(** ** cases that meet the hypotheses, and a limit *)
(** S02E04-06 25-27, with the two numbers of each end *)
Definition e71 (a b : nat) (z : Z) : mt := simple a b (lit "episode") (MvInt z) [].
Definition ms71 : list mt := [e71 4 6 4; e71 7 9 6; e71 10 12 25; e71 13 15 27].
Definition i71 (m : mt) : mt := if m_start m <? 10 then simple 0 9 (lit "a") (MvStr []) [] else simple 10 15 (lit "b") (MvStr []) [].
Definition k71 (m : mt) : list mt := if m_start m <? 10 then [e71 4 6 4; e71 7 9 6] else [e71 10 12 25; e71 13 15 27].
Example C71_ex_groups : RenameToAbsoluteEpisode (lit "S02E04-06 25-27") i71 k71 [simple 0 15 (lit "path") (MvStr []) []] ms71 =
  [e71 4 6 4; e71 7 9 6; set_name (e71 10 12 25) (lit "absolute_episode"); set_name (e71 13 15 27) (lit "absolute_episode")] /\
  ep_ok (lit "S02E04-06 25-27") [simple 0 15 (lit "path") (MvStr []) []] ms71 /\ ini_ok i71 ms71 /\
  two_groups i71 k71 ms71 (simple 0 9 (lit "a") (MvStr []) []) (simple 10 15 (lit "b") (MvStr []) []) /\
  adjacent (lit "S02E04-06 25-27") ms71 9 10.
Proof.
  split; [vm_compute; reflexivity|]. split; [unfold ms71; ep_ok_t|]. split; [intros x y Hx Hy E; unfold ms71 in *; each_in; try reflexivity; discriminate|]. split.
  - split; [exists (e71 4 6 4); split; [left; reflexivity|]; split; [reflexivity|]; split; [unfold several; vm_compute; lia|reflexivity]|].
    split; [exists (e71 10 12 25); split; [right; right; left; reflexivity|]; split; [reflexivity|]; split; [unfold several; vm_compute; lia|reflexivity]|].
    split; [discriminate|]. intros i (e & He & _ & _ & ->). unfold ms71 in He. each_in; auto.
  - intros j c Hj Hc _. assert (j = 9) by lia. subst j. injection Hc as <-. reflexivity.
Qed.
(** 112.Show.S01E02: the number at the start goes; 112 alone at the start is said absolute, though there is no other episode *)
Definition w71 : mt := simple 0 3 (lit "episode") (MvInt 112) [lit "weak-episode"].
Example C71_ex_marked : RenameToAbsoluteEpisode (lit "112.Show.S01E02") (fun m => simple (m_start m) (m_end m) (if weak_ep m then lit "weak_episode" else []) (MvStr []) []) (fun _ => [])
    [simple 0 15 (lit "path") (MvStr []) []] [w71; simple 13 15 (lit "episode") (MvInt 2) [lit "SxxExx"]] = [simple 13 15 (lit "episode") (MvInt 2) [lit "SxxExx"]].
Proof. vm_compute. reflexivity. Qed.
Theorem C71_limit : exists s ini kids markers e, ep_ok s markers [e] /\ s = lit "112.Show" /\ m_name e = lit "episode" /\ m_value e = MvInt 112 /\
  RenameToAbsoluteEpisode s ini kids markers [e] = [set_name e (lit "absolute_episode")].
Proof.
  exists (lit "112.Show"), (fun m => simple 0 3 (lit "weak_episode") (MvStr []) []), (fun _ => []), [simple 0 8 (lit "path") (MvStr []) []], w71.
  split; [ep_ok_t|]. split; [reflexivity|]. split; [reflexivity|]. split; [reflexivity|]. vm_compute. reflexivity.
Qed.

Print Assumptions C71_groups.
Print Assumptions C71_part.
Print Assumptions C71_limit.
