(** Weak episode numbers after technical words, in films, in duplicate: specification and proofs (C63, C66) *)
From Verif Require Import Py PyFacts Text TextFacts Sort Formatters Common Rebulk RebulkFacts RuleSpec Title TitleProofs TitleProps TitleMore EpisodeTitle EpisodeTitleProps HolesMore TitleConflictProps Episodes EpisodesProofs EpisodesProps EpisodeRules EpisodeRulesProps.
From Coq Require Import Arith ZifyBool Sorted Permutation.

(** ** vocabulary *)
(** [x] is, of the matches of the zone that satisfy [P], one that starts first, and ends first of those *)
Definition leftmost (ms : list mt) (a b : nat) (P : mt -> Prop) (x : mt) : Prop :=
  (In x ms /\ m_start x < b /\ a < m_end x /\ P x) /\ forall y, In y ms -> m_start y < b -> a < m_end y -> P y -> pos_le x y.
Lemma leftmost_range s ms a b p (P : mt -> Prop) : inside s ms -> b <= List.length s -> (forall m, p m = true <-> P m) ->
  match first (range s ms a b p) with
  | Some x => leftmost ms a b P x
  | None => forall y, In y ms -> m_start y < b -> a < m_end y -> ~ P y
  end.
Proof.
  intros I B HP. pose proof (range_first s ms a b p I B) as R. destruct (first (range s ms a b p)) as [x|].
  - destruct R as [(A1 & A2 & A3 & A4) R]. split; [rewrite <- HP; auto|]. intros y Y1 Y2 Y3 Y4. apply mt_le_iff. apply R; auto. apply HP; exact Y4.
  - intros y Y1 Y2 Y3 Y4. apply HP in Y4. rewrite (R y Y1 Y2 Y3) in Y4. discriminate.
Qed.
Lemma leftmost_span ms a b P x y : leftmost ms a b P x -> leftmost ms a b P y -> m_start x = m_start y /\ m_end x = m_end y.
Proof. intros [(A1 & A2 & A3 & A4) A] [(B1 & B2 & B3 & B4) B]. specialize (A y B1 B2 B3 B4). specialize (B x A1 A2 A3 A4). unfold pos_le in *. lia. Qed.
Lemma leftmost_some s ms a b p (P : mt -> Prop) y : inside s ms -> b <= List.length s -> (forall m, p m = true <-> P m) -> In y ms -> m_start y < b -> a < m_end y -> P y ->
  exists x, first (range s ms a b p) = Some x /\ leftmost ms a b P x.
Proof.
  intros I B HP Y1 Y2 Y3 Y4. pose proof (leftmost_range s ms a b p P I B HP) as R. destruct (first (range s ms a b p)) as [x|]; [exists x; auto|]. destruct (R y Y1 Y2 Y3 Y4).
Qed.

(** ** C63: after a technical word *)
Definition technical (p : mt) : Prop :=
  m_name p = lit "audio_codec" \/ m_name p = lit "screen_size" \/ m_name p = lit "streaming_service" \/ m_name p = lit "source" \/
  m_name p = lit "video_profile" \/ m_name p = lit "audio_channels" \/ m_name p = lit "audio_profile".
Definition first_weak (ms : list mt) (part w : mt) : Prop := leftmost ms (m_start part) (m_end part) (tag "weak-episode") w.
(** a technical match is next before it, with only separators or other matches between *)
Definition after_technical (s : str) (ms : list mt) (w p : mt) : Prop := just_before ms w p /\ technical p /\ adjacent s ms (m_end p) (m_start w).
Lemma technical_iff p : smem (m_name p) technical_names = true <-> technical p.
Proof.
  unfold technical_names, technical. rewrite smem_In. cbn [In].
  split; [intros [H|[H|[H|[H|[H|[H|[H|[]]]]]]]]; auto 10|intros [H|[H|[H|[H|[H|[H|H]]]]]]; auto 10].
Qed.

Lemma remove_weak_part_spec s words markers ms part : ep_ok s markers ms -> path_part markers part ->
  (remove_weak_part s words ms part = ([], []) /\ forall w p, first_weak ms part w -> ~ after_technical s ms w p) \/
  exists w p, first_weak ms part w /\ after_technical s ms w p /\ fst (remove_weak_part s words ms part) = in_part_of s ms part weak_ep /\
    snd (remove_weak_part s words ms part) = (if smem (lower (m_raw s p)) words then match worded p w with Some e => [e] | None => [] end else []).
Proof.
  intros W HP. unfold remove_weak_part.
  assert (B : m_end part <= List.length s) by (apply (eo_markers _ _ _ W); apply HP).
  pose proof (leftmost_range s ms (m_start part) (m_end part) weak_ep (tag "weak-episode") (eo_inside _ _ _ W) B (fun m => has_tag_iff _ m)) as L.
  fold (in_part_of s ms part weak_ep) in L. destruct (in_part_of s ms part weak_ep) as [|w rest] eqn:E; cbn [first hd_error] in L.
  { left. split; [reflexivity|]. intros w p [(A1 & A2 & A3 & A4) _]. destruct (L w A1 A2 A3 A4). }
  assert (F : forall w' p, first_weak ms part w' -> after_technical s ms w' p -> after_technical s ms w p).
  { intros w' p Hw (J & T & A). destruct (leftmost_span _ _ _ _ _ _ L Hw) as [E1 _]. unfold after_technical, just_before in *. rewrite E1. auto. }
  destruct (first (previous w ms (fun m => smem (m_name m) technical_names))) as [p|] eqn:Ep.
  - apply hd_error_In in Ep. apply previous_In in Ep as (P1 & P2 & P3 & P4). apply technical_iff in P1.
    assert (Bw : m_start w <= List.length s). { destruct L as [(L1 & _) _]. pose proof (eo_inside _ _ _ W w L1). pose proof (eo_nonempty _ _ _ W w L1). lia. }
    assert (m_truthy p = true) as -> by (unfold m_truthy; apply Nat.ltb_lt; apply (eo_nonempty _ _ _ W); exact P2). cbn [andb].
    pose proof (not_text s ms (m_end p) (m_start w) (eo_nonempty _ _ _ W) (eo_inside _ _ _ W) Bw) as NT.
    destruct (negb (text_between s ms (m_end p) (m_start w))) eqn:ET.
    + right. exists w, p. split; [exact L|]. split; [split; [split; auto|split; [exact P1|apply NT; reflexivity]]|]. split; reflexivity.
    + left. split; [reflexivity|]. intros w' q Hw HA. apply (F w' q Hw) in HA as (J & T & A). destruct J as (J1 & J2 & J3).
      assert (Eq : m_end q = m_end p) by (specialize (J3 p P2 P3); specialize (P4 q J1 J2); lia). rewrite Eq in A. apply NT in A. discriminate.
  - left. split; [reflexivity|]. intros w' q Hw HA. apply (F w' q Hw) in HA as ((J1 & J2 & J3) & T & A).
    assert (H : In q (previous w ms (fun m => smem (m_name m) technical_names))) by (apply previous_In; split; [apply technical_iff; exact T|auto]).
    destruct (previous w ms (fun m => smem (m_name m) technical_names)); [destruct H|discriminate].
Qed.

Definition follows_technical (s : str) (markers ms : list mt) (m : mt) : Prop :=
  tag "weak-episode" m /\ exists part w p, path_part markers part /\ touches part m /\ first_weak ms part w /\ after_technical s ms w p.
Lemma remove_weak_removed s words markers ms m : ep_ok s markers ms ->
  In m (List.concat (map fst (map (remove_weak_part s words ms) (parts_of markers)))) <-> In m ms /\ follows_technical s markers ms m.
Proof.
  intros W. rewrite map_map, concat_parts. split.
  - intros (part & HP & H). destruct (remove_weak_part_spec s words markers ms part W HP) as [[E _]|(w & p & L & A & E & _)].
    + rewrite E in H. destruct H.
    + rewrite E in H. apply (part_In s markers) in H as (H1 & H2 & H3); [|exact W|apply HP]. split; [exact H1|]. split; [apply has_tag_iff; exact H3|]. exists part, w, p. auto.
  - intros (H1 & H2 & part & w & p & HP & HT & L & A). exists part. split; [exact HP|]. destruct (remove_weak_part_spec s words markers ms part W HP) as [[_ N]|(w' & p' & _ & _ & E & _)].
    + destruct (N w p L A).
    + rewrite E. apply (part_In s markers); [exact W|apply HP|]. split; [exact H1|]. split; [exact HT|apply has_tag_iff; exact H2].
Qed.
Lemma apply_In rem add ms m : distinct ms -> (forall x, In x rem -> In x ms) -> In m (append_all add (remove_all rem ms)) ->
  (In m ms /\ ~ In m rem) \/ In m add.
Proof.
  intros D H Hm. destruct (append_all_app add (remove_all rem ms)) as (new & E & N). rewrite E in Hm. apply in_app_iff in Hm as [Hm|Hm]; [left; apply remove_all_In in Hm; auto|right; auto].
Qed.
(** the weak numbers of a part go when the first of them comes after a technical match; nothing else does *)
Theorem C63_technical s words markers ms m : ep_ok s markers ms -> In m ms ->
  In m (RemoveWeak s words markers ms) <-> ~ follows_technical s markers ms m.
Proof.
  intros W Hm. unfold RemoveWeak, apply_change. rewrite joins_eq. cbn [fst snd]. split.
  - intros H F. apply apply_In in H as [[_ H]|H]; [apply H; apply remove_weak_removed; auto| |apply W|intros x Hx; apply remove_weak_removed in Hx; tauto].
    rewrite map_map in H. apply concat_parts in H as (part & HP & H). destruct (remove_weak_part_spec s words markers ms part W HP) as [[E _]|(w & p & L & A & _ & E)]; rewrite E in H; [destruct H|].
    destruct (smem _ _); [|destruct H]. unfold worded in H. destruct (int_value (m_value w)); [|destruct H]. destruct H as [<-|[]]. destruct F as [F _]. destruct F.
  - intros F. apply append_old. apply remove_all_In; [apply W|intros x Hx; apply remove_weak_removed in Hx; tauto|]. split; [exact Hm|]. intros H. apply remove_weak_removed in H; tauto.
Qed.
(** a technical word that is also a word for an episode makes an episode of the number *)
Definition reads (v : mval) (z : Z) : Prop := v = MvInt z \/ exists t, v = MvStr t /\ py_int t = Some z.
Lemma int_value_iff v z : int_value v = Some z <-> reads v z.
Proof.
  unfold int_value, reads. destruct v as [i|t|q u|o|q]; split; intros H; try discriminate; try (destruct H as [H|(t' & H & _)]; discriminate).
  - injection H as ->. auto.
  - destruct H as [H|(t & H & _)]; [injection H as ->; reflexivity|discriminate].
  - right. exists t. auto.
  - destruct H as [H|(t' & H & E)]; [discriminate|]. injection H as ->. exact E.
Qed.
Theorem C63_word s words markers ms e : ep_ok s markers ms -> In e (RemoveWeak s words markers ms) -> ~ In e ms ->
  exists part w p z, path_part markers part /\ first_weak ms part w /\ after_technical s ms w p /\ In (lower (slice (m_raw_start p) (m_raw_end p) s)) words /\
    reads (m_value w) z /\ m_name e = lit "episode" /\ m_value e = MvInt z /\ m_start e = m_start p /\ m_end e = m_end w /\ m_private e = false /\ m_tags e = [].
Proof.
  intros W H N. unfold RemoveWeak, apply_change in H. rewrite joins_eq in H. cbn [fst snd] in H.
  apply apply_In in H as [[H _]|H]; [contradiction| |apply W|intros x Hx; apply remove_weak_removed in Hx; tauto].
  rewrite map_map in H. apply concat_parts in H as (part & HP & H). destruct (remove_weak_part_spec s words markers ms part W HP) as [[E _]|(w & p & L & A & _ & E)]; rewrite E in H; [destruct H|].
  destruct (smem (lower (m_raw s p)) words) eqn:Es; [|destruct H]. unfold worded in H. destruct (int_value (m_value w)) as [z|] eqn:Ez; [|destruct H]. destruct H as [<-|[]].
  exists part, w, p, z. apply smem_In in Es. apply int_value_iff in Ez. cbn. auto 20.
Qed.
(** ... when the number and the word are the only ones at their places *)
Theorem C63_word_made s words markers ms part w p z : ep_ok s markers ms -> path_part markers part -> first_weak ms part w -> after_technical s ms w p ->
  In (lower (slice (m_raw_start p) (m_raw_end p) s)) words -> reads (m_value w) z ->
  (forall w', first_weak ms part w' -> w' = w) -> (forall p', after_technical s ms w p' -> p' = p) ->
  exists e, In e (RemoveWeak s words markers ms) /\ m_name e = lit "episode" /\ m_value e = MvInt z /\ m_start e = m_start p /\ m_end e = m_end w.
Proof.
  intros W HP L A Hw Hz U V. unfold RemoveWeak, apply_change. rewrite joins_eq. cbn [fst snd].
  assert (H : exists e, In e (List.concat (map snd (map (remove_weak_part s words ms) (parts_of markers)))) /\ mkey e = (m_start p, m_end w, lit "episode", MvInt z, m_parent w)).
  { destruct (remove_weak_part_spec s words markers ms part W HP) as [[_ N]|(w' & p' & L' & A' & _ & E)]; [destruct (N w p L A)|]. rewrite (U w' L') in *. rewrite (V p' A') in *. clear w' p' L' A'.
    apply smem_In in Hw. change (slice (m_raw_start p) (m_raw_end p) s) with (m_raw s p) in Hw. rewrite Hw in E. apply int_value_iff in Hz. unfold worded in E. rewrite Hz in E.
    eexists. split; [rewrite map_map; apply concat_parts; exists part; split; [exact HP|]; rewrite E; left; reflexivity|reflexivity]. }
  destruct H as (e & He & K). destruct (proj2 (append_all_keys (List.concat (map snd (map (remove_weak_part s words ms) (parts_of markers)))) (remove_all (List.concat (map fst (map (remove_weak_part s words ms) (parts_of markers)))) ms) (mkey e))) as (x & Hx & Ek).
  { exists e. split; [right; exact He|reflexivity]. }
  exists x. split; [exact Hx|]. rewrite K in Ek. unfold mkey in Ek. injection Ek as E1 E2 E3 E4 _. auto.
Qed.

(** ** C63: in a film *)
Lemma merge_new_distinct b : forall a, distinct a -> distinct (merge_new a b).
Proof.
  unfold merge_new. induction b as [|m b IH]; intros a H; cbn [fold_left]; [exact H|]. apply IH. destruct (mmem m a) eqn:E; [exact H|]. pose proof (proj1 (mmem_false m a) E) as E'. clear E.
  unfold distinct. rewrite map_app. apply NoDup_app_disj; [exact H|repeat constructor; auto|]. intros k Hk [<-|[]]. apply in_map_iff in Hk as (y & Ey & Hy). exact (E' y Hy Ey).
Qed.
Lemma conflict_distinct ms : forall l acc, distinct acc -> distinct (fold_left (fun acc i => merge_new acc (at_index i ms)) l acc).
Proof. induction l as [|i l IH]; intros acc H; cbn [fold_left]; [exact H|]. apply IH. apply merge_new_distinct. exact H. Qed.
Lemma rm_out m : forall l, distinct l -> ~ exists x, In x ((fix rm (l : list mt) := match l with [] => [] | x :: r => if mt_eqb m x then r else x :: rm r end) l) /\ mkey x = mkey m.
Proof.
  induction l as [|y l IH]; intros D (x & Hx & E); [destruct Hx|]. unfold distinct in D. cbn [map] in D. apply NoDup_cons_iff in D as [D1 D2]. destruct (mt_eqb m y) eqn:Ey.
  - apply mt_eqb_eq in Ey. apply D1. rewrite <- Ey, <- E. apply in_map. exact Hx.
  - destruct Hx as [<-|Hx]; [symmetry in E; apply mt_eqb_eq in E; congruence|]. apply (IH D2). exists x. auto.
Qed.

Lemma conflicting_all m ms x : distinct ms -> In m ms -> In x (conflicting m ms (fun _ => true)) <-> In x ms /\ x <> m /\ overlapping m x.
Proof.
  intros D Hm. destruct (mkey_eq_dec (mkey x) (mkey m)) as [E|E].
  - split.
    + intros H. exfalso. unfold conflicting in H. apply filter_In in H as [H _]. eapply rm_out; [|exists x; split; [exact H|exact E]]. apply conflict_distinct. constructor.
    + intros (A & B & _). destruct B. apply (distinct_inj ms); auto.
  - assert (G : In x (conflicting m ms (fun y => negb (mt_eqb y m))) <-> In x (conflicting m ms (fun _ => true))).
    { unfold conflicting. rewrite !filter_In. split; intros [A _]; (split; [exact A|]); [reflexivity|]. destruct (mt_eqb x m) eqn:Ex; [apply mt_eqb_eq in Ex; congruence|reflexivity]. }
    rewrite <- G, conflicting_In; [|exact D|rewrite mt_eqb_refl; reflexivity|exact Hm]. split.
    + intros (A & _ & B). split; [exact A|]. split; [intros ->; congruence|exact B].
    + intros (A & _ & B). split; [exact A|]. split; [|exact B]. destruct (mt_eqb x m) eqn:Ex; [apply mt_eqb_eq in Ex; congruence|reflexivity].
Qed.

Definition first_year (ms : list mt) (part y : mt) : Prop := leftmost ms (m_start part) (m_end part) (fun m => m_name m = lit "year") y.
(** what keeps its weak numbers: the first private match after the year if only separators come between, and whatever has several episodes *)
Definition next_private (s : str) (ms : list mt) (part y n : mt) : Prop :=
  leftmost ms (m_end y) (m_end part) (fun m => m_private m = true) n /\ adjacent s ms (m_end y) (m_start n) /\
  ~ exists g, In g ms /\ m_name g = lit "year" /\ (m_start g <= m_start n < m_end g \/ m_start g < m_end n <= m_end g).
Definition several (kids : mt -> list mt) (m : mt) : Prop := 1 < List.length (filter (has_name (lit "episode")) (kids m)).
Definition safe (s : str) (ini : mt -> mt) (kids : mt -> list mt) (markers ms : list mt) (i : mt) : Prop :=
  exists part y x, path_part markers part /\ first_year ms part y /\ mkey x = mkey i /\
    ((exists n, next_private s ms part y n /\ x = ini n) \/ (In x ms /\ touches part x /\ several kids x)).
(** years, and private matches, at the same place are the same, or of the same pattern *)
Definition one_year (ms : list mt) : Prop := forall x y, In x ms -> In y ms -> m_name x = lit "year" -> m_name y = lit "year" -> m_start x = m_start y -> m_end x = m_end y -> x = y.
Definition one_pattern (ini : mt -> mt) (ms : list mt) : Prop :=
  forall x y, In x ms -> In y ms -> m_private x = true -> m_private y = true -> m_start x = m_start y -> m_end x = m_end y -> mkey (ini x) = mkey (ini y).

Lemma part_year_iff s markers ms part y : ep_ok s markers ms -> one_year ms -> path_part markers part -> part_year s ms part = Some y <-> first_year ms part y.
Proof.
  intros W O HP. unfold part_year, in_part_of.
  assert (B : m_end part <= List.length s) by (apply (eo_markers _ _ _ W); apply HP).
  pose proof (leftmost_range s ms (m_start part) (m_end part) (has_name (lit "year")) (fun m => m_name m = lit "year") (eo_inside _ _ _ W) B (fun m => has_name_iff _ m)) as L.
  destruct (first (range s ms (m_start part) (m_end part) (has_name (lit "year")))) as [x|].
  - assert (m_truthy x = true) as -> by (unfold m_truthy; apply Nat.ltb_lt; apply (eo_nonempty _ _ _ W); apply L). split; [intros E; injection E as <-; exact L|]. intros H. f_equal.
    destruct (leftmost_span _ _ _ _ _ _ L H) as [E1 E2]. destruct L as [(L1 & _ & _ & L2) _], H as [(H1 & _ & _ & H2) _]. apply O; auto.
  - split; [discriminate|]. intros [(A1 & A2 & A3 & A4) _]. destruct (L y A1 A2 A3 A4).
Qed.
Lemma spared_iff s ini kids markers ms part y i : ep_ok s markers ms -> one_pattern ini ms -> path_part markers part -> In y ms ->
  (exists x, In x (spared s ini kids ms part y) /\ mkey x = mkey i) <->
  exists x, mkey x = mkey i /\ ((exists n, next_private s ms part y n /\ x = ini n) \/ (In x ms /\ touches part x /\ several kids x)).
Proof.
  intros W O HP Hy. unfold spared.
  assert (B : m_end part <= List.length s) by (apply (eo_markers _ _ _ W); apply HP).
  assert (S2 : forall x, In x (in_part_of s ms part (fun m => 1 <? List.length (named (lit "episode") (kids m)))) <-> In x ms /\ touches part x /\ several kids x).
  { intros x. rewrite (part_In s markers) by (auto; apply HP). unfold several, named. rewrite Nat.ltb_lt. reflexivity. }
  set (l1 := match first (range s ms (m_end y) (m_end part) m_private) with Some n => _ | None => _ end).
  assert (S1 : (exists x, In x l1 /\ mkey x = mkey i) <-> exists x, mkey x = mkey i /\ exists n, next_private s ms part y n /\ x = ini n).
  { unfold l1. pose proof (leftmost_range s ms (m_end y) (m_end part) m_private (fun m => m_private m = true) (eo_inside _ _ _ W) B (fun m => conj (fun h => h) (fun h => h))) as L.
    assert (Y : forall n, In n ms -> existsb (has_name (lit "year")) (at_match n ms) = true <-> exists g, In g ms /\ m_name g = lit "year" /\ (m_start g <= m_start n < m_end g \/ m_start g < m_end n <= m_end g)).
    { intros n Hn. pose proof (eo_nonempty _ _ _ W n Hn). rewrite existsb_exists. split.
      - intros (x & Hx & E). apply has_name_iff in E. destruct (proj1 (at_match_iff n ms (lit "year"))) as (g & G1 & G2 & G3); [exists x; auto|]. exists g. split; [exact G1|]. split; [exact G2|]. lia.
      - intros (g & G1 & G2 & G3). destruct (proj2 (at_match_iff n ms (lit "year"))) as (x & X1 & X2); [exists g; split; [exact G1|]; split; [exact G2|]; lia|]. exists x. split; [exact X1|apply has_name_iff; exact X2]. }
    destruct (first (range s ms (m_end y) (m_end part) m_private)) as [n|].
    - assert (Hn : In n ms) by apply L. pose proof (eo_nonempty _ _ _ W n Hn) as Ne. pose proof (eo_inside _ _ _ W n Hn) as Ni.
      assert (m_truthy n = true) as -> by (unfold m_truthy; apply Nat.ltb_lt; exact Ne). cbn [andb].
      pose proof (not_text s ms (m_end y) (m_start n) (eo_nonempty _ _ _ W) (eo_inside _ _ _ W) ltac:(lia)) as NT. specialize (Y n Hn).
      destruct (negb (text_between s ms (m_end y) (m_start n)) && negb (existsb (has_name (lit "year")) (at_match n ms))) eqn:E.
      + apply Bool.andb_true_iff in E as [E1 E2]. split.
        * intros (x & [<-|[]] & Ex). exists (ini n). split; [exact Ex|]. exists n. split; [|reflexivity]. split; [exact L|]. split; [apply NT; exact E1|]. rewrite <- Y. destruct (existsb _ _); [discriminate|auto]; intuition discriminate.
        * intros (x & Ex & n' & (N1 & N2 & N3) & ->). exists (ini n). split; [left; reflexivity|]. rewrite <- Ex. destruct (leftmost_span _ _ _ _ _ _ L N1) as [P1 P2].
          destruct L as [(L1 & _ & _ & L2) _], N1 as [(M1 & _ & _ & M2) _]. apply O; auto.
      + split; [intros (x & [] & _)|]. intros (x & Ex & n' & (N1 & N2 & N3) & ->). exfalso. destruct (leftmost_span _ _ _ _ _ _ L N1) as [P1 P2]. rewrite <- P1 in N2. rewrite <- P1, <- P2 in N3. apply NT in N2. rewrite N2 in E.
        rewrite <- Y in N3. destruct (existsb _ _); [auto|discriminate].
    - split; [intros (x & [] & _)|]. intros (x & Ex & n & ([(A1 & A2 & A3 & A4) _] & _) & ->). destruct (L n A1 A2 A3 A4). }
  split.
  - intros (x & Hx & Ex). apply in_app_iff in Hx as [Hx|Hx].
    + destruct (proj1 S1) as (z & Z1 & Z2); [exists x; auto|]. exists z. auto.
    + exists x. split; [exact Ex|]. right. apply S2. exact Hx.
  - intros (x & Ex & [H|H]).
    + destruct (proj2 S1) as (z & Z1 & Z2); [exists x; auto|]. exists z. split; [apply in_app_iff; auto|exact Z2].
    + exists x. split; [apply in_app_iff; right; apply S2; exact H|exact Ex].
Qed.
(** the type asked for in the options *)
Definition asked (context : dict) (t : string) : Prop := dget context (KS (lit "type")) = Some (VStr (lit t)).
Lemma type_is_asked context t : type_is context (lit t) = true <-> asked context t.
Proof.
  unfold type_is, asked, oget. destruct (dget context (KS (lit "type"))) as [v|]; [|split; discriminate].
  split; [|intros H; injection H as ->; apply str_eqb_refl].
  destruct v; try discriminate. cbn [py_eq]. intros H. apply str_eqb_eq in H. congruence.
Qed.
Lemma type_is_not context t : type_is context (lit t) = false <-> ~ asked context t.
Proof. rewrite <- type_is_asked. destruct (type_is _ _); split; congruence. Qed.
(** unless the type is episode: a part with a year drops what overlaps the year; and then the weak numbers, but those of the
    matches to keep and of an anime *)
Theorem C63_movie context s ini kids markers ms m : ep_ok s markers ms -> one_year ms -> one_pattern ini ms ->
  In m (RemoveWeakIfMovie context s ini kids markers ms) <-> In m ms /\
  (~ asked context "episode" ->
     ~ (exists part y, path_part markers part /\ first_year ms part y /\ m <> y /\ overlapping y m) /\
     ~ ((exists part y, path_part markers part /\ first_year ms part y) /\ tag "weak-episode" m /\ ~ tag "anime" m /\ ~ safe s ini kids markers ms (ini m))).
Proof.
  intros W O1 O2. rewrite <- type_is_not. unfold RemoveWeakIfMovie. destruct (type_is context (lit "episode")); [split; [intros H; split; [exact H|discriminate]|tauto]|].
  unfold movie_removed. set (years := filter _ (parts_of markers)). set (ignore := List.concat (map (fun p => match part_year s ms p with Some y => spared s ini kids ms p y | None => [] end) years)).
  assert (PY : forall part y, path_part markers part -> part_year s ms part = Some y <-> first_year ms part y) by (intros; apply (part_year_iff s markers); assumption).
  assert (Yr : forall part, In part years <-> path_part markers part /\ exists y, first_year ms part y).
  { intros part. unfold years. rewrite filter_In, parts_iff. split.
    - intros [A B]. split; [exact A|]. destruct (part_year s ms part) as [y|] eqn:E; [|discriminate]. exists y. apply PY; assumption.
    - intros [A (y & B)]. split; [exact A|]. apply PY in B; [|exact A]. rewrite B. reflexivity. }
  assert (Ig : forall i, mmem i ignore = true <-> safe s ini kids markers ms i).
  { intros i. rewrite mmem_iff. unfold ignore, safe. split.
    - intros (x & Hx & E). apply in_concat in Hx as (l & Hl & Hx). apply in_map_iff in Hl as (part & <- & Hp). apply Yr in Hp as [HP (y & Hy)]. pose proof (proj2 (PY part y HP) Hy) as Ey. rewrite Ey in Hx.
      destruct (proj1 (spared_iff s ini kids markers ms part y i W O2 HP ltac:(apply Hy))) as (z & Z1 & Z2); [exists x; auto|]. exists part, y, z. auto.
    - intros (part & y & x & HP & Hy & E & H). destruct (proj2 (spared_iff s ini kids markers ms part y i W O2 HP ltac:(apply Hy))) as (z & Z1 & Z2); [exists x; auto|].
      exists z. split; [|exact Z2]. apply in_concat. exists (spared s ini kids ms part y). split; [|exact Z1]. apply in_map_iff. exists part. split; [rewrite (proj2 (PY part y HP) Hy); reflexivity|]. apply Yr. split; [exact HP|]. exists y. exact Hy. }
  destruct (nonnil years) eqn:Ny.
  - assert (Ex : exists part y, path_part markers part /\ first_year ms part y) by (apply nonnil_ex in Ny as (part & Hp); apply Yr in Hp as [HP (y & Hy)]; exists part, y; auto).
    set (over := List.concat (map (fun p => match part_year s ms p with Some y => conflicting y ms (fun _ => true) | None => [] end) years)).
    assert (Ov : forall x, In x over <-> In x ms /\ exists part y, path_part markers part /\ first_year ms part y /\ x <> y /\ overlapping y x).
    { intros x. unfold over. rewrite in_concat. split.
      - intros (l & Hl & Hx). apply in_map_iff in Hl as (part & <- & Hp). apply Yr in Hp as [HP (y & Hy)]. rewrite (proj2 (PY part y HP) Hy) in Hx. apply conflicting_all in Hx as (A & B & C); [|apply W|apply Hy]. split; [exact A|]. exists part, y. auto.
      - intros (A & part & y & HP & Hy & B & C). exists (conflicting y ms (fun _ => true)). split; [|apply conflicting_all; [apply W|apply Hy|auto]]. apply in_map_iff. exists part. split; [rewrite (proj2 (PY part y HP) Hy); reflexivity|]. apply Yr. split; [exact HP|]. exists y. exact Hy. }
    assert (Wk : forall x, In x (filter (fun m => negb (mmem (ini m) ignore) && negb (has_tag (lit "anime") m)) (tagged (lit "weak-episode") ms)) <-> In x ms /\ tag "weak-episode" x /\ ~ tag "anime" x /\ ~ safe s ini kids markers ms (ini x)).
    { intros x. unfold tagged. rewrite !filter_In, Bool.andb_true_iff, !Bool.negb_true_iff, has_tag_iff, has_tag_false. rewrite <- Ig. unfold tag. destruct (mmem (ini x) ignore); intuition discriminate. }
    rewrite remove_all_In; [|apply W|intros x Hx; apply in_app_iff in Hx as [Hx|Hx]; [apply Ov in Hx; tauto|apply Wk in Hx; tauto]].
    rewrite in_app_iff, Ov, Wk. split.
    + intros [A B]. split; [exact A|]. intros _. split; [intros H; apply B; auto|intros [_ H]; apply B; auto].
    + intros [A B]. split; [exact A|]. destruct (B eq_refl) as [B1 B2]. intros [[_ H]|[_ H]]; [exact (B1 H)|apply B2; split; [exact Ex|exact H]].
  - assert (N : ~ exists part y, path_part markers part /\ first_year ms part y).
    { intros (part & y & HP & Hy). rewrite nonnil_no in Ny. apply (Ny part). apply Yr. split; [exact HP|]. exists y. exact Hy. }
    cbn [remove_all fold_left]. split; [|tauto]. intros A. split; [exact A|]. intros _. split; [intros (part & y & H1 & H2 & _); apply N; exists part, y; auto|intros [H _]; exact (N H)].
Qed.

(** ** C66: duplicates *)
Definition same_kind (pat : mt -> nat) (x m : mt) : Prop := m_name x = m_name m /\ pat x = pat m.
Lemma duplicates_spec pat : forall l seen m, NoDup l ->
  In m (duplicates pat l seen) <-> exists l1 l2, l = l1 ++ m :: l2 /\ (In (m_name m, pat m) seen \/ exists x, In x l1 /\ same_kind pat x m).
Proof.
  assert (S : forall seen m, existsb (fun q => str_eqb (fst q) (m_name m) && (snd q =? pat m)) seen = true <-> In (m_name m, pat m) seen).
  { intros seen m. rewrite existsb_exists. split.
    - intros ([n k] & H & E). cbn [fst snd] in E. apply Bool.andb_true_iff in E as [E1 E2]. apply str_eqb_eq in E1. apply Nat.eqb_eq in E2. subst. exact H.
    - intros H. exists (m_name m, pat m). split; [exact H|]. cbn [fst snd]. rewrite str_eqb_refl, Nat.eqb_refl. reflexivity. }
  induction l as [|a l IH]; intros seen m D; cbn [duplicates].
  - split; [intros []|]. intros (l1 & l2 & E & _). destruct l1; discriminate.
  - apply NoDup_cons_iff in D as [Da D]. specialize (S seen a). destruct (existsb _ seen).
    + cbn [In]. rewrite IH by exact D. split.
      * intros [<-|(l1 & l2 & -> & H)]; [exists [], l; split; [reflexivity|left; apply S; reflexivity]|]. exists (a :: l1), l2. split; [reflexivity|]. destruct H as [H|(x & H1 & H2)]; [left; exact H|right; exists x; split; [right; exact H1|exact H2]].
      * intros (l1 & l2 & E & H). destruct l1 as [|b l1]; [left; injection E as -> _; reflexivity|]. right. injection E as -> ->. exists l1, l2. split; [reflexivity|].
        destruct H as [H|(x & [<-|H1] & H2)]; [left; exact H| |right; exists x; auto]. left. destruct H2 as [K1 K2]. rewrite <- K1, <- K2. apply S. reflexivity.
    + rewrite IH by exact D. split.
      * intros (l1 & l2 & -> & H). exists (a :: l1), l2. split; [reflexivity|]. destruct H as [[H|H]|(x & H1 & H2)]; [|left; exact H|right; exists x; split; [right; exact H1|exact H2]].
        right. exists a. split; [left; reflexivity|]. injection H as K1 K2. split; assumption.
      * intros (l1 & l2 & E & H). destruct l1 as [|b l1].
        -- exfalso. injection E as <- <-. destruct H as [H|(x & [] & _)]. apply S in H. discriminate.
        -- injection E as -> ->. exists l1, l2. split; [reflexivity|]. destruct H as [H|(x & [<-|H1] & H2)]; [left; right; exact H| |right; exists x; auto].
           left. left. destruct H2 as [K1 K2]. rewrite <- K1, <- K2. reflexivity.
Qed.
Lemma sorted_split (R : mt -> mt -> Prop) l1 m l2 : StronglySorted R (l1 ++ m :: l2) -> (forall x, In x l1 -> R x m) /\ (forall x, In x l2 -> R m x).
Proof.
  induction l1 as [|a l1 IH]; cbn [app]; intros H; apply StronglySorted_inv in H as [H F]; rewrite Forall_forall in F.
  - split; [intros x []|exact F].
  - destruct (IH H) as [A B]. split; [|exact B]. intros x [<-|Hx]; [|exact (A x Hx)]. apply F. apply in_app_iff. right; left; reflexivity.
Qed.
Definition pos_lt (x y : mt) : Prop := m_start x < m_start y \/ m_start x = m_start y /\ m_end x < m_end y.
(** only the last of the weak duplicates of a part is kept, for each name and pattern *)
Theorem C66_duplicate s pat markers ms m : ep_ok s markers ms ->
  (forall x y, In x ms -> In y ms -> same_kind pat x y -> m_start x = m_start y -> m_end x = m_end y -> x = y) ->
  In m (RemoveWeakDuplicate s pat markers ms) <-> In m ms /\
  ~ (tag "weak-duplicate" m /\ exists part x, path_part markers part /\ touches part m /\ In x ms /\ touches part x /\ tag "weak-duplicate" x /\ same_kind pat x m /\ pos_lt m x).
Proof.
  intros W U. unfold RemoveWeakDuplicate.
  assert (K : forall y, In y (List.concat (map (fun part => duplicates pat (rev (in_part_of s ms part (has_tag (lit "weak-duplicate")))) []) (parts_of markers))) <->
    In y ms /\ tag "weak-duplicate" y /\ exists part x, path_part markers part /\ touches part y /\ In x ms /\ touches part x /\ tag "weak-duplicate" x /\ same_kind pat x y /\ pos_lt y x).
  { intros y. rewrite concat_parts.
    assert (L : forall part, path_part markers part -> In y (duplicates pat (rev (in_part_of s ms part (has_tag (lit "weak-duplicate")))) []) <->
      In y ms /\ tag "weak-duplicate" y /\ touches part y /\ exists x, In x ms /\ touches part x /\ tag "weak-duplicate" x /\ same_kind pat x y /\ pos_lt y x).
    { intros part HP. set (L := in_part_of s ms part (has_tag (lit "weak-duplicate"))).
      assert (LI : forall x, In x L <-> In x ms /\ touches part x /\ tag "weak-duplicate" x) by (intros x; unfold L; rewrite (part_In s markers) by (auto; apply HP); rewrite has_tag_iff; reflexivity).
      assert (LS : StronglySorted (fun a b => mt_le a b = true) L) by (apply filter_sorted, filter_sorted, msorted_sorted).
      assert (LD : NoDup L) by (apply NoDup_filter, NoDup_filter, distinct_NoDup, distinct_msorted; apply W).
      rewrite duplicates_spec by (apply NoDup_rev; exact LD). split.
      - intros (l1 & l2 & E & [[]|(x & X1 & X2)]). apply (f_equal (@rev mt)) in E. rewrite rev_involutive, rev_app_distr in E. cbn [rev] in E. rewrite <- app_assoc in E. cbn [app] in E.
        assert (Hy : In y L) by (rewrite E; apply in_app_iff; right; left; reflexivity). apply LI in Hy as (Y1 & Y2 & Y3).
        assert (Hx : In x L) by (rewrite E; apply in_app_iff; right; right; rewrite <- in_rev; exact X1). apply LI in Hx as (Z1 & Z2 & Z3).
        repeat (split; [assumption|]). exists x. repeat (split; [assumption|]). rewrite E in LS, LD. apply sorted_split in LS as [_ LS]. specialize (LS x ltac:(rewrite <- in_rev; exact X1)). apply mt_le_iff in LS.
        assert (NE : x <> y). { intros ->. apply NoDup_remove_2 in LD. apply LD. apply in_app_iff. right. rewrite <- in_rev. exact X1. }
        assert (NS : ~ (m_start x = m_start y /\ m_end x = m_end y)) by (intros [? ?]; apply NE; apply U; auto). unfold pos_lt, pos_le in *. lia.
      - intros (Y1 & Y2 & Y3 & x & Z1 & Z2 & Z3 & Z4 & Z5). assert (Hy : In y L) by (apply LI; auto). assert (Hx : In x L) by (apply LI; auto). apply in_split in Hy as (l2 & l1 & E).
        exists (rev l1), (rev l2). split; [rewrite E, rev_app_distr; cbn [rev]; rewrite <- app_assoc; reflexivity|]. right. exists x. split; [|exact Z4]. rewrite <- in_rev. rewrite E in LS, Hx. apply sorted_split in LS as [LS _].
        apply in_app_iff in Hx as [Hx|[->|Hx]]; [|unfold pos_lt in Z5; lia|exact Hx]. specialize (LS x Hx). apply mt_le_iff in LS. unfold pos_lt, pos_le in *. lia. }
    split.
    - intros (part & HP & H). apply L in H; [|exact HP]. destruct H as (A & B & C & x & D). split; [exact A|]. split; [exact B|]. exists part, x. tauto.
    - intros (A & B & part & x & HP & C & D). exists part. split; [exact HP|]. apply L; [exact HP|]. split; [exact A|]. split; [exact B|]. split; [exact C|]. exists x. exact D. }
  rewrite remove_all_In; [|apply W|intros y Hy; apply K in Hy; tauto]. rewrite K. tauto.
Qed.

(** ** C66: a number apart from a range *)
Definition weak_number (ms : list mt) (e : mt) : Prop := In e ms /\ m_name e = lit "episode" /\ m_private e = false /\ tag "weak-episode" e.
(** [z] is the least of the weak numbers, less than 10, not the only one, and [z + 1] is not there *)
Definition apart (ms : list mt) (z : Z) : Prop :=
  (exists e, weak_number ms e /\ num e = z) /\ (forall e, weak_number ms e -> (z <= num e)%Z) /\ (z < 10)%Z /\
  (exists e, weak_number ms e /\ num e <> z) /\ (forall e, weak_number ms e -> num e <> (z + 1)%Z).
Lemma first_values_spec : forall l seen,
  (forall x, In x (first_values l seen) -> In x l /\ ~ In (num x) seen) /\ NoDup (map num (first_values l seen)) /\
  (forall e, In e l -> In (num e) seen \/ exists x, In x (first_values l seen) /\ num x = num e).
Proof.
  assert (S : forall z seen, existsb (Z.eqb z) seen = true <-> In z seen).
  { intros z seen. rewrite existsb_exists. split; [intros (y & H & E); apply Z.eqb_eq in E; subst; exact H|intros H; exists z; split; [exact H|apply Z.eqb_refl]]. }
  induction l as [|a l IH]; intros seen; cbn [first_values]; [split; [intros x []|split; [constructor|intros e []]]|].
  specialize (S (num a) seen). destruct (existsb (Z.eqb (num a)) seen).
  - destruct (IH seen) as (A & B & C). split; [intros x Hx; destruct (A x Hx); split; [right|]; assumption|]. split; [exact B|]. intros e [<-|He]; [left; apply S; reflexivity|apply C; exact He].
  - assert (N : ~ In (num a) seen) by (intros H; apply S in H; discriminate). destruct (IH (num a :: seen)) as (A & B & C). split; [|split].
    + intros x [<-|Hx]; [split; [left; reflexivity|exact N]|]. destruct (A x Hx) as [A1 A2]. split; [right; exact A1|]. intros H. apply A2. right. exact H.
    + cbn [map]. apply NoDup_cons_iff. split; [|exact B]. intros H. apply in_map_iff in H as (x & E & Hx). destruct (A x Hx) as [_ A2]. apply A2. left. congruence.
    + intros e [<-|He]; [right; exists a; split; [left; reflexivity|reflexivity]|]. destruct (C e He) as [[H|H]|(x & H & E)]; [right; exists a; split; [left; reflexivity|congruence]|left; exact H|right; exists x; split; [right; exact H|exact E]].
Qed.
Lemma detached_spec ms :
  match detached ms with
  | Some a => weak_number ms a /\ apart ms (num a)
  | None => forall z, ~ apart ms z
  end.
Proof.
  unfold detached. set (E := filter (fun m => negb (m_private m) && weak_ep m) (named (lit "episode") ms)).
  assert (HE : forall e, In e E <-> weak_number ms e).
  { intros e. unfold E. rewrite filter_In, named_In, Bool.andb_true_iff, Bool.negb_true_iff. unfold weak_ep. rewrite has_tag_iff. unfold weak_number, tag. tauto. }
  destruct (first_values_spec E []) as (A & B & C). set (F := first_values E []) in *.
  assert (P : Permutation (by_value F) F) by apply isort_perm.
  assert (Srt : StronglySorted (fun a b => (num a <=? num b)%Z = true) (by_value F)) by (apply isort_sorted; intros; lia).
  assert (B' : NoDup (map num (by_value F))) by (eapply Permutation_NoDup; [|exact B]; apply Permutation_map; symmetry; exact P).
  assert (A' : forall x, In x (by_value F) -> weak_number ms x) by (intros x Hx; apply HE; apply A; eapply Permutation_in; [exact P|exact Hx]).
  assert (C' : forall e, weak_number ms e -> exists x, In x (by_value F) /\ num x = num e).
  { intros e He. apply HE in He. destruct (C e He) as [[]|(x & Hx & Ex)]. exists x. split; [eapply Permutation_in; [symmetry; exact P|exact Hx]|exact Ex]. }
  destruct (by_value F) as [|a [|b r]].
  - intros z ((e & He & _) & _). destruct (C' e He) as (x & [] & _).
  - intros z ((e & He & Ez) & _ & _ & (e' & He' & Nz) & _). destruct (C' e He) as (x & [<-|[]] & Ex). destruct (C' e' He') as (x' & [<-|[]] & Ex'). congruence.
  - apply StronglySorted_inv in Srt as [Srt Fa]. apply StronglySorted_inv in Srt as [_ Fb]. rewrite Forall_forall in Fa, Fb.
    cbn [map] in B'. apply NoDup_cons_iff in B' as [Na B']. apply NoDup_cons_iff in B' as [Nb _].
    assert (Least : forall e, weak_number ms e -> (num a <= num e)%Z).
    { intros e He. destruct (C' e He) as (x & [<-|Hx] & Ex); [lia|]. specialize (Fa x Hx). lia. }
    assert (Second : forall e, weak_number ms e -> num e = num a \/ (num b <= num e)%Z).
    { intros e He. destruct (C' e He) as (x & [<-|[<-|Hx]] & Ex); [left; congruence|right; lia|]. specialize (Fb x Hx). right. lia. }
    assert (Lt : (num a < num b)%Z). { specialize (Fa b (or_introl eq_refl)). assert (num a <> num b) by (intros H; apply Na; left; congruence). lia. }
    destruct ((num a <? 10)%Z && negb (num b - num a =? 1)%Z) eqn:D.
    + assert (Wa : weak_number ms a) by (apply A'; left; reflexivity). split; [exact Wa|]. split; [exists a; auto|]. split; [exact Least|]. split; [lia|]. split.
      * exists b. split; [apply A'; right; left; reflexivity|]. lia.
      * intros e He Ee. destruct (Second e He); lia.
    + intros z ((e & He & Ez) & L & T & _ & N). assert (z = num a) by (specialize (Least e He); specialize (L a ltac:(apply A'; left; reflexivity)); lia).
      specialize (N b ltac:(apply A'; right; left; reflexivity)). lia.
Qed.
(** ... goes with its ancestors; otherwise nothing does *)
Theorem C66_detached ancestors ms : distinct ms ->
  (exists a, weak_number ms a /\ apart ms (num a) /\ forall m, In m (RemoveDetachedEpisodeNumber ancestors ms) <-> In m ms /\ forall x, In x (ancestors a) -> mkey x <> mkey m) \/
  ((forall z, ~ apart ms z) /\ RemoveDetachedEpisodeNumber ancestors ms = ms).
Proof.
  intros D. unfold RemoveDetachedEpisodeNumber. pose proof (detached_spec ms) as H. destruct (detached ms) as [a|]; [left|right; auto].
  exists a. split; [apply H|]. split; [apply H|]. intros m. apply remove_any. exact D.
Qed.

(** ** cases that meet the hypotheses *)
(** 1080p 12: the 12 is not an episode *)
Definition size63 : mt := simple 5 10 (lit "screen_size") (MvStr (lit "1080p")) [].
Definition weak63b : mt := simple 11 13 (lit "episode") (MvInt 12) [lit "weak-episode"].
Example C63_ex_technical : RemoveWeak (lit "Show.1080p.12") [lit "ep"] [simple 0 13 (lit "path") (MvStr []) []] [size63; weak63b] = [size63] /\
  follows_technical (lit "Show.1080p.12") [simple 0 13 (lit "path") (MvStr []) []] [size63; weak63b] weak63b /\ ep_ok (lit "Show.1080p.12") [simple 0 13 (lit "path") (MvStr []) []] [size63; weak63b].
Proof.
  split; [vm_compute; reflexivity|]. split; [|ep_ok_t]. split; [left; reflexivity|]. exists (simple 0 13 (lit "path") (MvStr []) []), weak63b, size63. split; [split; [left; reflexivity|reflexivity]|].
  split; [split; cbn; lia|]. split.
  - split; [split; [right; left; reflexivity|]; split; [cbn; lia|]; split; [cbn; lia|left; reflexivity]|]. intros y Hy _ _ T. each_in; [destruct T|unfold pos_le; cbn; lia].
  - split; [split; [left; reflexivity|]; split; [cbn; lia|]; intros y Hy; each_in; cbn; lia|]. split; [right; left; reflexivity|]. intros j c Hj Hc _. cbn in Hj. assert (j = 10) by lia. subst j. injection Hc as <-. reflexivity.
Qed.
(** HD 12 with HD both a technical word and a word for an episode *)
Example C63_ex_word : RemoveWeak (lit "ep.12") [lit "ep"] [simple 0 5 (lit "path") (MvStr []) []]
    [simple 0 2 (lit "audio_profile") (MvStr (lit "EP")) []; simple 3 5 (lit "episode") (MvInt 12) [lit "weak-episode"]] =
  [simple 0 2 (lit "audio_profile") (MvStr (lit "EP")) []; mk_mt 0 5 (lit "episode") (MvInt 12) [] false 3 5 None []].
Proof. vm_compute. reflexivity. Qed.
(** Film.12.2004 *)
Definition year63 : mt := simple 8 12 (lit "year") (MvInt 2004) [].
Definition weak63c : mt := simple 5 7 (lit "episode") (MvInt 12) [lit "weak-episode"].
Definition part63c : mt := simple 0 12 (lit "path") (MvStr []) [].
Definition i63 (m : mt) : mt := simple 5 7 (lit "weak_episode") (MvStr []) [].
Example C63_ex_movie : RemoveWeakIfMovie [] (lit "Film.12.2004") i63 (fun _ => []) [part63c] [weak63c; year63] = [year63] /\
  RemoveWeakIfMovie [(KS (lit "type"), VStr (lit "episode"))] (lit "Film.12.2004") i63 (fun _ => []) [part63c] [weak63c; year63] = [weak63c; year63] /\
  RemoveWeakIfMovie [] (lit "Film.12.2004") i63 (fun _ => []) [part63c] [add_tag (lit "anime") weak63c; year63] = [add_tag (lit "anime") weak63c; year63].
Proof. repeat split; vm_compute; reflexivity. Qed.
Example C63_ex_movie_ok : ep_ok (lit "Film.12.2004") [part63c] [weak63c; year63] /\ one_year [weak63c; year63] /\ one_pattern i63 [weak63c; year63].
Proof. split; [ep_ok_t|]. split; [intros x y Hx Hy N1 N2; each_in; try reflexivity; discriminate|intros x y _ _ _ _ _ _; reflexivity]. Qed.
(** The 100.109 *)
Definition d66a : mt := simple 4 5 (lit "season") (MvInt 1) [lit "weak-duplicate"].
Definition d66b : mt := simple 8 9 (lit "season") (MvInt 1) [lit "weak-duplicate"].
Example C66_ex_duplicate : RemoveWeakDuplicate (lit "The 100.109") (fun _ => 0) [simple 0 11 (lit "path") (MvStr []) []] [d66a; d66b] = [d66b] /\
  ep_ok (lit "The 100.109") [simple 0 11 (lit "path") (MvStr []) []] [d66a; d66b] /\
  (forall x y, In x [d66a; d66b] -> In y [d66a; d66b] -> same_kind (fun _ => 0) x y -> m_start x = m_start y -> m_end x = m_end y -> x = y).
Proof. split; [vm_compute; reflexivity|]. split; [ep_ok_t|]. intros x y Hx Hy _ E _. each_in; try reflexivity; discriminate. Qed.
(** Fairy Tail 2 - 16-20 *)
Definition e66 (a b : nat) (z : Z) : mt := simple a b (lit "episode") (MvInt z) [lit "weak-episode"].
Example C66_ex_detached : RemoveDetachedEpisodeNumber (fun m => [m]) [e66 11 12 2; e66 15 17 16; e66 18 20 17] = [e66 15 17 16; e66 18 20 17] /\
  RemoveDetachedEpisodeNumber (fun m => [m]) [e66 11 12 2; e66 15 17 3] = [e66 11 12 2; e66 15 17 3] /\ apart [e66 11 12 2; e66 15 17 16; e66 18 20 17] 2.
Proof.
  split; [vm_compute; reflexivity|]. split; [vm_compute; reflexivity|]. assert (W : forall e, In e [e66 11 12 2; e66 15 17 16; e66 18 20 17] -> weak_number [e66 11 12 2; e66 15 17 16; e66 18 20 17] e).
  { intros e He. split; [exact He|]. each_in; cbn; auto. }
  split; [exists (e66 11 12 2); split; [apply W; cbn; auto|reflexivity]|]. split; [intros e [He _]; each_in; cbn; lia|]. split; [lia|].
  split; [exists (e66 15 17 16); split; [apply W; cbn; auto|discriminate]|]. intros e [He _]; each_in; discriminate.
Qed.

Print Assumptions C63_technical.
Print Assumptions C63_word.
Print Assumptions C63_word_made.
Print Assumptions C63_movie.
Print Assumptions C66_duplicate.
Print Assumptions C66_detached.
