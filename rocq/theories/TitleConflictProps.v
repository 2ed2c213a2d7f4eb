(** Parts and years that are words of an episode title (C62) *)
From Verif Require Import Py PyFacts Text TextFacts Sort Formatters FormattersProofs Rebulk RebulkFacts RuleSpec Processors Title TitleProofs TitleProps TitleMore HolesMore EpisodeTitle EpisodeTitleProps NumberTitleProps.
From Coq Require Import Arith ZifyBool Sorted.

(** ** specification *)
(** the group (bracketed text) of the zone [a, b): the first one around its first character, or else around its last one *)
Definition around (markers : list mt) (i : nat) (g : mt) : Prop :=
  exists l r, markers = l ++ g :: r /\ m_name g = lit "group" /\ m_start g <= i < m_end g /\
  forall x, In x l -> m_name x = lit "group" -> ~ (m_start x <= i < m_end x).
Definition outside (markers : list mt) (i : nat) : Prop := forall x, In x markers -> m_name x = lit "group" -> ~ (m_start x <= i < m_end x).
Definition group_of (markers : list mt) (a b : nat) (o : option mt) : Prop :=
  match o with
  | Some g => around markers a g \/ outside markers a /\ around markers (b - 1) g
  | None => outside markers a /\ outside markers (b - 1)
  end.
(** there is text between [a] and [b], free of matches and in the same group as [m] *)
Definition text_beside (s : str) (markers ms : list mt) (m : mt) (a b : nat) : Prop :=
  exists h o, free_run ms a b h /\ (exists j, fst h <= j < snd h /\ text_at s j) /\
    group_of markers (m_start m) (m_end m) o /\ group_of markers (fst h) (snd h) o.
(** [x] is, among the matches that are not private and meet [a, b), one that comes last / first in order of position *)
Definition in_zone (ms : list mt) (a b : nat) (x : mt) : Prop := In x ms /\ m_private x = false /\ m_start x < b /\ a < m_end x.
Definition pos_le (x y : mt) : Prop := m_start x < m_start y \/ m_start x = m_start y /\ m_end x <= m_end y.
Definition last_in (ms : list mt) (a b : nat) (x : mt) : Prop := in_zone ms a b x /\ forall y, in_zone ms a b y -> pos_le y x.
Definition first_in (ms : list mt) (a b : nat) (x : mt) : Prop := in_zone ms a b x /\ forall y, in_zone ms a b y -> pos_le x y.
(** what follows an episode title *)
Definition technical (m : mt) : Prop :=
  m_name m = lit "streaming_service" \/ m_name m = lit "screen_size" \/ m_name m = lit "source" \/ m_name m = lit "video_codec" \/
  m_name m = lit "audio_codec" \/ m_name m = lit "other" \/ m_name m = lit "container".
(** [m] is a word of the title: text beside it, between a number (or a title, date, year) and a technical property *)
Definition title_word (s : str) (markers ms : list mt) (m before after : mt) : Prop :=
  announces before /\ technical after /\
  ((m_name m = lit "part" /\ text_beside s markers ms m (m_end m) (m_start after)) \/
   (m_name m = lit "year" /\ (text_beside s markers ms m (m_end before) (m_start m) \/ text_beside s markers ms m (m_end m) (m_start after)))).

(** ** proofs *)
Lemma around_find markers i : match find (fun g => has_name (lit "group") g && covers i g) markers with
  | Some g => around markers i g | None => outside markers i end.
Proof.
  induction markers as [|x markers IH]; cbn [find]; [intros x []|]. destruct (has_name (lit "group") x && covers i x) eqn:E.
  - apply Bool.andb_true_iff in E as [E1 E2]. apply has_name_iff in E1. unfold covers in E2. exists [], markers. repeat split; auto; try lia.
  - assert (Nx : m_name x = lit "group" -> ~ (m_start x <= i < m_end x)).
    { intros N H. apply has_name_iff in N. rewrite N in E. unfold covers in E. cbn [andb] in E. lia. }
    destruct (find _ markers) as [g|].
    + destruct IH as (l & r & -> & N & C & F). exists (x :: l), r. repeat split; auto; try lia. intros y [<-|Hy]; auto.
    + intros y [<-|Hy]; auto.
Qed.
Lemma around_unique markers i g g' : around markers i g -> around markers i g' -> g = g'.
Proof.
  intros (l & r & -> & N & C & F) (l' & r' & E & N' & C' & F').
  revert l' E F'. induction l as [|x l IH]; intros [|x' l'] E F'; cbn [app] in E.
  - injection E as -> _. reflexivity.
  - exfalso. injection E as -> E. apply (F' x' (or_introl eq_refl) N C).
  - exfalso. injection E as <- E. apply (F x (or_introl eq_refl) N' C').
  - injection E as <- E. apply (IH ltac:(intros y Hy; apply F; right; exact Hy) l' E). intros y Hy. apply F'. right; exact Hy.
Qed.
Lemma around_in markers i g : around markers i g -> In g markers /\ m_name g = lit "group" /\ m_start g <= i < m_end g.
Proof. intros (l & r & -> & N & C & _). repeat split; auto; try lia. apply in_app_iff. right; left; reflexivity. Qed.
Lemma filter_find {A} (p q : A -> bool) l : first (filter p (filter q l)) = find (fun x => p x && q x) l.
Proof.
  induction l as [|x l IH]; cbn [filter find]; [reflexivity|]. destruct (q x); cbn [filter].
  - destruct (p x); cbn [andb first hd_error]; [reflexivity|exact IH].
  - rewrite Bool.andb_false_r. exact IH.
Qed.
Lemma first_app {A} (a b : list A) : first (a ++ b) = match first a with Some x => Some x | None => first b end.
Proof. destruct a; reflexivity. Qed.
Lemma merge_new_filter p a b : (forall x y, mkey x = mkey y -> p x = p y) -> filter p (merge_new a b) = merge_new (filter p a) (filter p b).
Proof.
  intros Hk. unfold merge_new. revert a. induction b as [|y b IH]; intros a; cbn [fold_left filter]; [reflexivity|].
  rewrite IH. destruct (p y) eqn:Ep; cbn [fold_left]; f_equal.
  - assert (mmem y (filter p a) = mmem y a) as ->.
    { destruct (mmem y a) eqn:E.
      - apply mmem_iff in E as (x & Hx & Ex). apply mmem_iff. exists x. split; [|exact Ex]. apply filter_In. split; [exact Hx|]. rewrite (Hk _ _ Ex). exact Ep.
      - apply mmem_false. intros x Hx. apply filter_In in Hx as [Hx _]. rewrite mmem_false in E. apply E. exact Hx. }
    destruct (mmem y a); [reflexivity|]. rewrite filter_app. cbn [filter]. rewrite Ep. reflexivity.
  - destruct (mmem y a); [reflexivity|]. rewrite filter_app. cbn [filter]. rewrite Ep. apply app_nil_r.
Qed.
Lemma first_merge a b : first (merge_new a b) = match first a with Some x => Some x | None => first b end.
Proof.
  destruct a as [|x a]; cbn [first hd_error].
  - destruct b as [|y b]; [reflexivity|]. rewrite merge_new_first. reflexivity.
  - destruct (merge_new_app (x :: a) b) as (c & ->). reflexivity.
Qed.
Lemma group_at_spec markers m : m_start m < m_end m -> group_of markers (m_start m) (m_end m) (group_at markers m).
Proof.
  intros Lm. unfold group_at, at_match, at_span. rewrite merge_new_filter.
  - rewrite first_merge. destruct (m_end m) as [|e] eqn:E; [lia|]. unfold at_index. rewrite !filter_find.
    pose proof (around_find markers (m_start m)) as A. pose proof (around_find markers e) as B. unfold group_of.
    replace (Datatypes.S e - 1) with e by lia.
    destruct (find _ markers) as [g|]; [left; exact A|]. destruct (find (fun x => has_name (lit "group") x && covers e x) markers) as [g|]; auto.
  - intros x y K. unfold has_name. unfold mkey in K. assert (m_name x = m_name y) as -> by congruence. reflexivity.
Qed.
Lemma around_not markers i g : around markers i g -> outside markers i -> False.
Proof. intros A O. apply around_in in A as (H & N & C). exact (O g H N C). Qed.
Lemma group_of_unique markers a b o o' : group_of markers a b o -> group_of markers a b o' -> o = o'.
Proof.
  destruct o as [g|], o' as [g'|]; cbn [group_of]; intros H H'; try reflexivity.
  - f_equal. destruct H as [H|[H1 H2]], H' as [H'|[H1' H2']].
    + exact (around_unique _ _ _ _ H H').
    + destruct (around_not _ _ _ H H1').
    + destruct (around_not _ _ _ H' H1).
    + exact (around_unique _ _ _ _ H2 H2').
  - exfalso. destruct H' as [H1 H2]. destruct H as [H|[_ H]]; [exact (around_not _ _ _ H H1)|exact (around_not _ _ _ H H2)].
  - exfalso. destruct H as [H1 H2]. destruct H' as [H'|[_ H']]; [exact (around_not _ _ _ H' H1)|exact (around_not _ _ _ H' H2)].
Qed.
Lemma group_eqb_iff markers a b a' b' o o' : distinct markers -> group_of markers a b o -> group_of markers a' b' o' -> group_eqb o o' = true <-> o = o'.
Proof.
  intros D H H'. destruct o as [g|], o' as [g'|]; cbn [group_eqb]; try (split; congruence).
  rewrite mt_eqb_eq. split; [|intros E; injection E as ->; reflexivity]. intros K. f_equal.
  assert (In g markers) by (cbn [group_of] in H; destruct H as [H|[_ H]]; apply around_in in H; tauto).
  assert (In g' markers) by (cbn [group_of] in H'; destruct H' as [H'|[_ H']]; apply around_in in H'; tauto).
  apply (distinct_inj markers); auto.
Qed.
Lemma text_holes_iff s markers ms m a b : store_ok s markers ms -> m_start m < m_end m -> b <= List.length s ->
  text_holes s markers ms (group_at markers m) a b = true <-> text_beside s markers ms m a b.
Proof.
  intros W Lm Hb. pose proof (so_nonempty _ _ _ W) as NE. unfold text_holes, text_beside. rewrite existsb_exists.
  assert (Ee : Nat.min (max_end s ms) b = b) by (rewrite max_end_inside by apply W; lia).
  assert (Tx : forall h, forallb is_sep (raw s h) = false <-> exists j, fst h <= j < snd h /\ text_at s j).
  { intros h. split.
    - intros H. assert (X : exists c, In c (raw s h) /\ is_sep c = false).
      { clear -H. induction (raw s h) as [|c t IH]; cbn [forallb] in H; [discriminate|]. destruct (is_sep c) eqn:E; [|exists c; split; [left; reflexivity|exact E]].
        destruct (IH H) as (d & Hd & Ed). exists d. split; [right; exact Hd|exact Ed]. }
      apply raw_letters in X as (j & c & J1 & J2 & J3). exists j. split; [exact J1|]. exists c. auto.
    - intros (j & J1 & c & J2 & J3). apply Bool.not_true_iff_false. intros F. rewrite forallb_forall in F.
      assert (X : exists j c, fst h <= j < snd h /\ nth_error s j = Some c /\ is_sep c = false) by (exists j, c; auto).
      apply raw_letters in X as (d & D1 & D2). rewrite (F d D1) in D2. discriminate. }
  split.
  - intros (h & Hh & Hv). unfold value_in_group in Hv. apply Bool.andb_true_iff in Hv as [V1 V2]. apply Bool.negb_true_iff in V1. apply Tx in V1. pose proof V1 as (j & J1 & _).
    destruct (proj1 (holes_cover s ms a b NE j)) as [C1 C2]; [exists h; auto|].
    assert (Hab : a < Nat.min (max_end s ms) b) by lia. pose proof (holes_run s ms a b h NE Hab Hh ltac:(lia)) as R. rewrite Ee in R.
    exists h, (group_at markers m). split; [exact R|]. split; [exact V1|]. pose proof (group_at_spec markers m Lm) as G1.
    pose proof (group_at_spec markers (hole_match h)) as G2. cbn [hole_match simple m_start m_end] in G2. specialize (G2 ltac:(lia)). split; [exact G1|].
    apply (group_eqb_iff markers _ _ _ _ _ _ (so_marker_distinct _ _ _ W) G1 G2) in V2. rewrite V2. exact G2.
  - intros (h & o & R & T & G1 & G2). pose proof R as (R1 & R2 & R3 & _). assert (Hab : a < Nat.min (max_end s ms) b) by lia.
    exists h. split; [apply run_hole; auto; rewrite Ee; exact R|]. unfold value_in_group. rewrite (proj2 (Tx h) T). cbn [negb andb].
    pose proof (group_at_spec markers m Lm) as G1'. pose proof (group_at_spec markers (hole_match h)) as G2'. cbn [hole_match simple m_start m_end] in G2'. specialize (G2' R2).
    apply (group_eqb_iff markers _ _ _ _ _ _ (so_marker_distinct _ _ _ W) G1' G2').
    rewrite (group_of_unique _ _ _ _ _ G1' G1). symmetry. apply (group_of_unique _ _ _ _ _ G2' G2).
Qed.
Lemma technical_iff m : smem (m_name m) next_names = true <-> technical m.
Proof. unfold next_names, technical. rewrite smem_In. cbn [In]. intuition congruence. Qed.
Lemma affected_iff m : smem (m_name m) affected_names = true <-> m_name m = lit "part" \/ m_name m = lit "year".
Proof. unfold affected_names. rewrite smem_In. cbn [In]. intuition congruence. Qed.
Lemma public_iff m : public m = true <-> m_private m = false.
Proof. unfold public. rewrite Bool.negb_true_iff. reflexivity. Qed.
Lemma mt_le_iff x y : mt_le x y = true <-> pos_le x y.
Proof. unfold mt_le, pos_le. lia. Qed.
Lemma last_range s ms a b : inside s ms -> b <= List.length s ->
  match last_o (range s ms a b public) with Some x => last_in ms a b x | None => forall y, ~ in_zone ms a b y end.
Proof.
  intros Hi Hb. pose proof (range_last s ms a b public Hi Hb) as R. destruct (last_o _) as [x|].
  - destruct R as [(R1 & R2 & R3 & R4) R5]. apply public_iff in R4. split; [repeat split; auto|]. intros y (Y1 & Y2 & Y3 & Y4). apply mt_le_iff. apply R5; auto. apply public_iff; exact Y2.
  - intros y (Y1 & Y2 & Y3 & Y4). apply public_iff in Y2. rewrite (R y Y1 Y3 Y4) in Y2. discriminate.
Qed.
Lemma first_range s ms a b : inside s ms -> b <= List.length s ->
  match first (range s ms a b public) with Some x => first_in ms a b x | None => forall y, ~ in_zone ms a b y end.
Proof.
  intros Hi Hb. pose proof (range_first s ms a b public Hi Hb) as R. destruct (first _) as [x|].
  - destruct R as [(R1 & R2 & R3 & R4) R5]. apply public_iff in R4. split; [repeat split; auto|]. intros y (Y1 & Y2 & Y3 & Y4). apply mt_le_iff. apply R5; auto. apply public_iff; exact Y2.
  - intros y (Y1 & Y2 & Y3 & Y4). apply public_iff in Y2. rewrite (R y Y1 Y3 Y4) in Y2. discriminate.
Qed.
Lemma last_span ms a b x y : last_in ms a b x -> last_in ms a b y -> m_start x = m_start y /\ m_end x = m_end y.
Proof. intros [X1 X2] [Y1 Y2]. specialize (X2 y Y1). specialize (Y2 x X1). unfold pos_le in *. lia. Qed.
Lemma first_span ms a b x y : first_in ms a b x -> first_in ms a b y -> m_start x = m_start y /\ m_end x = m_end y.
Proof. intros [X1 X2] [Y1 Y2]. specialize (X2 y Y1). specialize (Y2 x X1). unfold pos_le in *. lia. Qed.

Lemma conflict_iff s markers ms part m : store_ok s markers ms -> In part markers -> In m ms -> m_name m = lit "part" \/ m_name m = lit "year" ->
  (conflict_removed s markers ms part m = true -> exists before after,
     last_in ms (m_start part) (m_start m) before /\ first_in ms (m_end m) (m_end part) after /\ title_word s markers ms m before after) /\
  ((exists before, last_in ms (m_start part) (m_start m) before) -> (exists after, first_in ms (m_end m) (m_end part) after) ->
   (forall before after, last_in ms (m_start part) (m_start m) before -> first_in ms (m_end m) (m_end part) after -> title_word s markers ms m before after) ->
   conflict_removed s markers ms part m = true).
Proof.
  intros W Hp Hm Nm. pose proof (so_inside _ _ _ W) as Hi. destruct (Hi m Hm) as [M1 M2]. pose proof (so_nonempty _ _ _ W m Hm) as Lm.
  destruct (so_markers _ _ _ W part Hp) as [P1 P2]. unfold conflict_removed.
  pose proof (last_range s ms (m_start part) (m_start m) Hi ltac:(lia)) as B. pose proof (first_range s ms (m_end m) (m_end part) Hi ltac:(lia)) as A.
  destruct (last_o (range s ms (m_start part) (m_start m) public)) as [before|]; [|split; [discriminate|intros (x & X & _); destruct (B x X)]].
  destruct (first (range s ms (m_end m) (m_end part) public)) as [after|]; [|split; [discriminate|intros _ (x & X & _); destruct (A x X)]].
  assert (Hb : In before ms) by (destruct B as [[B _] _]; exact B). assert (Ha : In after ms) by (destruct A as [[A _] _]; exact A).
  destruct (Hi after Ha) as [A1 A2]. unfold m_truthy.
  rewrite (proj2 (Nat.ltb_lt _ _) (so_nonempty _ _ _ W before Hb)), (proj2 (Nat.ltb_lt _ _) (so_nonempty _ _ _ W after Ha)). cbn [andb].
  pose proof (text_holes_iff s markers ms m (m_end before) (m_start m) W Lm ltac:(lia)) as T1.
  pose proof (text_holes_iff s markers ms m (m_end m) (m_start after) W Lm ltac:(lia)) as T2.
  assert (X : smem (m_name before) previous_names && true && smem (m_name after) next_names &&
    ((text_holes s markers ms (group_at markers m) (m_end before) (m_start m) || text_holes s markers ms (group_at markers m) (m_end m) (m_start after)) &&
      negb (has_name (lit "part") m && negb (text_holes s markers ms (group_at markers m) (m_end m) (m_start after)))) = true <-> title_word s markers ms m before after).
  { unfold title_word. rewrite Bool.andb_true_r, !Bool.andb_true_iff, Bool.orb_true_iff, announces_iff, technical_iff, and_assoc. apply and_iff_compat_l. apply and_iff_compat_l.
    rewrite T1, Bool.negb_true_iff, Bool.andb_false_iff, Bool.negb_false_iff, T2.
    destruct Nm as [Nm|Nm].
    - assert (has_name (lit "part") m = true) as -> by (apply has_name_iff; exact Nm).
      split; [intros [_ [H|H]]; [discriminate|left; auto]|]. intros [[_ H]|[H _]]; [auto|rewrite Nm in H; discriminate].
    - assert (has_name (lit "part") m = false) as ->.
      { apply Bool.not_true_iff_false. intros H. apply has_name_iff in H. rewrite Nm in H. discriminate. }
      split; [intros [H _]; right; auto|]. intros [[H _]|[_ H]]; [rewrite Nm in H; discriminate|auto]. }
  split.
  - intros H. exists before, after. split; [exact B|]. split; [exact A|]. apply X. exact H.
  - intros _ _ H. apply X. apply H; assumption.
Qed.
(** a match of a file part *)
Definition in_part (markers : list mt) (part m : mt) : Prop :=
  In part markers /\ m_name part = lit "path" /\ m_start m < m_end part /\ m_start part < m_end m.
(** ** C62: matches removed because they are words of an episode title *)
Theorem C62_words : forall s markers ms, store_ok s markers ms -> exists gone,
  RemoveConflictsWithEpisodeTitle s markers ms = filter (fun m => negb (gone m)) ms /\
  (* what is removed is a word of a title *)
  (forall m, In m ms -> gone m = true -> exists part before after, in_part markers part m /\
     last_in ms (m_start part) (m_start m) before /\ first_in ms (m_end m) (m_end part) after /\ title_word s markers ms m before after) /\
  (* and every such word is removed *)
  (forall m part, In m ms -> in_part markers part m -> m_name m = lit "part" \/ m_name m = lit "year" ->
     (exists before, last_in ms (m_start part) (m_start m) before) -> (exists after, first_in ms (m_end m) (m_end part) after) ->
     (forall before after, last_in ms (m_start part) (m_start m) before -> first_in ms (m_end m) (m_end part) after -> title_word s markers ms m before after) ->
     gone m = true).
Proof.
  intros s markers ms W. pose proof (so_inside _ _ _ W) as Hi. exists (fun m => mmem m (remove_conflicts s markers ms)).
  split; [unfold RemoveConflictsWithEpisodeTitle; apply remove_all_filter; apply W|].
  assert (In_rc : forall m, In m (remove_conflicts s markers ms) <-> exists part, in_part markers part m /\ In m ms /\ (m_name m = lit "part" \/ m_name m = lit "year") /\ conflict_removed s markers ms part m = true).
  { intros m. unfold remove_conflicts. rewrite in_flat_map. split.
    - intros (part & Hp & Hm). apply named_In in Hp as [Hp Np]. apply filter_In in Hm as [Hm Hc]. apply range_In' in Hm; [|exact Hi|destruct (so_markers _ _ _ W part Hp); lia].
      destruct Hm as (M1 & M2 & M3 & M4). apply affected_iff in M4. exists part. unfold in_part. auto 10.
    - intros (part & (P1 & P2 & P3 & P4) & Hm & Nm & Hc). exists part. split; [apply named_In; auto|]. apply filter_In. split; [|exact Hc].
      apply range_In'; [exact Hi|destruct (so_markers _ _ _ W part P1); lia|]. apply affected_iff in Nm. auto. }
  split.
  - intros m Hm G. apply mmem_iff in G as (x & Hx & Ex). apply In_rc in Hx as (part & Hp & Hx & Nx & Hc).
    assert (x = m) as -> by (apply (distinct_inj ms); auto; apply W). destruct (conflict_iff s markers ms part m W ltac:(apply Hp) Hm Nx) as [C _].
    destruct (C Hc) as (before & after & C1 & C2 & C3). exists part, before, after. auto.
  - intros m part Hm Hp Nm Hb Ha H. apply mmem_In. apply In_rc. exists part. split; [exact Hp|]. split; [exact Hm|]. split; [exact Nm|].
    apply (conflict_iff s markers ms part m W ltac:(apply Hp) Hm Nm); assumption.
Qed.
Print Assumptions C62_words.
(** non-vacuity: "Show.S01E02.Death in 1984.720p.mkv": the year is a word of the title *)
Example ex_word_year : let s := lit "Show.S01E02.Death in 1984.720p.mkv" in let markers := [mk "path" 0 34] in
  let y := simple 21 25 (lit "year") (MvInt 1984) [] in
  let ms := [simple 5 8 (lit "season") (MvInt 1) []; simple 8 11 (lit "episode") (MvInt 2) []; y; simple 26 30 (lit "screen_size") (MvStr (lit "720p")) []] in
  RemoveConflictsWithEpisodeTitle s markers ms = [simple 5 8 (lit "season") (MvInt 1) []; simple 8 11 (lit "episode") (MvInt 2) []; simple 26 30 (lit "screen_size") (MvStr (lit "720p")) []] /\
  store_ok s markers ms.
Proof.
  cbv zeta. split; [vm_compute; reflexivity|].
  split; try (unfold inside, nonempty; cbn; intros m Hm; repeat (destruct Hm as [<-|Hm]; [cbn; lia|]); destruct Hm).
  - unfold distinct. cbn. repeat constructor; cbn; intuition discriminate.
  - unfold distinct. cbn. repeat constructor; cbn; intuition discriminate.
Qed.
