(** Titles found in the folders of an episode (C60) *)
From Verif Require Import Py PyFacts Text TextFacts Sort Formatters FormattersProofs Rebulk RebulkFacts RuleSpec Processors Title TitleProofs TitleProps TitleMore HolesMore EpisodeTitle EpisodeTitleProps NumberTitleProps.
From Coq Require Import Arith ZifyBool Sorted.

(** ** specification *)
(** matches that do not prevent a title *)
Definition set_aside (s : str) (m : mt) : Prop := In (lit "weak-episode") (m_tags m) \/ maybe_word s m.
(** the position is in the folder and no match has it but those *)
Definition available (s : str) (ms : list mt) (part : mt) (j : nat) : Prop :=
  m_start part <= j < m_end part /\ forall m, In m ms -> m_start m <= j < m_end m -> set_aside s m.
(** a title ends at one of these characters *)
Definition title_cut (s : str) (j : nat) : Prop := exists c, nth_error s j = Some c /\ In c (lit "-+/\|").
(** [h] is the first stretch of available text of the folder *)
Record first_text (s : str) (ms : list mt) (part : mt) (h : span) : Prop := {
  ft_text : exists j, fst h <= j < snd h /\ text_at s j;
  ft_available : forall j, fst h <= j < snd h -> available s ms part j;
  ft_whole : forall j, fst h <= j < snd h -> title_cut s j -> j = fst h;
  ft_first : forall j, available s ms part j -> text_at s j -> fst h <= j;
  ft_end : available s ms part (snd h) -> title_cut s (snd h)
}.
(** a match of this name in the part *)
Definition has_in (ms : list mt) (n : string) (part : mt) : Prop := exists m, In m ms /\ m_name m = lit n /\ m_start m < m_end part /\ m_start part < m_end m.
Definition no_folder_title (ms : list mt) : Prop := forall m, In m ms -> ~ In (lit "filepart-title") (m_tags m).

Lemma part_has_iff s ms n part : inside s ms -> nonempty ms -> m_end part <= List.length s -> part_has s ms (lit n) part = true <-> has_in ms n part.
Proof.
  intros Hi Hn Hp. unfold part_has. pose proof (range_first s ms (m_start part) (m_end part) (has_name (lit n)) Hi Hp) as R.
  destruct (first (range s ms (m_start part) (m_end part) (has_name (lit n)))) as [x|].
  - destruct R as [(R1 & R2 & R3 & R4) _]. cbn [o_truthy]. unfold m_truthy. rewrite (proj2 (Nat.ltb_lt _ _) (Hn x R1)). split; [intros _|reflexivity].
    exists x. apply has_name_iff in R4. auto.
  - cbn [o_truthy]. split; [discriminate|]. intros (m & M1 & M2 & M3 & M4). apply has_name_iff in M2. rewrite (R m M1) in M2 by lia. discriminate.
Qed.
Lemma part_has_ok s markers ms n part : store_ok s markers ms -> In part markers -> part_has s ms (lit n) part = true <-> has_in ms n part.
Proof. intros W H. apply part_has_iff; [apply W|apply W|]. destruct (so_markers _ _ _ W part H); lia. Qed.
Lemma aside_iff s m : has_tag (lit "weak-episode") m || is_ignored s m = true <-> set_aside s m.
Proof. unfold set_aside. rewrite Bool.orb_true_iff, has_tag_iff, is_ignored_iff. reflexivity. Qed.
Lemma text_not_cut s j : text_at s j -> ~ title_cut s j.
Proof.
  intros (c & E & Ec) (d & E' & Hd). rewrite E in E'. injection E' as <-.
  assert (H : is_sep c = true) by (apply title_sep_sep; apply cmem_In; exact Hd). congruence.
Qed.
Lemma first_filter_split {A} (p : A -> bool) l x : first (filter p l) = Some x -> exists u v, l = u ++ x :: v /\ p x = true /\ forall y, In y u -> p y = false.
Proof.
  induction l as [|y l IH]; cbn [filter first hd_error]; [discriminate|]. destruct (p y) eqn:E.
  - intros H. injection H as ->. exists [], l. repeat split; auto. intros z [].
  - intros H. destruct (IH H) as (u & v & -> & Hx & Hu). exists (y :: u), v. repeat split; auto. intros z [<-|Hz]; auto.
Qed.
Lemma folder_hole_spec s markers ms part : store_ok s markers ms -> In part markers -> m_start part < m_end part ->
  match folder_hole s ms part with
  | Some h => first_text s ms part h /\ nonnil (clean_text (raw s h)) = true
  | None => forall j, available s ms part j -> ~ text_at s j
  end.
Proof.
  intros W Hp Lp. destruct (so_markers _ _ _ W part Hp) as [P1 P2].
  unfold folder_hole. rewrite holes_ignore by apply W. set (ign := fun m => has_tag (lit "weak-episode") m || is_ignored s m).
  assert (NE : nonempty (taken ign ms)) by (apply taken_nonempty; apply W).
  assert (Ee : Nat.min (max_end s (taken ign ms)) (m_end part) = m_end part).
  { rewrite max_end_inside by (apply taken_inside; apply W). lia. }
  pose proof (holes_cut s title_seps (taken ign ms) (m_start part) (m_end part) NE ltac:(rewrite Ee; exact Lp)) as C. rewrite Ee in C. destruct C as [C1 C2 C3].
  assert (Cv : forall j, covered (taken ign ms) j <-> exists m, In m ms /\ m_start m <= j < m_end m /\ ~ set_aside s m).
  { intros j. unfold covered, taken. split; intros (m & M).
    - destruct M as [M1 M2]. apply filter_In in M1 as [M1 M3]. exists m. split; [exact M1|]. split; [exact M2|]. intros H. apply aside_iff in H. unfold ign in M3. rewrite H in M3. discriminate.
    - destruct M as (M1 & M2 & M3). exists m. split; [|exact M2]. apply filter_In. split; [exact M1|]. unfold ign.
      destruct (has_tag (lit "weak-episode") m || is_ignored s m) eqn:E; [|reflexivity]. apply aside_iff in E. contradiction. }
  assert (Av : forall j, available s ms part j <-> m_start part <= j < m_end part /\ ~ covered (taken ign ms) j).
  { intros j. unfold available. apply and_iff_compat_l. rewrite Cv. split.
    - intros H (m & M1 & M2 & M3). apply M3. apply H; assumption.
    - intros H m M1 M2. destruct (has_tag (lit "weak-episode") m || is_ignored s m) eqn:E; [apply aside_iff; exact E|]. exfalso. apply H. exists m. repeat split; auto; try lia.
      intros X. apply aside_iff in X. congruence. }
  destruct (first (filter _ _)) as [h|] eqn:E.
  - apply first_filter_split in E as (u & v & El & Hv & Hu). split; [|exact Hv].
    assert (Hh : In h (u ++ h :: v)) by (apply in_app_iff; right; left; reflexivity). rewrite <- El in Hh. destruct (C2 h Hh) as (H1 & H2 & H3 & H4).
    apply clean_text_nonnil in Hv. apply raw_letters in Hv as (k & c & K1 & K2 & K3).
    split.
    + exists k. split; [exact K1|]. exists c. auto.
    + intros j Hj. apply Av. split; [lia|]. apply H4. exact Hj.
    + intros j Hj Hc. apply (H4 j Hj). exact Hc.
    + intros j Hj Ht. apply Av in Hj as [J1 J2]. pose proof (text_not_cut s j Ht) as Nc. destruct (C1 j J1 J2 Nc) as (h' & Hh' & Hj'). rewrite El in Hh', C3.
      apply in_app_iff in Hh' as [Hh'|[<-|Hh']].
      * exfalso. specialize (Hu h' Hh'). apply Bool.not_true_iff_false in Hu. apply Hu. apply clean_text_nonnil. apply raw_letters. destruct Ht as (d & D1 & D2). exists j, d. auto.
      * lia.
      * assert (S : StronglySorted hole_lt (h :: v)) by (clear -C3; induction u as [|y u IH]; [exact C3|]; inversion C3; auto).
        inversion S as [|? ? _ F]; subst. rewrite Forall_forall in F. specialize (F h' Hh'). unfold hole_lt in F. lia.
    + intros H. apply Av in H as [J1 J2]. destruct H3 as [H3|[H3|H3]]; [lia|contradiction|exact H3].
  - intros j Hj Ht. apply Av in Hj as [J1 J2]. destruct (C1 j J1 J2 (text_not_cut s j Ht)) as (h' & Hh' & Hj').
    assert (F : In h' (filter (fun h => nonnil (clean_text (raw s h))) (holes s (taken ign ms) (m_start part) (m_end part) never (Some title_seps)))).
    { apply filter_In. split; [exact Hh'|]. apply clean_text_nonnil. apply raw_letters. destruct Ht as (d & D1 & D2). exists j, d. auto. }
    destruct (filter _ _); [destruct F|discriminate].
Qed.
Lemma not_folder ms : nonnil (tagged (lit "filepart-title") ms) = false <-> no_folder_title ms.
Proof.
  rewrite <- Bool.not_true_iff_false, nonnil_iff. split.
  - intros H m Hm Ht. apply H. intros E. assert (F : In m []); [|destruct F]. rewrite <- E. apply filter_In. split; [exact Hm|apply has_tag_iff; exact Ht].
  - intros H Hn. destruct (tagged (lit "filepart-title") ms) as [|m l] eqn:E; [congruence|]. assert (F : In m (m :: l)) by (left; reflexivity). rewrite <- E in F.
    apply filter_In in F as [F1 F2]. apply has_tag_iff in F2. exact (H m F1 F2).
Qed.
(** What is added: the cleaned text of the zone, as a title *)
Definition folder_title (s : str) (h : span) (t : mt) : Prop := title_of s "title" h t.
Lemma folder_appended s ms tags h : nonempty ms -> (forall m, In m ms -> m_name m <> []) -> nonnil (clean_text (raw s h)) = true ->
  exists t, append_named (lit "title") (clean_hole s [] tags h) ms = ms ++ [t] /\ folder_title s h t /\ m_tags t = tags.
Proof.
  intros NE Hn Hv. unfold append_named. assert (mmem (clean_hole s [] tags h) ms = false) as ->.
  { apply mmem_false. intros x Hx Ek. apply (Hn x Hx). unfold mkey, clean_hole, simple in Ek. cbn [m_start m_end m_name m_value m_parent] in Ek. congruence. }
  eexists. split; [reflexivity|]. split; [|reflexivity]. pose proof (clean_title s "title" h Hv) as T. unfold folder_title, title_of, clean_hole, simple, set_name in *. cbn [m_name m_start m_end m_value m_private] in *. exact T.
Qed.
(** ** C60 *)
(** <series>/<season>/<episode>: the text of the third folder is added as a title, exactly when the file name has an episode number,
    its folder a season number and no title of a folder was found before *)
Theorem C60_three : forall s markers ms up series season file, store_ok s markers ms -> (forall m, In m ms -> m_name m <> []) ->
  named (lit "path") markers = up ++ [series; season; file] -> m_start series < m_end series ->
  (exists h t, no_folder_title ms /\ has_in ms "episode" file /\ has_in ms "season" season /\ first_text s ms series h /\
     folder_title s h t /\ Filepart3EpisodeTitle s markers ms = ms ++ [t]) \/
  (Filepart3EpisodeTitle s markers ms = ms /\
     ~ (no_folder_title ms /\ has_in ms "episode" file /\ has_in ms "season" season /\ exists j, available s ms series j /\ text_at s j)).
Proof.
  intros s markers ms up series season file W Hn Hm Lp. unfold Filepart3EpisodeTitle.
  assert (In3 : In series markers /\ In season markers /\ In file markers).
  { assert (X : forall x, In x (up ++ [series; season; file]) -> In x markers) by (intros x Hx; rewrite <- Hm in Hx; apply named_In in Hx; tauto).
    repeat split; apply X; apply in_app_iff; right; cbn; auto. }
  destruct In3 as (I1 & I2 & I3). rewrite Hm, rev_app_distr. cbn [rev app].
  destruct (nonnil (tagged (lit "filepart-title") ms)) eqn:Et.
  { right. split; [reflexivity|]. intros (H & _). apply not_folder in H. congruence. }
  apply not_folder in Et. destruct (part_has s ms (lit "episode") file && part_has s ms (lit "season") season) eqn:Ec.
  - apply Bool.andb_true_iff in Ec as [E1 E2]. apply (part_has_ok s markers ms _ file W I3) in E1.
    apply (part_has_ok s markers ms _ season W I2) in E2.
    pose proof (folder_hole_spec s markers ms series W I1 Lp) as F. destruct (folder_hole s ms series) as [h|].
    + destruct F as [F V]. destruct (folder_appended s ms [] h (so_nonempty _ _ _ W) Hn V) as (t & T1 & T2 & _). left. exists h, t. auto 10.
    + right. split; [reflexivity|]. intros (_ & _ & _ & j & J1 & J2). exact (F j J1 J2).
  - right. split; [reflexivity|]. intros (_ & H1 & H2 & _). apply (part_has_ok s markers ms _ file W I3) in H1.
    apply (part_has_ok s markers ms _ season W I2) in H2. rewrite H1, H2 in Ec. discriminate.
Qed.
Print Assumptions C60_three.
(** <series>/<episode>: the text of the folder is added as a title, exactly when the file name has an episode number, it or the folder
    a season number and no title of a folder was found before *)
Theorem C60_two : forall s markers ms up series file, store_ok s markers ms -> (forall m, In m ms -> m_name m <> []) ->
  named (lit "path") markers = up ++ [series; file] -> m_start series < m_end series ->
  (exists h t, no_folder_title ms /\ has_in ms "episode" file /\ (has_in ms "season" series \/ has_in ms "season" file) /\ first_text s ms series h /\
     folder_title s h t /\ m_tags t = [lit "filepart-title"] /\ Filepart2EpisodeTitle s markers ms = ms ++ [t]) \/
  (Filepart2EpisodeTitle s markers ms = ms /\
     ~ (no_folder_title ms /\ has_in ms "episode" file /\ (has_in ms "season" series \/ has_in ms "season" file) /\ exists j, available s ms series j /\ text_at s j)).
Proof.
  intros s markers ms up series file W Hn Hm Lp. unfold Filepart2EpisodeTitle.
  assert (In3 : In series markers /\ In file markers).
  { assert (X : forall x, In x (up ++ [series; file]) -> In x markers) by (intros x Hx; rewrite <- Hm in Hx; apply named_In in Hx; tauto).
    repeat split; apply X; apply in_app_iff; right; cbn; auto. }
  destruct In3 as (I1 & I3). rewrite Hm, rev_app_distr. cbn [rev app].
  destruct (nonnil (tagged (lit "filepart-title") ms)) eqn:Et.
  { right. split; [reflexivity|]. intros (H & _). apply not_folder in H. congruence. }
  apply not_folder in Et.
  assert (Q : part_has s ms (lit "episode") file && (part_has s ms (lit "season") series || part_has s ms (lit "season") file) = true <->
    has_in ms "episode" file /\ (has_in ms "season" series \/ has_in ms "season" file)).
  { rewrite Bool.andb_true_iff, Bool.orb_true_iff, (part_has_ok s markers ms _ file W I3), (part_has_ok s markers ms _ series W I1), (part_has_ok s markers ms _ file W I3). reflexivity. }
  destruct (part_has s ms (lit "episode") file && _) eqn:Ec.
  - destruct (proj1 Q eq_refl) as [E1 E2].
    pose proof (folder_hole_spec s markers ms series W I1 Lp) as F. destruct (folder_hole s ms series) as [h|].
    + destruct F as [F V]. destruct (folder_appended s ms [lit "filepart-title"] h (so_nonempty _ _ _ W) Hn V) as (t & T1 & T2 & T3). left. exists h, t. auto 12.
    + right. split; [reflexivity|]. intros (_ & _ & _ & j & J1 & J2). exact (F j J1 J2).
  - right. split; [reflexivity|]. intros (_ & H1 & H2 & _). enough (false = true) by discriminate. apply Q. auto.
Qed.
Print Assumptions C60_two.
Theorem C60_few : forall s markers ms, List.length (named (lit "path") markers) < 2 ->
  Filepart3EpisodeTitle s markers ms = ms /\ Filepart2EpisodeTitle s markers ms = ms.
Proof.
  intros s markers ms H. unfold Filepart3EpisodeTitle, Filepart2EpisodeTitle. rewrite <- rev_length in H.
  destruct (rev (named (lit "path") markers)) as [|a [|b r]]; cbn [List.length] in H; [| |lia]; destruct (nonnil _); auto.
Qed.
Print Assumptions C60_few.
(** limit: both rules may add a title: "Show/Season 1 Dub/E02.mkv" *)
Theorem C60_limit : exists s markers ms t u, store_ok s markers ms /\ m_name t = lit "title" /\ m_name u = lit "title" /\ m_value t <> m_value u /\
  Filepart3EpisodeTitle s markers ms = ms ++ [t] /\ Filepart2EpisodeTitle s markers (ms ++ [t]) = ms ++ [t; u].
Proof.
  exists (lit "Show/Season 1 Dub/E02.mkv"), [mk "path" 0 4; mk "path" 5 17; mk "path" 18 25],
    [simple 5 13 (lit "season") (MvInt 1) []; simple 18 21 (lit "episode") (MvInt 2) []; simple 21 25 (lit "container") (MvStr (lit "mkv")) []],
    (simple 0 4 (lit "title") (MvStr (lit "Show")) []), (simple 13 17 (lit "title") (MvStr (lit "Dub")) [lit "filepart-title"]).
  split; [|split; [reflexivity|split; [reflexivity|split; [discriminate|split; vm_compute; reflexivity]]]].
  split; try (unfold inside, nonempty; cbn; intros m Hm; repeat (destruct Hm as [<-|Hm]; [cbn; lia|]); destruct Hm).
  - unfold distinct. cbn. repeat constructor; cbn; intuition discriminate.
  - unfold distinct. cbn. repeat constructor; cbn; intuition discriminate.
Qed.
Print Assumptions C60_limit.
