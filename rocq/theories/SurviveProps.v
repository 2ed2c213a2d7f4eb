(** No silent loss (C98): a match is lost by the rules only for one of a few reasons. *)
From Verif Require Import Py PyFacts Text TextFacts Sort Formatters Common Rebulk RebulkFacts RuleSpec Processors ProcessorsSpec Language Other ScreenSize SmallRules Title EpisodeTitle Episodes EpisodesProofs EpisodeRules EpisodeRulesProps Technical ReleaseGroup WebsiteProps Equivalent EquivalentProps Pipeline PipelineProps.
From Coq Require Import Arith ZifyBool.

(** ** Specification *)
(** the same value, but for the case of a text *)
Definition value_alike (v w : mval) : Prop := v = w \/ exists a b, v = MvStr a /\ w = MvStr b /\ lower a = lower b.
(** [x] tells the same as [m]: it has its name, its value and its place, which may have grown *)
Definition same_fact (m x : mt) : Prop :=
  m_name x = m_name m /\ value_alike (m_value m) (m_value x) /\ m_private x = m_private m /\ m_parent x = m_parent m /\ m_start x <= m_start m /\ m_end m <= m_end x.
(** the properties that have rules of their own *)
Definition handled : list string :=
  ["episode"; "season"; "count"; "weak_episode"; "weak_duplicate"; "episodeMarker"; "episodeSeparator"; "seasonSeparator"; "version"; "episode_details"; "source"; "other"; "another";
   "streaming_service"; "edition"; "audio_codec"; "audio_profile"; "audio_channels"; "video_codec"; "video_profile"; "audio_bit_rate"; "screen_size"; "website"; "year"; "part"; "title";
   "alternative_title"; "episode_title"; "language"; "subtitle_language"; "subtitle_language.prefix"; "subtitle_language.suffix"; "country"]%string.
(** the tags that ask for a validation *)
Definition weak_tags : list string :=
  ["weak-episode"; "weak-duplicate"; "weak-audio_channels"; "website.prefix"; "weak-language"; "has-neighbor"; "has-neighbor-before"; "has-neighbor-after"]%string.
Definition overlap (a b : mt) : Prop := exists i, m_start a <= i < m_end a /\ m_start b <= i < m_end b.
(** what is last in a part of the path, after a dash, is taken for a release group *)
Definition dash_last (s : str) (markers ms : list mt) (c : mt) : Prop :=
  In c ms /\ m_start c < m_end c /\ nth_error s (m_start c - 1) = Some 45%N /\ 0 < m_start c /\
  exists part, In part markers /\ m_name part = lit "path" /\ (m_end c = m_end part \/ exists k, In k ms /\ m_name k = lit "container" /\ m_end k = m_end part /\ m_end c = m_start k).
(** the path is in several parts: folders and a file *)
Definition several_parts (markers : list mt) : Prop := 1 < List.length (filter (fun g => str_eqb (m_name g) (lit "path")) markers).
Inductive reason (s : str) (markers ms : list mt) (m : mt) : Prop :=
(* its property has rules of its own *)
| r_handled : one_of handled (m_name m) -> reason s markers ms m
(* it is a part of a match, or a match with parts *)
| r_part : m_parent m <> None -> reason s markers ms m
| r_whole x p : In x ms -> m_parent x = Some p -> p_name p = m_name m -> reason s markers ms m
(* it, or its equal, is to be validated *)
| r_weak r t : In r ms -> mkey r = mkey m -> In t weak_tags -> tag t r -> reason s markers ms m
(* it is also read as a year, a language or an audio profile *)
| r_overlap y : In y ms -> one_of ["year"; "language"; "audio_profile"]%string (m_name y) -> overlap m y -> reason s markers ms m
(* there is another value, and several parts in the path *)
| r_other y : several_parts markers -> In y ms -> m_name y = m_name m -> m_value y <> m_value m -> reason s markers ms m
(* the same value is there in private and in public *)
| r_double y : In y ms -> m_name y = m_name m -> m_value y = m_value m -> m_private y <> m_private m -> reason s markers ms m
(* it is taken for a release group *)
| r_group c : (forall x, In x ms -> m_name x <> lit "release_group") -> dash_last s markers ms c -> overlap m c -> reason s markers ms m.

(** ** Proofs *)
Lemma key_facts a b : mkey a = mkey b -> m_start a = m_start b /\ m_end a = m_end b /\ m_name a = m_name b /\ m_value a = m_value b /\ m_parent a = m_parent b.
Proof. unfold mkey. intros E. injection E. auto. Qed.
Lemma keep_remove1 r m : forall ms, In m ms -> In m (remove1 r ms) \/ mkey r = mkey m.
Proof.
  induction ms as [|x ms IH]; [intros []|]. cbn [remove1]. intros [->|H].
  - destruct (mt_eqb r m) eqn:E; [right; apply mt_eqb_eq; exact E|left; left; reflexivity].
  - destruct (mt_eqb r x); [left; exact H|]. destruct (IH H) as [K|K]; [left; right; exact K|right; exact K].
Qed.
Lemma keep_remove l m : forall ms, In m ms -> In m (remove_all l ms) \/ exists r, In r l /\ mkey r = mkey m.
Proof.
  unfold remove_all. induction l as [|r l IH]; intros ms H; [left; exact H|]. cbn [fold_left]. destruct (keep_remove1 r m ms H) as [K|K]; [|right; exists r; split; [left; reflexivity|exact K]].
  destruct (IH _ K) as [J|(y & Hy & E)]; [left; exact J|right; exists y; split; [right; exact Hy|exact E]].
Qed.
Lemma keep_append l m ms : In m ms -> In m (append_all l ms).
Proof. intros H. destruct (append_all_app l ms) as (new & -> & _). apply in_or_app. left. exact H. Qed.
Lemma keep_rename n l m ms : In m ms -> In m (rename_all n l ms) \/ exists r, In r l /\ mkey r = mkey m.
Proof.
  intros H. destruct (keep_remove l m ms H) as [K|K]; [left|right; exact K]. unfold rename_all. revert K. generalize (remove_all l ms). induction (removed l ms) as [|y r IH]; intros acc K; [exact K|]. cbn [fold_left]. apply IH. destruct (mmem y acc); [exact K|apply in_or_app; left; exact K].
Qed.
Lemma alike_refl v : value_alike v v. Proof. left. reflexivity. Qed.
Lemma alike_trans u v w : value_alike u v -> value_alike v w -> value_alike u w.
Proof. intros [->|(a & b & -> & -> & E)]; [auto|]. intros [<-|(c & d & H & -> & G)]; [right; exists a, b; auto|]. injection H as <-. right. exists a, d. repeat split; congruence. Qed.
Lemma same_refl m : same_fact m m. Proof. repeat split; auto using alike_refl. Qed.
Lemma same_trans a b c : same_fact a b -> same_fact b c -> same_fact a c.
Proof.
  intros (A1 & A2 & A3 & A4 & A5 & A6) (B1 & B2 & B3 & B4 & B5 & B6).
  split; [congruence|]. split; [eapply alike_trans; eauto|]. split; [congruence|]. split; [congruence|]. lia.
Qed.
Lemma conflicting_sub y ms p x : In x (conflicting y ms p) -> In x ms /\ overlap x y /\ p x = true.
Proof.
  unfold conflicting. intros H. apply filter_In in H as [H P]. split; [|split; [|exact P]].
  all: assert (G : forall l : list mt, In x ((fix rm (l : list mt) := match l with [] => [] | x :: r => if mt_eqb y x then r else x :: rm r end) l) -> In x l) by
    (induction l as [|z l IH]; [auto|]; destruct (mt_eqb y z); [intros K; right; exact K|intros [->|K]; [left; reflexivity|right; auto]]).
  all: apply G in H; clear G.
  all: assert (G : forall l acc, In x (fold_left (fun acc i => merge_new acc (at_index i ms)) l acc) -> In x acc \/ exists i, In i l /\ In x (at_index i ms)) by
    (induction l as [|i l IH]; intros acc K; [left; exact K|]; cbn [fold_left] in K; apply IH in K as [K|(j & J1 & J2)]; [apply merge_new_sub in K as [K|K]; [left; exact K|right; exists i; split; [left; reflexivity|exact K]]|right; exists j; split; [right; exact J1|exact J2]]).
  all: apply G in H as [[]|(i & H1 & H2)]; apply filter_In in H2 as [H2 H3].
  - exact H2.
  - apply in_seq in H1. unfold covers in H3. exists i. lia.
Qed.
Lemma filter_range s ms a b p x : In x (range s ms a b p) -> In x ms /\ p x = true.
Proof. intros H. apply range_In in H. tauto. Qed.
Lemma concat_In {A B} (f : A -> list B) l x : In x (List.concat (map f l)) -> exists y, In y l /\ In x (f y).
Proof. intros H. apply in_concat in H as (u & U & H). apply in_map_iff in U as (y & <- & Hy). exists y. auto. Qed.
Lemma joins_fst l : fst (joins l) = List.concat (map fst l).
Proof. rewrite joins_eq. reflexivity. Qed.
Lemma smem_names n l : smem n (map lit l) = true -> one_of l n.
Proof. intros H. apply smem_In in H. apply in_map_iff in H as (t & <- & T). exists t. auto. Qed.
Lemma until_sub v l x : In x (until v l) -> In x l.
Proof. induction l as [|y l IH]; cbn [until]; [intros []|]. destruct (v y); [intros []|]. intros [->|H]; [left; reflexivity|right; auto]. Qed.
Lemma duplicates_sub pat l : forall seen x, In x (duplicates pat l seen) -> In x l.
Proof. induction l as [|y l IH]; intros seen x; cbn [duplicates]; [intros []|]. destruct (existsb _ seen); [intros [->|H]; [left; reflexivity|right; eauto]|intros H; right; eauto]. Qed.

(** the holes are free *)
Lemma holes_free s ms a b hseps h j : In h (holes s ms a b never hseps) -> fst h <= j < snd h -> at_index j ms = [].
Proof.
  unfold holes. set (e := Nat.min (max_end s ms) b). set (l := hole_start a ms never).
  assert (F : forall i, forallb never (at_index i ms) = true -> at_index i ms = []) by (intros i; destruct (at_index i ms); [reflexivity|discriminate]).
  assert (G : forall n i st, (forall x, h_open st = Some x -> forall j, x <= j < i -> at_index j ms = []) -> (forall h, In h (h_done st) -> forall j, fst h <= j < snd h -> at_index j ms = []) ->
    let st' := fold_left (hole_step s ms never hseps a) (seq i n) st in
    (forall x, h_open st' = Some x -> forall j, x <= j < i + n -> at_index j ms = []) /\ (forall h, In h (h_done st') -> forall j, fst h <= j < snd h -> at_index j ms = [])).
  { induction n as [|n IH]; intros i st O D; [cbn; rewrite Nat.add_0_r; auto|]. cbn [seq fold_left]. replace (i + S n) with (S i + n) by lia. apply IH.
    - unfold hole_step. destruct (h_open st) as [x|] eqn:E.
      + destruct (match hseps with Some (c :: r) => match nth_error s i with Some d => cmem d (c :: r) | None => false end | _ => false end); [discriminate|]. destruct (forallb never (at_index i ms)) eqn:Fr; [|discriminate]. intros y Y. rewrite E in Y. injection Y as <-. intros j0 J. destruct (Nat.eq_dec j0 i) as [->|]; [apply F; exact Fr|apply (O x eq_refl); lia].
      + destruct (forallb never (at_index i ms)) eqn:Fr; cbn [h_open]; [|rewrite E; discriminate]. intros y Y. injection Y as <-. intros j0 J. replace j0 with i by lia. apply F, Fr.
    - unfold hole_step. destruct (h_open st) as [x|] eqn:E.
      + assert (K : forall h0, In h0 ((x, i) :: h_done st) -> forall j0, fst h0 <= j0 < snd h0 -> at_index j0 ms = []) by (intros h0 [<-|H0]; [apply (O x eq_refl)|apply D; exact H0]).
        destruct (match hseps with Some (c :: r) => match nth_error s i with Some d => cmem d (c :: r) | None => false end | _ => false end); [exact K|]. destruct (forallb never (at_index i ms)); [exact D|exact K].
      + destruct (forallb never (at_index i ms)); exact D. }
  destruct (G (e - l) l (mk_h None [])) as [O D]; [discriminate|intros h0 []|]. cbv zeta in O, D. destruct (h_open (fold_left _ _ _)) as [x|] eqn:E; intros H; apply in_rev in H; [destruct H as [<-|H]|]; [|eauto|eauto].
  cbn [fst snd]. intros J. apply (O x eq_refl). lia.
Qed.

Section Survive.
  Context (context : dict) (s : str) (markers ms : list mt) (m : mt) (Hm : In m ms).
  Notation R := (reason s markers ms m).
  Definition ok (ms' : list mt) : Prop := (exists x, In x ms' /\ same_fact m x) \/ R.
  Lemma k_self ms' : In m ms' -> ok ms'.
  Proof. intros H. left. exists m. split; [exact H|apply same_refl]. Qed.
  Lemma k_remove l : (forall r, In r l -> mkey r = mkey m -> R) -> ok (remove_all l ms).
  Proof. intros H. destruct (keep_remove l m ms Hm) as [K|(r & Hr & E)]; [apply k_self; exact K|right; eauto]. Qed.
  Lemma k_rename n l : (forall r, In r l -> mkey r = mkey m -> R) -> In m (rename_all n l ms) \/ R.
  Proof. intros H. destruct (keep_rename n l m ms Hm) as [K|(r & Hr & E)]; [left; exact K|right; eauto]. Qed.
  Lemma k_change c : (forall r, In r (fst c) -> mkey r = mkey m -> R) -> ok (apply_change c ms).
  Proof. intros H. destruct (keep_remove (fst c) m ms Hm) as [K|(r & Hr & E)]; [apply k_self, keep_append, K|right; eauto]. Qed.
  Lemma by_name n r : In n handled -> m_name r = lit n -> mkey r = mkey m -> R.
  Proof. intros N E K. apply key_facts in K as (_ & _ & K & _). apply r_handled. exists n. split; [exact N|congruence]. Qed.
  Lemma by_names l r : (forall n, In n l -> In n handled) -> one_of l (m_name r) -> mkey r = mkey m -> R.
  Proof. intros L (n & N & E) K. eapply by_name; eauto. Qed.
  Lemma by_tag t r : In t weak_tags -> In r ms -> has_tag (lit t) r = true -> mkey r = mkey m -> R.
  Proof. intros T H G K. eapply r_weak; eauto. apply has_tag_iff. exact G. Qed.
  Lemma by_kid ini kids i k : family ini kids ms -> In k (kids i) -> mkey k = mkey m -> R.
  Proof. intros [_ F] H K. specialize (F i k H). apply key_facts in K as (_ & _ & _ & _ & K). apply r_part. rewrite <- K. destruct (m_parent k); [discriminate|destruct F]. Qed.
  (** the initiator of a match with a handled name *)
  Lemma by_ini ini kids n x : family ini kids ms -> In x ms -> In n handled -> m_name x = lit n -> mkey (ini x) = mkey m -> R.
  Proof.
    intros [F _] H N E K. specialize (F x H). destruct (m_parent x) as [p|] eqn:P; [|rewrite F in K; eapply by_name; eauto]. apply key_facts in K as (_ & _ & K & _). eapply (r_whole _ _ _ _ x p); eauto. congruence.
  Qed.
  (** a match whose initiator has a handled name *)
  Lemma by_ini_name ini kids n r : family ini kids ms -> In r ms -> In n handled -> m_name (ini r) = lit n -> mkey r = mkey m -> R.
  Proof.
    intros [F _] H N E K. specialize (F r H). destruct (m_parent r) as [p|] eqn:P; [|rewrite F in E; eapply by_name; eauto]. apply key_facts in K as (_ & _ & _ & _ & K). apply r_part. congruence.
  Qed.
  Lemma by_overlap y r : In y ms -> one_of ["year"; "language"; "audio_profile"]%string (m_name y) -> overlap r y -> mkey r = mkey m -> R.
  Proof. intros H N O K. apply key_facts in K as (K1 & K2 & _). apply (r_overlap _ _ _ _ y H N). unfold overlap in *. rewrite <- K1, <- K2. exact O. Qed.
End Survive.
Ltac hd := cbn [In handled weak_tags]; repeat (first [left; reflexivity|right]).
Section Rules.
  Context (context : dict) (s : str) (markers ms : list mt) (m : mt) (Hm : In m ms).
  Notation R := (reason s markers ms m).
  Notation ok := (ok s markers ms m).
  Lemma same : ok ms. Proof. apply k_self. exact Hm. Qed.
  Lemma has_name_eq n x : has_name n x = true -> m_name x = n. Proof. apply has_name_iff. Qed.
  (** removing some of the matches of a handled name *)
  Lemma k_named n l : In n handled -> (forall r, In r l -> m_name r = lit n) -> ok (remove_all l ms).
  Proof. intros N H. apply k_remove; [exact Hm|]. intros r Hr K. eapply by_name; eauto. Qed.
  Lemma k_filter n p : In n handled -> ok (remove_all (filter p (named (lit n) ms)) ms).
  Proof. intros N. apply (k_named n); [exact N|]. intros r Hr. apply filter_In in Hr as [Hr _]. apply named_In in Hr. tauto. Qed.
  Lemma k_tagged t l : In t weak_tags -> (forall r, In r l -> In r ms /\ has_tag (lit t) r = true) -> ok (remove_all l ms).
  Proof. intros N H. apply k_remove; [exact Hm|]. intros r Hr K. destruct (H r Hr). eapply by_tag; eauto. Qed.
  Lemma k_unless n rule ms' : ok (rule ms) -> unless_disabled context n rule ms = Ok ms' -> ok ms'.
  Proof. intros G. unfold unless_disabled. destruct (is_disabled context n) as [d|]; [|discriminate]. cbn [bind]. intros E. injection E as <-. destruct d; [apply same|exact G]. Qed.
  Lemma part_sub part p x : In x (in_part_of s ms part p) -> In x ms /\ p x = true.
  Proof. apply filter_range. Qed.

  (** *** episodes *)
  Lemma k_weak_conflict ini kids : family ini kids ms -> ok (WeakConflictSolver context s ini kids markers ms).
  Proof.
    intros F. unfold WeakConflictSolver. destruct (type_is _ _); [apply same|]. apply k_change; [exact Hm|]. unfold weak_conflict. set (an := is_anime s markers ms).
    assert (G : forall parts st, (forall r, In r (fst st) -> mkey r = mkey m -> R) -> forall r, In r (fst (fold_left (weak_conflict_part s ini kids an ms) parts st)) -> mkey r = mkey m -> R); [|apply (G _ ([], [])); intros r []].
    induction parts as [|p parts IH]; intros st H; [exact H|]. cbn [fold_left]. apply IH. clear IH. intros r. unfold weak_conflict_part.
    assert (D : In r (in_part_of s ms p (fun m => has_name (lit "weak_duplicate") (ini m))) -> mkey r = mkey m -> R).
    { intros Hr. apply part_sub in Hr as [H1 H2]. apply has_name_eq in H2. eapply (by_ini_name s markers ms m ini kids "weak_duplicate"); eauto. hd. }
    assert (W : In r (in_part_of s ms p (fun m => has_name (lit "weak_episode") (ini m))) -> mkey r = mkey m -> R).
    { intros Hr. apply part_sub in Hr as [H1 H2]. apply has_name_eq in H2. eapply (by_ini_name s markers ms m ini kids "weak_episode"); eauto. hd. }
    assert (Ep : forall q, In r (in_part_of s ms p (fun m => has_name (lit "episode") m && q m)) -> mkey r = mkey m -> R).
    { intros q Hr. apply part_sub in Hr as [H1 H2]. apply andb_true_iff in H2 as [H2 _]. apply has_name_eq in H2. eapply (by_name s markers ms m "episode"); eauto. hd. }
    destruct an.
    - destruct (nonnil (in_part_of _ _ _ _)); [|apply H]. cbn [fst]. rewrite !in_app_iff. intros [Hr|[Hr|Hr]]; [exact (H r Hr)|exact (D Hr)|eapply Ep; exact Hr].
    - destruct (nonnil (in_part_of s ms p (fun m => has_name (lit "weak_duplicate") (ini m)))); [|apply H].
      assert (G : forall st' : change, (In r (fst st') -> mkey r = mkey m -> R) -> In r (fst (if nonnil (snd st') then (fst st' ++ in_part_of s ms p (fun m => has_name (lit "weak_duplicate") (ini m)), snd st') else st')) -> mkey r = mkey m -> R).
      { intros st' H'. destruct (nonnil (snd st')); cbn [fst]; [|apply H']. rewrite in_app_iff. intros [Hr|Hr]; [exact (H' Hr)|exact (D Hr)]. }
      apply G. destruct (negb _ && negb _); cbn [fst]; rewrite in_app_iff; intros [Hr|Hr]; [exact (H r Hr)|exact (W Hr)|exact (H r Hr)|]. apply part_sub in Hr as [H1 H2]. apply andb_true_iff in H2 as [H2 _]. apply andb_true_iff in H2 as [H2 _]. apply has_name_eq in H2. eapply (by_name s markers ms m "episode"); eauto. hd.
  Qed.
  Lemma by_family ini kids n x r : family ini kids ms -> In x ms -> In n handled -> m_name x = lit n -> In r (ini x :: kids (ini x)) -> mkey r = mkey m -> R.
  Proof. intros F H N E [<-|Hr] K; [eapply by_ini; eauto|eapply by_kid; eauto]. Qed.
  Lemma k_invalid_season ini kids : family ini kids ms -> ok (RemoveInvalidSeason s ini kids markers ms).
  Proof.
    intros F. apply k_remove; [exact Hm|]. intros r Hr K. apply concat_In in Hr as (part & _ & Hr). unfold invalid_season_part in Hr. destruct (first _) as [st|]; [|destruct Hr]. destruct (_ && _); [|destruct Hr].
    apply concat_In in Hr as (x & Hx & Hr). apply filter_range in Hx as [H1 H2]. apply andb_true_iff in H2 as [H2 _]. apply has_name_eq in H2. destruct (_ || _); [|destruct Hr]. assert (N : In "season"%string handled) by hd.
    destruct (m_truthy (ini x)); [eapply by_family; eauto|]. destruct Hr as [<-|[]]. eapply by_name; eauto.
  Qed.
  Lemma prefix_name x b : episode_prefix ms x = Some b -> In b ms \/ True. Proof. auto. Qed.
  Lemma k_invalid_episode ini kids : family ini kids ms -> ok (RemoveInvalidEpisode s ini kids markers ms).
  Proof.
    intros F. apply k_remove; [exact Hm|]. intros r Hr K. apply concat_In in Hr as (part & _ & Hr). unfold invalid_episode_part in Hr. destruct (first _) as [st|]; [|destruct Hr]. destruct (m_truthy st); [|destruct Hr].
    apply concat_In in Hr as (x & Hx & Hr). apply filter_range in Hx as [H1 H2]. apply andb_true_iff in H2 as [H2 _]. apply has_name_eq in H2. assert (N : In "episode"%string handled) by hd.
    destruct (episode_prefix ms st) as [a|]; [|destruct Hr]. destruct (episode_prefix ms x) as [b|] eqn:B; [|destruct Hr]. destruct (str_eqb _ _); [destruct Hr|]. destruct (m_truthy (ini x)); [eapply by_family; eauto|].
    destruct Hr as [<-|[<-|[]]]; [|eapply by_name; eauto]. unfold episode_prefix in B. destruct (first _) as [y|] eqn:Y; [|discriminate]. destruct (m_truthy y); [|discriminate]. injection B as ->.
    apply first_sub in Y. apply filter_In in Y as [_ Y]. apply (smem_names _ ["episodeMarker"; "episodeSeparator"]%string) in Y. eapply (by_names s markers ms m ["episodeMarker"; "episodeSeparator"]%string); eauto. intros n [<-|[<-|[]]]; hd.
  Qed.
  Lemma k_see seps : ok (SeePatternRange seps ms).
  Proof.
    apply k_change; [exact Hm|]. intros r Hr K. rewrite joins_fst in Hr. rewrite map_map in Hr. apply concat_In in Hr as (sep & Hs & Hr). apply filter_In in Hs as [_ Hs]. apply has_name_eq in Hs.
    assert (S0 : r = sep -> R) by (intros ->; eapply (by_name s markers ms m "episodeSeparator"); eauto; hd).
    unfold see_one in Hr. destruct (first (next sep ms _)) as [n1|]; [|destruct Hr]. destruct (m_truthy n1); [|destruct Hr].
    destruct (first (previous sep ms _)) as [p|]; [|destruct Hr as [<-|[]]; apply S0; reflexivity]. destruct (first (next n1 ms _)) as [nx|] eqn:E; [|destruct Hr as [<-|[]]; apply S0; reflexivity]. destruct (_ && _ && _); [|destruct Hr as [<-|[]]; apply S0; reflexivity].
    destruct Hr as [<-|[<-|[]]]; [|apply S0; reflexivity]. apply first_sub in E. apply filter_In in E as [_ E]. unfold is_see in E. apply andb_true_iff in E as [E _]. apply has_name_eq in E. eapply (by_name s markers ms m "episode"); eauto. hd.
  Qed.
  Lemma pairs_name ini seps n can l : forall prev c, In c (pairs s ini seps n can prev l) -> exists p nx, In nx l /\ c = pair_one s ini seps n p nx.
  Proof.
    induction l as [|y l IH]; intros prev c; cbn [pairs]; [intros []|]. assert (U : forall prev', In c (pairs s ini seps n can prev' l) -> exists p nx, In nx (y :: l) /\ c = pair_one s ini seps n p nx).
    { intros prev' H. destruct (IH _ _ H) as (p & nx & H1 & H2). exists p, nx. split; [right; exact H1|exact H2]. }
    destruct prev as [q|]; [intros [<-|H]; [exists q, y; split; [left; reflexivity|reflexivity]|eapply U; exact H]|]. destruct (can y); apply U.
  Qed.
  Lemma k_range n ini seps can : In n handled -> In (n ++ "Separator")%string handled -> lit n ++ lit "Separator" = lit (n ++ "Separator") -> ok (apply_change (separator_range s ini seps (lit n) can ms) ms).
  Proof.
    intros N NS ES. apply k_change; [exact Hm|]. intros r Hr K. unfold separator_range, join in Hr. cbn [fst] in Hr. apply in_app_iff in Hr as [Hr|Hr].
    - rewrite joins_fst, map_map in Hr. apply concat_In in Hr as (sep & Hs & Hr). apply named_In in Hs as [_ Hs]. rewrite ES in Hs. assert (S0 : r = sep -> R) by (intros ->; exact (by_name s markers ms m _ _ NS Hs K)).
      unfold sep_one in Hr. destruct (first (previous sep ms _)) as [p|]; [|destruct Hr as [<-|[]]; apply S0; reflexivity]. destruct (first (next sep ms _)) as [nx|] eqn:E; [|destruct Hr as [<-|[]]; apply S0; reflexivity]. destruct (_ && _ && _); [|destruct Hr as [<-|[]]; apply S0; reflexivity].
      destruct Hr as [<-|[<-|[]]]; [|apply S0; reflexivity]. apply first_sub in E. apply filter_In in E as [_ E]. apply has_name_eq in E. exact (by_name s markers ms m n _ N E K).
    - rewrite joins_fst in Hr. apply in_concat in Hr as (u & U & Hr). apply in_map_iff in U as (c & <- & Hc). apply pairs_name in Hc as (p & nx & Hn & ->). cbn [pair_one fst] in Hr. destruct Hr as [<-|[]].
      unfold by_start in Hn. apply (Permutation.Permutation_in _ (Permutation.Permutation_sym (isort_perm _ _))) in Hn || apply (Permutation.Permutation_in _ (isort_perm _ _)) in Hn. apply named_In in Hn as [_ Hn]. exact (by_name s markers ms m n _ N Hn K).
  Qed.
  Lemma k_movie ini kids : family ini kids ms -> ok (RemoveWeakIfMovie context s ini kids markers ms).
  Proof.
    intros F. unfold RemoveWeakIfMovie. destruct (type_is _ _); [apply same|]. apply k_remove; [exact Hm|]. intros r Hr K. unfold movie_removed in Hr. destruct (nonnil _); [|destruct Hr]. apply in_app_iff in Hr as [Hr|Hr].
    - apply concat_In in Hr as (p & _ & Hr). destruct (part_year s ms p) as [y|] eqn:Y; [|destruct Hr]. apply conflicting_sub in Hr as (H1 & H2 & _). unfold part_year in Y. destruct (first _) as [y'|] eqn:E; [|discriminate]. destruct (m_truthy y'); [|discriminate]. injection Y as ->.
      apply first_sub, part_sub in E as [E1 E2]. apply has_name_eq in E2. eapply (by_overlap s markers ms m y r); eauto. exists "year"%string. split; [cbn; auto|exact E2].
    - apply filter_In in Hr as [Hr _]. apply filter_In in Hr as [H1 H2]. eapply (by_tag s markers ms m "weak-episode"); eauto. hd.
  Qed.
  Lemma k_weak_sxxexx ini : ok (RemoveWeakIfSxxExx s ini markers ms).
  Proof.
    apply (k_tagged "weak-episode"); [hd|]. intros r Hr. apply concat_In in Hr as (p & _ & Hr). unfold sxxexx_part in Hr. destruct (nonnil _); [|destruct Hr]. apply filter_In in Hr as [Hr _]. apply part_sub in Hr. exact Hr.
  Qed.
  Lemma k_weak_duplicate pat : ok (RemoveWeakDuplicate s pat markers ms).
  Proof.
    apply (k_tagged "weak-duplicate"); [hd|]. intros r Hr. apply concat_In in Hr as (p & _ & Hr). apply duplicates_sub in Hr. apply in_rev in Hr. apply part_sub in Hr. exact Hr.
  Qed.
  Lemma k_detached ancestors : lineage ancestors ms -> ok (RemoveDetachedEpisodeNumber ancestors ms).
  Proof.
    intros L. unfold RemoveDetachedEpisodeNumber. destruct (detached ms) as [d|] eqn:D; [|apply same]. apply k_remove; [exact Hm|]. intros r Hr K.
    assert (Dn : In d ms /\ m_name d = lit "episode").
    { unfold detached in D. destruct (by_value _) as [|a [|b l]] eqn:B; try discriminate. destruct (_ && _); [|discriminate]. injection D as ->. assert (Hd : In d (by_value (first_values (filter (fun m => negb (m_private m) && weak_ep m) (named (lit "episode") ms)) []))) by (rewrite B; left; reflexivity).
      unfold by_value in Hd. apply (Permutation.Permutation_in _ (Permutation.Permutation_sym (isort_perm _ _))) in Hd || apply (Permutation.Permutation_in _ (isort_perm _ _)) in Hd.
      assert (G : forall l seen, In d (first_values l seen) -> In d l). { induction l0 as [|y l0 IH]; intros seen; cbn [first_values]; [intros []|]. destruct (existsb _ seen); [intros H; right; eauto|intros [->|H]; [left; reflexivity|right; eauto]]. }
      apply G in Hd. apply filter_In in Hd as [Hd _]. apply named_In in Hd. tauto. }
    destruct Dn as [D1 D2]. destruct (L d r D1 Hr) as [->|P]; [eapply (by_name s markers ms m "episode"); eauto; hd|]. destruct (m_parent d) as [p|] eqn:E; [|destruct P]. apply key_facts in K as (_ & _ & K & _). eapply (r_whole _ _ _ _ d p); eauto. congruence.
  Qed.
  Lemma k_weak words : ok (RemoveWeak s words markers ms).
  Proof.
    apply k_change; [exact Hm|]. intros r Hr K. rewrite joins_fst, map_map in Hr. apply concat_In in Hr as (p & _ & Hr). unfold remove_weak_part in Hr. destruct (in_part_of s ms p weak_ep) as [|w rest] eqn:E; [destruct Hr|].
    destruct (first _) as [q|]; [|destruct Hr]. destruct (_ && _); [|destruct Hr]. cbn [fst] in Hr. rewrite <- E in Hr. apply part_sub in Hr as [H1 H2]. eapply (by_tag s markers ms m "weak-episode"); eauto. hd.
  Qed.
  Lemma k_count : ok (CountValidator ms).
  Proof.
    assert (G : forall o r, In r (counts_as ms o) -> mkey r = mkey m -> R). { intros o r Hr K. apply filter_In in Hr as [Hr _]. apply named_In in Hr as [_ Hr]. eapply (by_name s markers ms m "count"); eauto. hd. }
    unfold CountValidator. destruct (keep_remove (counts_as ms None) m ms Hm) as [K|(r & Hr & E)]; [|right; eauto]. destruct (keep_rename (lit "episode_count") (counts_as ms (Some (lit "episode_count"))) m _ K) as [K1|(r & Hr & E)]; [|right; eauto].
    destruct (keep_rename (lit "season_count") (counts_as ms (Some (lit "season_count"))) m _ K1) as [K2|(r & Hr & E)]; [|right; eauto]. apply k_self. exact K2.
  Qed.
  Lemma k_absolute ini kids : family ini kids ms -> ok (RenameToAbsoluteEpisode s ini kids markers ms).
  Proof.
    intros F. unfold RenameToAbsoluteEpisode.
    assert (G : forall r, In r (fst (absolute s ini kids markers ms)) \/ In r (snd (absolute s ini kids markers ms)) -> mkey r = mkey m -> R).
    { intros r Hr K. assert (Ep : In r (named (lit "episode") ms) -> R) by (intros H; apply named_In in H as [_ H]; eapply (by_name s markers ms m "episode"); eauto; hd).
      assert (P : forall part, In r (fst (absolute_part s ini ms part)) \/ In r (snd (absolute_part s ini ms part)) -> R).
      { intros part. unfold absolute_part. destruct (nonnil _); [|intros [[]|[]]]. assert (C : In r (filter (fun m => has_name (lit "weak_episode") (ini m)) (starting (m_start part) ms)) -> R).
        { intros H. apply filter_In in H as [H1 H2]. apply filter_In in H1 as [H1 _]. apply has_name_eq in H2. eapply (by_ini_name s markers ms m ini kids "weak_episode"); eauto. hd. }
        destruct (nonnil _); cbn [fst snd]; intros [H|H]; auto; destruct H. }
      assert (J : forall l, In r (fst (joins (map (absolute_part s ini ms) l))) \/ In r (snd (joins (map (absolute_part s ini ms) l))) -> R).
      { intros l. rewrite joins_fst, joins_snd, !map_map. intros [H|H]; apply concat_In in H as (part & _ & H); eauto. }
      unfold absolute in Hr. destruct (isort _ _) as [|a [|b [|c l]]]; [apply (J (parts_of markers)); exact Hr|apply (J (parts_of markers)); exact Hr| |apply (J (parts_of markers)); exact Hr].
      unfold absolute_groups in Hr. destruct (negb _); [|destruct Hr as [[]|[]]]. destruct (_ =? _); [|destruct Hr as [[]|[]]].
      destruct (filter (fun m0 => mt_eqb (ini m0) a) (named (lit "episode") ms)) as [|x xs] eqn:E1; [destruct Hr as [[]|[]]|]. destruct (filter (fun m0 => mt_eqb (ini m0) b) (named (lit "episode") ms)) as [|y ys] eqn:E2; [destruct Hr as [[]|[]]|].
      destruct (_ <? _)%Z; [cbn [fst snd] in Hr; destruct Hr as [Hr|[]]; rewrite <- E2 in Hr; apply filter_In in Hr as [Hr _]; auto|]. destruct (_ <? _)%Z; [|destruct Hr as [[]|[]]]. cbn [fst snd] in Hr. destruct Hr as [Hr|[]]. rewrite <- E1 in Hr. apply filter_In in Hr as [Hr _]. auto. }
    destruct (k_rename s markers ms m Hm (lit "absolute_episode") (fst (absolute s ini kids markers ms))) as [K|K]; [intros r Hr; apply G; auto| |right; exact K].
    destruct (keep_remove (snd (absolute s ini kids markers ms)) m _ K) as [K2|(r & Hr & E)]; [apply k_self; exact K2|right; eauto].
  Qed.
  Lemma k_disc ini kids ms' : family ini kids ms -> RenameToDiscMatch context ini kids ms = Ok ms' -> ok ms'.
  Proof.
    intros F. unfold RenameToDiscMatch. destruct (is_disabled context (lit "disc")) as [d|]; [|discriminate]. cbn [bind]. intros E. injection E as <-.
    assert (D : forall x, In x (disc_markers ms) -> m_name x = lit "episodeMarker") by (intros x Hx; apply filter_In in Hx as [Hx _]; apply named_In in Hx; tauto). destruct d.
    - apply k_remove; [exact Hm|]. intros r Hr K. apply concat_In in Hr as (x & Hx & [<-|Hr]); [eapply (by_name s markers ms m "episodeMarker"); eauto; hd|eapply by_kid; eauto].
    - destruct (k_rename s markers ms m Hm (lit "disc") (List.concat (map (fun d => by_value (named (lit "episode") (kids (ini d)))) (disc_markers ms)))) as [K|K]; [| |right; exact K].
      + intros r Hr K. apply concat_In in Hr as (x & _ & Hr). unfold by_value in Hr. apply (Permutation.Permutation_in _ (Permutation.Permutation_sym (isort_perm _ _))) in Hr || apply (Permutation.Permutation_in _ (isort_perm _ _)) in Hr. apply named_In in Hr as [Hr _]. eapply by_kid; eauto.
      + destruct (keep_rename (lit "discMarker") (disc_markers ms) m _ K) as [K2|(r & Hr & E)]; [apply k_self; exact K2|right]. eapply (by_name s markers ms m "episodeMarker"); eauto. hd.
  Qed.
  (** *** source, codecs, screen size *)
  Lemma k_source ini kids : family ini kids ms -> ok (ValidateSource s ini kids markers ms).
  Proof.
    intros F. apply k_remove; [exact Hm|]. intros r Hr K. apply concat_In in Hr as (part & _ & Hr). apply concat_In in Hr as (x & Hx & Hr). apply part_sub in Hx as [H1 H2]. apply has_name_eq in H2. destruct (source_alone _ _ _); [|destruct Hr].
    apply (by_family ini kids "source" x r); auto; [hd|]. apply in_app_iff in Hr as [Hr|[<-|[]]]; [right; exact Hr|left; reflexivity].
  Qed.
  Lemma k_weak_source kids : family (fun x => x) kids [] -> ok (ValidateWeakSource s kids markers ms).
  Proof.
    intros [_ F]. apply k_remove; [exact Hm|]. intros r Hr K. apply concat_In in Hr as (part & _ & Hr). apply concat_In in Hr as (x & Hx & Hr). apply part_sub in Hx as [H1 H2]. apply has_name_eq in H2. destruct (weak_source _ _ _ _); [|destruct Hr].
    apply in_app_iff in Hr as [Hr|[<-|[]]]; [|eapply (by_name s markers ms m "source"); eauto; hd]. specialize (F x r Hr). apply key_facts in K as (_ & _ & _ & _ & K). apply r_part. rewrite <- K. destruct (m_parent r); [discriminate|destruct F].
  Qed.
  Lemma k_ultra : ok (UltraHdBluray s markers ms).
  Proof.
    unfold UltraHdBluray.
    assert (P : forall st : list mt * change, (In m (fst st) /\ (forall r, In r (fst (snd st)) -> m_name r = lit "source")) \/ R -> forall part, (In m (fst (uhd_part s st part)) /\ (forall r, In r (fst (snd (uhd_part s st part))) -> m_name r = lit "source")) \/ R).
    { intros st H part. unfold uhd_part. assert (L : forall x, In x (in_part_of s (fst st) part blu_ray) -> m_name x = lit "source").
      { intros x Hx. apply filter_range in Hx as [_ Hx]. unfold blu_ray in Hx. apply andb_true_iff in Hx as [Hx _]. apply andb_true_iff in Hx as [_ Hx]. apply has_name_eq. exact Hx. }
      revert st H L. intros st H. generalize (in_part_of s (fst st) part blu_ray). intros l. revert st H. induction l as [|x l IH]; intros st H L; [exact H|]. cbn [fold_left]. apply IH; [|intros y Hy; apply L; right; exact Hy]. clear IH. destruct H as [[H1 H2]|H]; [|right; exact H].
      unfold uhd_step. destruct (uhd_other s (fst st) part x) as [b o] eqn:U. destruct b; [|left; auto]. cbn [fst snd].
      assert (A : forall r, In r (fst (snd st) ++ [x]) -> m_name r = lit "source") by (intros r Hr; apply in_app_iff in Hr as [Hr|[<-|[]]]; [apply H2; exact Hr|apply L; left; reflexivity]).
      destruct o as [o|]; [|left; auto]. destruct (mt_eqb o m) eqn:E.
      - right. apply mt_eqb_eq in E. eapply (by_name s markers ms m "other" o); [hd| |exact E]. unfold uhd_other in U.
        assert (N : forall l z, truthy_o z = Some o -> (z = first (filter ultra_hd l) \/ z = last_o (filter ultra_hd l)) -> m_name o = lit "other").
        { intros l0 z Z Q. assert (I : In o (filter ultra_hd l0)). { unfold truthy_o in Z. destruct z as [z|]; [|discriminate]. destruct (m_truthy z); [|discriminate]. injection Z as ->. destruct Q as [Q|Q]; symmetry in Q; [apply first_sub in Q|apply last_sub in Q]; exact Q. }
          apply filter_In in I as [_ I]. unfold ultra_hd in I. apply andb_true_iff in I as [I _]. apply andb_true_iff in I as [_ I]. apply has_name_eq. exact I. }
        assert (Af : uhd_after s (fst st) part x = (true, Some o) -> m_name o = lit "other").
        { unfold uhd_after. destruct (truthy_o (first _)) as [o'|] eqn:T; [|intros Q; injection Q; discriminate]. intros Q. assert (o' = o) as -> by (destruct (uhd_range _ _ _ _); injection Q; auto). eapply N; [exact T|left; unfold range; reflexivity]. }
        destruct (truthy_o (last_o _)) as [o'|] eqn:T; [|apply Af; exact U]. destruct (uhd_range _ _ _ _); [|apply Af; exact U]. injection U as ->. eapply N; [exact T|right; unfold range; reflexivity].
      - left. split; [|exact A]. unfold make_private. apply in_map_iff. exists m. rewrite E. auto. }
    assert (G : forall parts (st : list mt * change), (In m (fst st) /\ (forall r, In r (fst (snd st)) -> m_name r = lit "source")) \/ R ->
      let st' := fold_left (uhd_part s) parts st in (In m (fst st') /\ (forall r, In r (fst (snd st')) -> m_name r = lit "source")) \/ R).
    { induction parts as [|p parts IH]; intros st H; [exact H|]. cbn [fold_left]. apply IH. apply P. exact H. }
    destruct (G (parts_of markers) (ms, ([], []))) as [[G1 G2]|G1]; [left; split; [exact Hm|intros r []]| |right; exact G1]. cbv zeta in G1, G2. set (st' := fold_left _ _ _) in *. clearbody st'.
    destruct (keep_remove (fst (snd st')) m (fst st') G1) as [K|(r & Hr & E)]; [apply k_self, keep_append, K|right]. eapply (by_name s markers ms m "source"); eauto. hd.
  Qed.
  Lemma k_audio : ok (AudioValidator s ms).
  Proof.
    apply k_remove; [exact Hm|]. intros r Hr K. apply filter_In in Hr as [Hr _]. apply filter_range in Hr as [_ Hr]. apply (smem_names _ ["audio_codec"; "audio_profile"; "audio_channels"]%string) in Hr. refine (by_names s markers ms m _ r _ Hr K). intros n [<-|[<-|[<-|[]]]]; hd.
  Qed.
  Lemma k_profile codec : ok (remove_all (profile_removed codec ms) ms).
  Proof.
    apply k_remove; [exact Hm|]. intros r Hr K. apply concat_In in Hr as (p & Hp & Hr). apply filter_In in Hp as [Hp _]. apply named_In in Hp as [P1 P2]. destruct (profile_codec ms codec p).
    - apply conflicting_sub in Hr as (_ & O & _). apply (by_overlap s markers ms m p r); auto. exists "audio_profile"%string. split; [cbn; auto|exact P2].
    - destruct Hr as [<-|[]]. eapply (by_name s markers ms m "audio_profile"); eauto. hd.
  Qed.
  Lemma k_channels : ok (remove_all (filter (fun a => negb (nonnil (match m_start a with O => [] | S i => range s ms i (S i) (has_name (lit "audio_codec")) end))) (tagged (lit "weak-audio_channels") ms)) ms).
  Proof. apply (k_tagged "weak-audio_channels"); [hd|]. intros r Hr. apply filter_In in Hr as [Hr _]. apply filter_In in Hr. exact Hr. Qed.
  Lemma mapM_map {A B} (f : A -> res B) l : forall l', mapM f l = Ok l' -> forall x, In x l -> exists y, In y l' /\ f x = Ok y.
  Proof.
    induction l as [|a l IH]; intros l' E x; cbn [mapM] in E; [intros []|]. destruct (f a) as [b|] eqn:Fa; [|discriminate]. cbn [bind] in E. destruct (mapM f l) as [r|]; [|discriminate]. cbn [bind] in E. injection E as <-.
    intros [<-|H]; [exists b; split; [left; reflexivity|exact Fa]|]. destruct (IH r eq_refl x H) as (y & Hy & Ey). exists y. split; [right; exact Hy|exact Ey].
  Qed.
  Lemma k_screen standard lo hi ms' : PostProcess context s standard lo hi ms = Ok ms' -> ok ms'.
  Proof.
    unfold PostProcess. destruct (mapM _ ms) as [l|] eqn:E; [|discriminate]. cbn [bind]. intros G. injection G as <-. destruct (mapM_map _ _ _ E m Hm) as (y & Hy & Ey). destruct (has_name (lit "screen_size") m) eqn:N.
    - right. apply has_name_eq in N. eapply (by_name s markers ms m "screen_size" m); eauto. hd.
    - injection Ey as <-. apply k_self, keep_append. apply in_map_iff. exists (m, []). auto.
  Qed.
  Lemma k_one_size : ok (OnlyOne s markers ms).
  Proof.
    apply (k_named "screen_size"); [hd|]. intros r Hr. apply in_flat_map in Hr as (p & _ & Hr). unfold extra_sizes in Hr. destruct (_ && _); [|destruct Hr]. assert (T : forall (l : list mt) x, In x (tl l) -> In x l) by (intros [|a l] x; [auto|right; auto]).
    apply T, in_rev, filter_range in Hr as [_ Hr]. apply has_name_eq. exact Hr.
  Qed.
  Lemma k_size_conflict : ok (ResolveConflicts s markers ms).
  Proof.
    apply k_remove; [exact Hm|]. intros r Hr K. apply in_flat_map in Hr as (p & _ & Hr). unfold size_conflicts in Hr. destruct (first _) as [z|] eqn:Z; [|destruct Hr]. apply first_sub, filter_range in Z as [Z1 Z2]. apply has_name_eq in Z2. destruct (negb (m_truthy z)); [destruct Hr|].
    destruct (conflicting z ms ScreenSize.season_or_episode) as [|c l] eqn:C; [destruct Hr|]. assert (G : In r (c :: l) -> R).
    { rewrite <- C. intros H. apply conflicting_sub in H as (_ & _ & H). apply (smem_names _ ["season"; "episode"]%string) in H. refine (by_names s markers ms m _ r _ H K). intros n [<-|[<-|[]]]; hd. }
    assert (If : forall b : bool, In r (if b then c :: l else []) -> R) by (intros [|] H; [exact (G H)|destruct H]). apply in_app_iff in Hr as [Hr|Hr]; [eapply If; exact Hr|]. apply in_app_iff in Hr as [Hr|Hr]; [eapply If; exact Hr|].
    destruct (_ || _) in Hr; [destruct Hr|]. destruct Hr as [<-|[]]. eapply (by_name s markers ms m "screen_size"); eauto. hd.
  Qed.
  Lemma k_website safe : ok (PreferTitleOverWebsite safe markers ms).
  Proof. apply (k_filter "website"). hd. Qed.
  Lemma k_website_prefix : ok (ValidateWebsitePrefix s ms).
  Proof. apply (k_tagged "website.prefix"); [hd|]. intros r Hr. apply filter_In in Hr as [Hr _]. apply filter_In in Hr. exact Hr. Qed.
  Lemma k_year : ok (KeepMarkedYear s markers ms).
  Proof.
    unfold KeepMarkedYear. destruct (1 <? _); [|apply same]. apply (k_named "year"); [hd|]. intros r Hr. apply in_flat_map in Hr as (p & _ & Hr).
    assert (H : In r (years_in s ms p)); [|apply filter_range in H as [_ H]; apply has_name_eq; exact H]. revert Hr. unfold year_removed. generalize (years_in s ms p). intros l. destruct (1 <? _); [|intros []].
    assert (A : forall q x, In x (filter q l) -> In x l) by (intros q x Hx; apply filter_In in Hx; apply Hx).
    destruct (filter (SmallRules.in_group markers) l) as [|g gs] eqn:E1; destruct (filter (fun y => negb (SmallRules.in_group markers y)) l) as [|u us] eqn:E2; cbn [app]; intros H.
    - destruct H.
    - destruct H as [<-|H]; (eapply A; rewrite E2); [left; reflexivity|right; destruct us; [destruct H|right; exact H]].
    - destruct H.
    - destruct H as [<-|H]; [eapply A; rewrite E2; left; reflexivity|]. apply in_app_iff in H as [H|H]; [eapply A; rewrite E2; right; exact H|eapply A; rewrite E1; right; exact H].
  Qed.
  (** *** titles *)
  Definition ignorable (x : mt) : Prop := one_of ["language"; "country"; "episode_details"]%string (m_name x).
  Lemma by_ignorable r : ignorable r -> mkey r = mkey m -> R.
  Proof. intros H K. refine (by_names s markers ms m _ r _ H K). intros n [<-|[<-|[<-|[]]]]; hd. Qed.
  Lemma hole_removed r part h t rm : hole_titles r s context ms part h = Ok (Some (t, rm)) -> forall x, In x rm -> ignorable x.
  Proof.
    unfold hole_titles. destruct (_ || _); [discriminate|]. destruct (trim _ _ _ _ _) as [h' kp]. destruct (_ <? _); [discriminate|]. destruct (_ && _); [|discriminate]. intros E. injection E as _ <-. intros x Hx. apply remove_sub in Hx. apply filter_In in Hx as [Hx _]. apply filter_range in Hx as [_ Hx].
    unfold is_ignored in Hx. apply andb_true_iff in Hx as [_ Hx]. apply (smem_names _ ["language"; "country"; "episode_details"]%string) in Hx. exact Hx.
  Qed.
  Lemma check_removed r extra part t rm : check_titles r s context markers ms extra part = Ok (Some (t, rm)) -> forall x, In x rm -> ignorable x.
  Proof.
    unfold check_titles. generalize (holes_process markers (filter (fun h => nonnil (hole_value s h)) (holes s ms (m_start part) (m_end part + 1) (fun m0 => is_ignored s m0 || extra m0) None))). induction l as [|h l IH]; cbn [first_titles]; [discriminate|].
    destruct (hole_titles r s context ms part h) as [o|] eqn:E; [|discriminate]. cbn [bind]. destruct o as [[t' rm']|]; [|exact IH]. intros Q. injection Q as -> ->. eapply hole_removed; exact E.
  Qed.
  Lemma title_removed r w : title_when r s context markers ms = Ok w -> forall x, In x (snd w) -> ignorable x.
  Proof.
    unfold title_when. destruct (existsb _ _); [intros E; injection E as <-; intros x []|]. set (parts := filter _ _). destruct (serie_titles _ _ _ _ _ _) as [se|] eqn:S1; [|discriminate]. cbn [bind]. destruct (main_part _ _ _ _ _ _ _) as [[years main]|] eqn:S2; [|discriminate]. cbn [bind].
    destruct (mapM _ years) as [others|] eqn:S3; [|discriminate]. cbn [bind]. intros E. injection E as <-. cbn [snd]. intros x Hx. apply in_app_iff in Hx as [Hx|Hx]; [|apply in_app_iff in Hx as [Hx|Hx]].
    - destruct se as [[t rm]|]; [|destruct Hx]. unfold serie_titles in S1. destruct (serie_part s ms parts) as [p|]; [|discriminate]. destruct (m_truthy p); [|discriminate]. destruct (check_titles _ _ _ _ _ _ _) as [[[[|t' [|? ?]] rm']|]|] eqn:C; try discriminate. cbn [bind] in S1. injection S1 as -> ->. eapply check_removed; eauto.
    - clear S1. revert S2. generalize (filter (with_year s ms) parts) as ys. induction parts as [|p ps IH]; intros ys S2; cbn [main_part] in S2; [injection S2 as <- <-; destruct Hx|]. destruct (check_titles r s context markers ms never p) as [[[t rm]|]|] eqn:C; [| |discriminate]; cbn [bind] in S2; [|eapply IH; exact S2].
      injection S2 as <- <-. cbn [removed_of snd] in Hx. eapply check_removed; eauto.
    - clear S1 S2. revert others S3 Hx. induction years as [|y ys IH]; intros others S3 Hx; cbn [mapM] in S3; [injection S3 as <-; destruct Hx|]. destruct (check_titles r s context markers ms never y) as [o|] eqn:C; [|discriminate]. cbn [bind] in S3. destruct (mapM _ ys) as [os|]; [|discriminate]. cbn [bind] in S3. injection S3 as <-.
      cbn [flat_map] in Hx. apply in_app_iff in Hx as [Hx|Hx]; [|eapply IH; eauto]. destruct o as [[t rm]|]; [|destruct Hx]. eapply check_removed; eauto.
  Qed.
  Lemma k_title_base r ms' : title_base r s context markers ms = Ok ms' -> ok ms'.
  Proof.
    unfold title_base. destruct (title_when _ _ _ _ _) as [w|] eqn:W; [|discriminate]. cbn [bind]. intros E. injection E as <-. unfold title_then. destruct (keep_remove (snd w) m _ (keep_append (fst w) m ms Hm)) as [K|(x & Hx & E)]; [apply k_self; exact K|right]. eapply by_ignorable; [eapply title_removed; eauto|exact E].
  Qed.
  Lemma k_title_year : ok (PreferTitleWithYear s markers ms).
  Proof.
    unfold PreferTitleWithYear. destruct (prefer_year s markers ms) as [rm tg] eqn:E. assert (T : forall r, In r rm \/ In r tg -> mkey r = mkey m -> R).
    { intros r Hr K. assert (H : In r (named (lit "title") ms)). { unfold prefer_year in E. injection E as <- <-. destruct Hr as [Hr|Hr]; [apply filter_In in Hr; apply Hr|]. destruct (nonnil _) in Hr; apply filter_In in Hr; apply Hr. }
      apply named_In in H as [_ H]. eapply (by_name s markers ms m "title"); eauto. hd. }
    destruct (keep_remove rm m ms Hm) as [K|(r & Hr & Q)]; [|right; eauto]. unfold append_tags. destruct (keep_remove tg m _ K) as [K2|(r & Hr & Q)]; [apply k_self, keep_append, K2|right; eauto].
  Qed.
  Lemma k_conflicts : ok (RemoveConflictsWithEpisodeTitle s markers ms).
  Proof.
    apply k_remove; [exact Hm|]. intros r Hr K. apply in_flat_map in Hr as (p & _ & Hr). apply filter_In in Hr as [Hr _]. apply filter_range in Hr as [_ Hr]. apply (smem_names _ ["part"; "year"]%string) in Hr. refine (by_names s markers ms m _ r _ Hr K). intros n [<-|[<-|[]]]; hd.
  Qed.
  Lemma k_episode_title ms' : EpisodeTitleFromPosition s context markers ms = Ok ms' -> ok ms'.
  Proof. unfold EpisodeTitleFromPosition. destruct (nonnil _); [intros E; injection E as <-; apply same|apply k_title_base]. Qed.
  Lemma k_alternative ms' : AlternativeTitleReplace s ms = Ok ms' -> ok ms'.
  Proof.
    unfold AlternativeTitleReplace. destruct (alternative_found s ms) as [a|] eqn:A; [|intros E; injection E as <-; apply same]. destruct (mmem a ms); [|discriminate]. intros E. injection E as <-.
    destruct (keep_remove1 a m ms Hm) as [K|K]; [apply k_self, in_or_app; left; exact K|right]. unfold alternative_found in A. destruct (nonnil _); [discriminate|]. destruct (first (range_all _ _ _)) as [a'|] eqn:F; [|discriminate]. destruct (m_truthy a'); [|discriminate]. destruct (first (chain_before _ _ _ _)) as [t|]; [|discriminate]. destruct (_ && _); [|discriminate]. injection A as ->.
    apply first_sub, filter_range in F as [_ F]. apply has_name_eq in F. eapply (by_name s markers ms m "alternative_title"); eauto. hd.
  Qed.
  Lemma k_rename_now n n0 l ms' : In n0 handled -> (forall r, In r l -> m_name r = lit n0) -> foldM (rename_now n) l ms = Ok ms' -> ok ms'.
  Proof.
    intros N L E. assert (G : In m ms' \/ R); [|destruct G; [apply k_self; assumption|right; assumption]]. revert E. apply (foldM_inv (rename_now n) (fun ms' => In m ms' \/ R)); [|left; exact Hm]. intros a b c Hb [Ha|Ha] E; [|right; exact Ha]. unfold rename_now in E. destruct (mmem b a); [|discriminate]. injection E as <-.
    destruct (keep_remove1 b m a Ha) as [K|K]; [left; apply in_or_app; left; exact K|right]. exact (by_name s markers ms m n0 b N (L b Hb) K).
  Qed.
  Lemma k_to_episode_title ms' : TitleToEpisodeTitle ms = Ok ms' -> ok ms'.
  Proof. apply (k_rename_now _ "title"); [hd|]. intros r Hr. unfold to_episode_title in Hr. destruct (_ <? _); [destruct Hr|]. apply filter_In in Hr as [Hr _]. apply named_In in Hr. tauto. Qed.
  Lemma k_rename_title ms' : RenameEpisodeTitle ms = Ok ms' -> ok ms'.
  Proof. unfold RenameEpisodeTitle. destruct (_ && _); [|intros E; injection E as <-; apply same]. apply (k_rename_now _ "episode_title"); [hd|]. intros r Hr. apply named_In in Hr. tauto. Qed.
  Lemma k_append_named n x : ok (append_named n x ms).
  Proof. unfold append_named. destruct (mmem x ms); [apply same|]. apply k_self, in_or_app. left. exact Hm. Qed.
  Lemma k_filepart3 : ok (Filepart3EpisodeTitle s markers ms).
  Proof. unfold Filepart3EpisodeTitle. destruct (nonnil _); [apply same|]. destruct (rev _) as [|a [|b [|c l]]]; try apply same. destruct (_ && _); [|apply same]. destruct (folder_hole _ _ _); [apply k_append_named|apply same]. Qed.
  Lemma k_filepart2 : ok (Filepart2EpisodeTitle s markers ms).
  Proof. unfold Filepart2EpisodeTitle. destruct (nonnil _); [apply same|]. destruct (rev _) as [|a [|b l]]; try apply same. destruct (_ && _); [|apply same]. destruct (folder_hole _ _ _); [apply k_append_named|apply same]. Qed.
  Lemma k_number n tn zone ms' : number_title n tn zone s markers ms = Ok ms' -> ok ms'.
  Proof.
    unfold number_title. destruct (first (filter public _)) as [b|]; [|intros E; injection E as <-; apply same]. destruct (m_truthy b); [|intros E; injection E as <-; apply same]. destruct (first (filter _ _)) as [p|]; [|discriminate].
    destruct (first (holes _ _ _ _ _ _)) as [h|]; [|intros E; injection E as <-; apply same]. destruct (_ <? _); [discriminate|]. destruct (_ && _); intros E; injection E as <-; [apply k_self, (keep_append [_]), Hm|apply same].
  Qed.
  (** *** languages *)
  Lemma k_sub_extension : ok (SubtitleExtension ms).
  Proof.
    unfold SubtitleExtension. destruct (first (filter _ _)) as [e|]; [|apply same]. destruct (negb (m_truthy e)); [apply same|]. destruct (first (previous e ms _)) as [l|] eqn:L; [|apply same]. destruct (negb (m_truthy l)); [apply same|].
    apply first_sub in L. apply filter_In in L as [_ L]. apply has_name_eq in L. cbv zeta. set (f := fun m0 : mt => if has_name (lit "subtitle_language") m0 && has_tag (lit "weak-language") m0 then set_private m0 else m0).
    assert (In m (map f ms) \/ R) as [K|K]; [| |right; exact K].
    { destruct (has_name (lit "subtitle_language") m && has_tag (lit "weak-language") m) eqn:E.
      - right. apply andb_true_iff in E as [E _]. apply has_name_eq in E. eapply (by_name s markers ms m "subtitle_language" m); eauto. hd.
      - left. apply in_map_iff. exists m. split; [unfold f; rewrite E; reflexivity|exact Hm]. }
    destruct (keep_remove (conflicting l (map f ms) (has_name (lit "source"))) m _ K) as [K2|(r & Hr & E)].
    - destruct (keep_rename (lit "subtitle_language") [l] m _ K2) as [K3|(r & [<-|[]] & E)]; [apply k_self; exact K3|right]. eapply (by_name s markers ms m "language"); eauto. hd.
    - right. apply conflicting_sub in Hr as (_ & _ & Hr). apply has_name_eq in Hr. eapply (by_name s markers ms m "source"); eauto. hd.
  Qed.
  Lemma to_subtitle_keep l ms0 ms' : m_name l = lit "language" -> In m ms0 -> to_subtitle ms0 l = Ok ms' -> In m ms' \/ R.
  Proof.
    intros N H. unfold to_subtitle. destruct (mmem l ms0); [|discriminate]. intros E. injection E as <-. destruct (keep_remove1 l m ms0 H) as [K|K]; [left; apply in_or_app; left; exact K|right]. eapply (by_name s markers ms m "language"); eauto. hd.
  Qed.
  Lemma k_sub_prefix ms' : SubtitlePrefix s markers ms = Ok ms' -> ok ms'.
  Proof.
    intros E. assert (G : In m ms' \/ R); [|destruct G; [apply k_self; assumption|right; assumption]]. revert E. unfold SubtitlePrefix.
    assert (W : (forall pl, In pl (fst (prefix_when s markers ms)) -> m_name (snd pl) = lit "language") /\ (forall r, In r (snd (prefix_when s markers ms)) -> mkey r = mkey m -> R)).
    { unfold prefix_when. assert (G : forall ls (st : list (mt * mt) * list mt), (forall l, In l ls -> In l ms /\ m_name l = lit "language") -> (forall pl, In pl (fst st) -> m_name (snd pl) = lit "language") -> (forall r, In r (snd st) -> mkey r = mkey m -> R) ->
        let st' := fold_left (prefix_step s markers ms) ls st in (forall pl, In pl (fst st') -> m_name (snd pl) = lit "language") /\ (forall r, In r (snd st') -> mkey r = mkey m -> R)).
      { induction ls as [|l ls IH]; intros st L A B; [split; assumption|]. cbn [fold_left]. destruct (L l (or_introl eq_refl)) as [L1 L2]. apply IH; [intros y Hy; apply L; right; exact Hy| |]; unfold prefix_step; destruct (prefix_of s markers ms l) as [p|]; auto; cbn [fst snd].
        - intros pl Hp. apply in_app_iff in Hp as [Hp|[<-|[]]]; [auto|exact L2].
        - intros r Hr K. apply remove1_sub in Hr. apply in_app_iff in Hr as [Hr|Hr]; [eapply B; eauto|]. apply conflicting_sub in Hr as (_ & O & _). apply (by_overlap s markers ms m l r); auto. exists "language"%string. split; [cbn; auto|exact L2]. }
      apply G; [intros l Hl; apply named_In in Hl; tauto|intros pl []|]. intros r Hr K. apply named_In in Hr as [_ Hr]. eapply (by_name s markers ms m "subtitle_language.prefix"); eauto. hd. }
    destruct W as [W1 W2]. apply (foldM_inv _ (fun ms' => In m ms' \/ R)).
    - intros a [p l] c Hb [Ha|Ha] E; [|right; exact Ha]. cbn [fst snd] in E. destruct (keep_remove1 (set_name p (lit "subtitle_language.suffix")) m a Ha) as [K|K]; [|right; eapply (by_name s markers ms m "subtitle_language.suffix"); [hd| |exact K]; reflexivity]. eapply to_subtitle_keep; [|exact K|exact E]. apply (W1 (p, l) Hb).
    - destruct (keep_remove (snd (prefix_when s markers ms)) m ms Hm) as [K|(r & Hr & E)]; [left; exact K|right; eauto].
  Qed.
  Lemma k_sub_suffix ms' : SubtitleSuffix ms = Ok ms' -> ok ms'.
  Proof.
    intros E. assert (G : In m ms' \/ R); [|destruct G; [apply k_self; assumption|right; assumption]]. revert E. unfold SubtitleSuffix. set (w := fold_left _ _ _).
    assert (W : (forall l, In l (fst w) -> m_name l = lit "language") /\ (forall r, In r (snd w) -> m_name r = lit "subtitle_language.suffix")).
    { unfold w. clear w. assert (G : forall ls (st : list mt * list mt), (forall l, In l ls -> m_name l = lit "language") -> (forall l, In l (fst st) -> m_name l = lit "language") -> (forall r, In r (snd st) -> m_name r = lit "subtitle_language.suffix") ->
        let st' := fold_left (suffix_step ms) ls st in (forall l, In l (fst st') -> m_name l = lit "language") /\ (forall r, In r (snd st') -> m_name r = lit "subtitle_language.suffix")).
      { induction ls as [|l ls IH]; intros st L A B; [split; assumption|]. cbn [fold_left]. pose proof (L l (or_introl eq_refl)) as L2. apply IH; [intros y Hy; apply L; right; exact Hy| |]; unfold suffix_step; destruct (suffix_of ms l) as [p|]; auto; cbn [fst snd].
        - intros pl Hp. apply in_app_iff in Hp as [Hp|[<-|[]]]; [auto|exact L2].
        - intros r Hr. apply remove1_sub in Hr. auto. }
      apply G; [intros l Hl; apply named_In in Hl; tauto|intros l []|]. intros r Hr. apply named_In in Hr. tauto. }
    destruct W as [W1 W2]. apply (foldM_inv _ (fun ms' => In m ms' \/ R)).
    - intros a l c Hb [Ha|Ha] E; [|right; exact Ha]. eapply to_subtitle_keep; eauto.
    - destruct (keep_remove (snd w) m ms Hm) as [K|(r & Hr & E)]; [left; exact K|right]. eapply (by_name s markers ms m "subtitle_language.suffix"); eauto. hd.
  Qed.
  Lemma k_language_list l : (forall r, In r l -> is_language r = true) -> ok (remove_all l ms).
  Proof. intros H. apply k_remove; [exact Hm|]. intros r Hr K. apply H in Hr. apply (smem_names _ ["language"; "subtitle_language"]%string) in Hr. refine (by_names s markers ms m _ r _ Hr K). intros n [<-|[<-|[]]]; hd. Qed.
  (** *** release groups *)
  Lemma at_match_over c r : m_start c < m_end c -> In r (at_match c ms) -> overlap r c.
  Proof.
    intros L. unfold at_match, at_span. intros H. apply merge_new_sub in H as [H|H].
    - apply filter_In in H as [_ H]. unfold covers in H. exists (m_start c). lia.
    - destruct (m_end c) as [|b] eqn:E; [destruct H|]. apply filter_In in H as [_ H]. unfold covers in H. exists b. lia.
  Qed.
  Lemma slice_one (t : str) a b c : b <= List.length t -> slice a b t = [c] -> 0 < b /\ nth_error t (b - 1) = Some c.
  Proof.
    intros L E. assert (N : List.length (slice a b t) = 1) by (rewrite E; reflexivity). unfold slice in N. rewrite firstn_length, skipn_length in N. assert (b = S a) as -> by lia. split; [lia|]. replace (S a - 1) with a by lia.
    unfold slice in E. replace (S a - a) with 1 in E by lia. rewrite <- (firstn_skipn a t) at 1. rewrite nth_error_app2 by (rewrite firstn_length; lia). rewrite firstn_length. replace (a - Nat.min a (List.length t)) with 0 by lia. destruct (skipn a t) as [|x l]; [discriminate|]. cbn in E. injection E as ->. reflexivity.
  Qed.
  Lemma k_dash clean : inside s ms -> ok (DashSeparatedReleaseGroup clean s markers ms).
  Proof.
    intros I. unfold DashSeparatedReleaseGroup. destruct (nonnil (named (lit "release_group") ms)) eqn:NG; [apply same|]. apply k_change; [exact Hm|]. intros r Hr K.
    assert (NG' : forall x, In x ms -> m_name x <> lit "release_group").
    { intros x Hx E. assert (G : In x (named (lit "release_group") ms)) by (apply named_In; auto). destruct (named (lit "release_group") ms); [destruct G|discriminate]. }
    assert (PP : exists part, In part markers /\ m_name part = lit "path" /\ In r (fst (dash_part clean s markers ms part))).
    { assert (L : forall p, In p (parts_of markers) -> In p markers /\ m_name p = lit "path") by (intros p Hp; apply named_In in Hp; tauto). revert Hr L. induction (parts_of markers) as [|p ps IH]; cbn [dash_parts]; [intros []|]. intros Hr L.
      destruct (nonnil (fst (dash_part clean s markers ms p)) || _); [exists p; destruct (L p (or_introl eq_refl)); auto|]. apply IH; [exact Hr|]. intros q Hq. apply L. right. exact Hq. }
    destruct PP as (part & P1 & P2 & Hr'). clear Hr. unfold dash_part in Hr'. destruct (detect_end s markers ms part) as [c|] eqn:D; [|destruct (detect_start s markers ms part); destruct Hr']. cbn [fst] in Hr'.
    unfold detect_end in D. destruct (candidate_end s ms (m_start part) (real_end ms (m_end part))) as [c'|] eqn:C; [|discriminate]. cbn [keep_if] in D. destruct (valid_end s markers ms (m_start part) c') eqn:V; [|discriminate]. injection D as ->.
    unfold candidate_end in C. destruct (truthy_o (first (filter (candidate_match s) (ending (real_end ms (m_end part)) ms)))) as [c'|] eqn:T.
    - injection C as ->. unfold truthy_o in T. destruct (first _) as [c'|] eqn:F; [|discriminate]. destruct (m_truthy c') eqn:Tc; [|discriminate]. injection T as ->. apply first_sub, filter_In in F as [F1 F2]. apply filter_In in F1 as [F1 F3]. apply Nat.eqb_eq in F3. unfold m_truthy in Tc. apply Nat.ltb_lt in Tc.
      apply key_facts in K as (K1 & K2 & _). apply (r_group _ _ _ _ c NG'); [|apply at_match_over in Hr'; [|exact Tc]; unfold overlap in *; rewrite <- K1, <- K2; exact Hr'].
      destruct (I c F1) as [_ Ic]. split; [exact F1|]. split; [exact Tc|].
      assert (Da : 0 < m_start c /\ nth_error s (m_start c - 1) = Some 45%N).
      { unfold valid_end in V. apply andb_true_iff in V as [_ V]. cbn [dotted] in V. destruct (truthy_o (last_o _)) as [p|]; [|discriminate]. destruct (str_eqb _ (lit "-")) eqn:E in V; [|discriminate]. apply str_eqb_eq in E.
        assert (ND : starts_dash (m_raw s c) = false).
        { unfold candidate_match in F2. apply andb_true_iff in F2 as [F2 _]. apply andb_true_iff in F2 as [_ F2]. apply negb_true_iff in F2. unfold starts_dash. destruct (m_raw s c) as [|x l]; [reflexivity|]. unfold cmem in F2. cbn [existsb] in F2. apply orb_false_iff in F2 as [F2 _]. rewrite N.eqb_sym. exact F2. }
        rewrite ND, andb_false_r in E. apply slice_one in E; [exact E|lia]. }
      destruct Da as [Da1 Da2]. split; [exact Da2|]. split; [exact Da1|]. exists part. split; [exact P1|]. split; [exact P2|]. rewrite F3. unfold real_end. destruct (truthy_o (first (filter (has_name (lit "container")) (ending (m_end part) ms)))) as [k|] eqn:Tk; [|left; reflexivity]. right.
      unfold truthy_o in Tk. destruct (first _) as [k'|] eqn:Fk in Tk; [|discriminate]. destruct (m_truthy k'); [|discriminate]. injection Tk as ->. apply first_sub, filter_In in Fk as [G1 G2]. apply filter_In in G1 as [G1 G3]. exists k. apply has_name_eq in G2. apply Nat.eqb_eq in G3. auto.
    - exfalso. destruct (last_o _) as [h|] eqn:L; [|discriminate]. injection C as <-. apply last_sub, filter_In in L as [L1 L2]. apply andb_true_iff in L2 as [L2 _]. apply andb_true_iff in L2 as [_ L2]. apply text_lt in L2.
      pose proof (holes_free _ _ _ _ _ _ (fst h) L1 ltac:(lia)) as E1. pose proof (holes_free _ _ _ _ _ _ (snd h - 1) L1 ltac:(lia)) as E2. unfold at_match, at_span in Hr'. cbn [hole_match m_start m_end] in Hr'. rewrite E1 in Hr'. destruct (snd h) as [|b]; [lia|]. replace (S b - 1) with b in E2 by lia. rewrite E2 in Hr'. exact Hr'.
  Qed.
  Lemma k_scene clean : ok (SceneReleaseGroup clean s markers ms).
  Proof.
    unfold SceneReleaseGroup. set (parts := marker_sorted _ _ _ _). assert (G : forall st : list mt * list mt, In m (fst st) \/ R -> In m (fst (fold_left (scene_step clean s markers) parts st)) \/ R).
    { induction parts as [|p ps IH]; intros st H; [exact H|]. cbn [fold_left]. apply IH. destruct H as [H|H]; [|right; exact H]. unfold scene_step. destruct (scene_part clean s markers (fst st) p) as [[g rem]|] eqn:E; [|left; exact H]. cbn [fst].
      destruct (keep_remove rem m (fst st) H) as [K|(r & Hr & K)]; [left; exact K|right]. unfold scene_part in E. destruct (nonnil _); [discriminate|]. destruct (scene_hole _ _ _ _) as [h|]; [|discriminate]. destruct (_ && _); [|discriminate]. injection E as _ <-. apply filter_range in Hr as [_ Hr].
      unfold extra_title in Hr. apply mmem_iff in Hr as (t & Ht & Kt). assert (Tl : forall (l : list mt) x, In x (tl l) -> In x l) by (intros [|a l] x; [auto|right; auto]). apply Tl, filter_In in Ht as [Ht _]. apply named_In in Ht as [_ Ht].
      eapply (by_name s markers ms m "title" t); [hd|exact Ht|congruence]. }
    destruct (G (ms, [])) as [K|K]; [left; exact Hm|apply k_self, keep_append, K|right; exact K].
  Qed.
  Lemma k_anime : ok (AnimeReleaseGroup s markers ms).
  Proof.
    unfold AnimeReleaseGroup. destruct (nonnil _); [apply same|]. apply k_change; [exact Hm|]. intros r Hr K. rewrite joins_fst, map_map in Hr. apply concat_In in Hr as (p & _ & Hr). unfold anime_part in Hr. destruct (truthy_o _) as [g|]; [|destruct Hr]. cbn [fst] in Hr. apply filter_range in Hr as [H1 H2].
    eapply (by_tag s markers ms m "weak-language"); eauto. hd.
  Qed.
  (** *** other *)
  Lemma k_service ini kids : ok (ValidateStreamingService s ini kids ms).
  Proof.
    apply k_remove; [exact Hm|]. intros r Hr K. apply concat_In in Hr as (v & Hv & Hr). apply named_In in Hv as [_ Hv]. destruct (service_alone _ _ _ _ _); [destruct Hr as [<-|[]]; eapply (by_name s markers ms m "streaming_service"); eauto; hd|]. destruct (is_text _ _); [|destruct Hr].
    apply filter_In in Hr as [Hr _]. apply named_In in Hr as [_ Hr]. eapply (by_name s markers ms m "edition"); eauto. hd.
  Qed.
  Lemma k_service_neighbor ini kids : family ini kids ms -> ok (ValidateStreamingServiceNeighbor s ini kids ms).
  Proof.
    intros F. apply k_remove; [exact Hm|]. intros r Hr K. apply concat_In in Hr as (x & Hx & Hr). apply filter_In in Hx as [Hx _]. apply named_In in Hx as [H1 H2]. destruct (neighbour_alone _ _ _); [|destruct Hr].
    apply (by_family ini kids "other" x r); auto; [hd|]. apply in_app_iff in Hr as [Hr|[<-|[]]]; [right; exact Hr|left; reflexivity].
  Qed.
  Lemma k_another : ok (RenameAnother ms).
  Proof.
    destruct (k_rename s markers ms m Hm (lit "other") (named (lit "another") ms)) as [K|K]; [|apply k_self; exact K|right; exact K]. intros r Hr K. apply named_In in Hr as [_ Hr]. eapply (by_name s markers ms m "another"); eauto. hd.
  Qed.
  Lemma k_until t v : In t weak_tags -> ok (remove_all (until v (range_all s ms (has_tag (lit t)))) ms).
  Proof. intros T. apply (k_tagged t); [exact T|]. intros r Hr. apply until_sub in Hr. apply filter_range in Hr. exact Hr. Qed.
  Lemma k_others l : (forall r, In r l -> has_name (lit "other") r = true) -> ok (remove_all l ms).
  Proof. intros H. apply (k_named "other"); [hd|]. intros r Hr. apply has_name_eq, H, Hr. Qed.
  Lemma k_bit_rate ms' : BitRateType context s ms = Ok ms' -> ok ms'.
  Proof.
    unfold BitRateType. destruct (bit_rate_split context s ms) as [x|] eqn:B; [|discriminate]. cbn [bind]. intros E. injection E as <-.
    assert (N : forall r, In r (fst x) \/ In r (snd x) -> mkey r = mkey m -> R).
    { intros r Hr K. assert (Q : In r (named (lit "audio_bit_rate") ms)); [|apply named_In in Q as [_ Q]; eapply (by_name s markers ms m "audio_bit_rate"); eauto; hd].
      unfold bit_rate_split in B. destruct (is_disabled context (lit "audio_bit_rate")) as [a|]; [|discriminate]. cbn [bind] in B. destruct a; [injection B as <-; destruct Hr as [[]|Hr]; exact Hr|]. destruct (is_disabled context (lit "video_bit_rate")) as [v|]; [|discriminate]. cbn [bind] in B. injection B as <-.
      destruct v; cbn [fst snd] in Hr; destruct Hr as [Hr|Hr]; try destruct Hr; apply filter_In in Hr; apply Hr. }
    destruct (k_rename s markers ms m Hm (lit "video_bit_rate") (fst x)) as [K|K]; [intros r Hr; apply N; auto| |right; exact K]. destruct (keep_remove (snd x) m _ K) as [K2|(r & Hr & E)]; [apply k_self; exact K2|right; eauto].
  Qed.
  Lemma k_proper ms' : ProperCount s ms = Ok ms' -> ok ms'.
  Proof.
    unfold ProperCount. destruct (filter is_proper ms); [intros E; injection E as <-; apply same|]. destruct (raws s _) as [d|]; [|discriminate]. cbn [bind]. intros E. injection E as <-. apply k_self, (keep_append [_]), Hm.
  Qed.
  (** *** processors *)
  (** what replaces the match, before the last rule of the processors *)
  Definition twin (x : mt) : Prop := m_name x = m_name m /\ m_value x = m_value m /\ m_private x = m_private m /\ m_parent x = m_parent m /\ m_start x <= m_start m /\ m_end m <= m_end x.
  Lemma twin_same x : twin x -> same_fact m x.
  Proof. intros (T1 & T2 & T3 & T4 & T5 & T6). repeat split; auto. rewrite T2. apply alike_refl. Qed.
  Definition from_ms (y : mt) : Prop := exists z, In z ms /\ m_name z = m_name y /\ m_value z = m_value y /\ m_private z = m_private y.
  Lemma replace_keep f l : (forall y, m_name (f y) = m_name y /\ m_value (f y) = m_value y /\ m_private (f y) = m_private y /\ m_parent (f y) = m_parent y /\ m_start (f y) <= m_start y /\ m_end y <= m_end (f y)) ->
    (forall y, In y l -> from_ms y) -> forall cur, (exists x, In x cur /\ twin x) \/ R -> (exists x, In x (replace_each f l cur) /\ twin x) \/ R.
  Proof.
    intros F. unfold replace_each. induction l as [|y l IH]; intros L cur H; [exact H|]. cbn [fold_left]. apply IH; [intros z Hz; apply L; right; exact Hz|]. destruct H as [(x & Hx & T)|H]; [|right; exact H].
    destruct (keep_remove1 y x cur Hx) as [K|K]; [left; exists x; split; [apply in_or_app; left; exact K|exact T]|].
    destruct (L y (or_introl eq_refl)) as (z & Z1 & Z2 & Z3 & Z4). apply key_facts in K as (K1 & K2 & K3 & K4 & K5). destruct T as (T1 & T2 & T3 & T4 & T5 & T6). destruct (F y) as (F1 & F2 & F3 & F4 & F5 & F6).
    destruct (Bool.bool_dec (m_private y) (m_private m)) as [P|P].
    - left. exists (f y). split; [apply in_or_app; right; left; reflexivity|]. unfold twin. repeat split; try congruence; lia.
    - right. apply (r_double _ _ _ _ z); auto; try congruence.
  Qed.
  Lemma k_enlarge : ok (EnlargeGroupMatches markers ms).
  Proof.
    unfold EnlargeGroupMatches. set (st := enlarge_starting markers ms). set (en := enlarge_ending markers ms).
    assert (S1 : forall y, In y st -> In y ms) by (intros y Hy; apply in_flat_map in Hy as (g & _ & Hy); apply filter_In in Hy; apply Hy). assert (S2 : forall y, In y en -> In y ms) by (intros y Hy; apply in_flat_map in Hy as (g & _ & Hy); apply filter_In in Hy; apply Hy).
    assert (Fm : forall y, In y ms -> from_ms y) by (intros y Hy; exists y; auto).
    assert (G : (exists x, In x (replace_each enlarge_back (map (fun m0 => if mmem m0 st then enlarge_front m0 else m0) en) (replace_each enlarge_front st ms)) /\ twin x) \/ R).
    { apply replace_keep; [intros y; destruct y; cbn; repeat split; lia| |].
      - intros y Hy. apply in_map_iff in Hy as (z & <- & Hz). destruct (mmem z st); [exists z; destruct z; cbn; auto|apply Fm; auto].
      - apply replace_keep; [intros y; destruct y; cbn; repeat split; lia|intros y Hy; auto|]. left. exists m. split; [exact Hm|]. repeat split; auto. }
    destruct G as [(x & H1 & H2)|G]; [left; exists x; split; [exact H1|apply twin_same; exact H2]|right; exact G].
  Qed.
  Lemma scan_keep name hv l : forall hv' f l', eq_scan name hv l = (hv', f, l') -> forall x, In x l -> same_fact m x -> exists y, In y l' /\ same_fact m y.
  Proof.
    revert hv. induction l as [|a l IH]; intros hv hv' f l' E x; cbn [eq_scan] in E; [intros []|]. pose proof (eq_one_spec name hv a) as S0. destruct (eq_one name hv a) as [v|].
    - destruct (eq_scan name v l) as [[h' f'] r'] eqn:Q. injection E as <- <- <-. intros [<-|Hx] Sx; [|destruct (IH _ _ _ _ Q x Hx Sx) as (y & Y1 & Y2); exists y; split; [right; exact Y1|exact Y2]].
      exists (set_value a (MvStr v)). split; [left; reflexivity|]. destruct S0 as (t & _ & V & C1 & _ & _ & C2). eapply same_trans; [exact Sx|]. unfold same_fact. cbn [set_value m_name m_value m_private m_parent m_start m_end]. split; [reflexivity|]. split; [|auto]. right. exists t, v. unfold same_but_case in *. repeat split; congruence.
    - destruct (eq_scan name hv l) as [[h' f'] r'] eqn:Q. injection E as <- <- <-. intros [<-|Hx] Sx; [exists a; split; [left; reflexivity|exact Sx]|destruct (IH _ _ _ _ Q x Hx Sx) as (y & Y1 & Y2); exists y; split; [right; exact Y1|exact Y2]].
  Qed.
  Lemma k_equivalent names : ok (EquivalentHoles names s markers ms).
  Proof.
    unfold EquivalentHoles. set (has := fun st : eqst => exists x, In x (e_ms st) /\ same_fact m x).
    assert (H1 : forall name hs st, has st -> has (fold_left (eq_hole name) hs st)).
    { intros name. induction hs as [|h hs IH]; intros st H; [exact H|]. cbn [fold_left]. apply IH. unfold eq_hole. destruct H as (x & X1 & X2). destruct (eq_scan name (snd h) (e_ms st)) as [[v fd] l'] eqn:Q. destruct (scan_keep _ _ _ _ _ _ Q x X1 X2) as (y & Y1 & Y2). destruct fd; exists y; auto. }
    assert (H2 : forall ns st, has st -> has (fold_left eq_name ns st)) by (induction ns as [|n ns IH]; intros st H; [exact H|]; cbn [fold_left]; apply IH; unfold eq_name; apply H1; exact H).
    assert (H3 : forall ps st, has st -> has (fold_left (eq_part names s) ps st)) by (induction ps as [|p ps IH]; intros st H; [exact H|]; cbn [fold_left]; apply IH; unfold eq_part; apply H2; exact H).
    destruct (H3 (marker_sorted s ms comparator_predicate (parts_of markers)) (mk_eq [] ms [])) as (x & X1 & X2); [exists m; split; [exact Hm|apply same_refl]|]. left. exists x. split; [apply keep_append; exact X1|exact X2].
  Qed.
  Lemma ambiguous_other p parts : forall r, In r (remove_ambiguous s ms p parts) -> exists y, In y ms /\ m_name y = m_name r /\ m_value y <> m_value r.
  Proof.
    unfold remove_ambiguous. assert (G : forall parts prev (st : vals * list mt), (forall nv, In nv (fst st) -> exists y, In y ms /\ m_name y = fst nv /\ m_value y = snd nv) -> (forall n, In n prev -> exists v, In (n, v) (fst st)) ->
      (forall r, In r (snd st) -> exists y, In y ms /\ m_name y = m_name r /\ m_value y <> m_value r) -> forall r, In r (amb_parts s ms p parts prev st) -> exists y, In y ms /\ m_name y = m_name r /\ m_value y <> m_value r).
    2:{ apply (G parts [] ([], [])); [intros nv []|intros n []|intros r []]. }
    clear parts. induction parts as [|k parts IH]; intros prev st V P D; cbn [amb_parts]; [exact D|].
    assert (L : forall l (st : vals * list mt), (forall x, In x l -> In x ms) -> (forall nv, In nv (fst st) -> exists y, In y ms /\ m_name y = fst nv /\ m_value y = snd nv) -> (forall n, In n prev -> exists v, In (n, v) (fst st)) ->
      (forall r, In r (snd st) -> exists y, In y ms /\ m_name y = m_name r /\ m_value y <> m_value r) ->
      let st' := fold_left (amb_match prev) l st in (forall nv, In nv (fst st') -> exists y, In y ms /\ m_name y = fst nv /\ m_value y = snd nv) /\ (forall n, In n prev \/ In n (map m_name l) -> exists v, In (n, v) (fst st')) /\
        (forall r, In r (snd st') -> exists y, In y ms /\ m_name y = m_name r /\ m_value y <> m_value r) /\ (forall nv, In nv (fst st) -> In nv (fst st'))).
    { clear IH V P D st. induction l as [|x l IH]; intros [values rm] S0 V P D; [cbn [map]; repeat split; auto; intros n [H|[]]; auto|]. cbn [fold_left]. cbn [fst snd] in *.
      assert (M : forall n v, vmem n v values = true <-> In (n, v) values).
      { intros n v. unfold vmem. rewrite existsb_exists. split; [intros ([n' v'] & H & E); cbn in E; apply andb_true_iff in E as [E1 E2]; apply str_eqb_eq in E1; unfold mval_eqb in E2; destruct (mval_eq_dec v' v); [subst; exact H|discriminate]|].
        intros H. exists (n, v). split; [exact H|]. cbn. rewrite str_eqb_refl. unfold mval_eqb. destruct (mval_eq_dec v v); [reflexivity|contradiction]. }
      pose proof (S0 x (or_introl eq_refl)) as Hx.
      assert (N : exists st' : vals * list mt, amb_match prev (values, rm) x = st' /\ (forall nv, In nv (fst st') -> exists y, In y ms /\ m_name y = fst nv /\ m_value y = snd nv) /\ (exists v, In (m_name x, v) (fst st')) /\ (forall nv, In nv values -> In nv (fst st')) /\
        (forall r, In r (snd st') -> exists y, In y ms /\ m_name y = m_name r /\ m_value y <> m_value r)).
      { eexists. split; [reflexivity|]. cbn [amb_match]. destruct (smem (m_name x) prev) eqn:Pn.
        - apply smem_In in Pn. destruct (P _ Pn) as (v & Hv). destruct (vmem (m_name x) (m_value x) values) eqn:E; cbn [fst snd]; [split; [exact V|]; split; [exists v; exact Hv|]; auto|]. split; [exact V|]. split; [exists v; exact Hv|]. split; [auto|].
          intros r Hr. apply in_app_iff in Hr as [Hr|[<-|[]]]; [auto|]. destruct (V _ Hv) as (y & Y1 & Y2 & Y3). cbn [fst snd] in *. exists y. split; [exact Y1|]. split; [exact Y2|]. intros Q. rewrite <- Bool.not_true_iff_false, M in E. apply E. rewrite <- Q, Y3. exact Hv.
        - destruct (vmem (m_name x) (m_value x) values) eqn:E; cbn [fst snd]; [apply M in E; split; [exact V|]; split; [exists (m_value x); exact E|]; auto|]. split; [|split; [exists (m_value x); apply in_or_app; right; left; reflexivity|split; [intros nv H; apply in_or_app; left; exact H|exact D]]].
          intros nv H. apply in_app_iff in H as [H|[<-|[]]]; [auto|]. exists x. auto. }
      destruct N as (st' & -> & N1 & N2 & N3 & N4). destruct (IH st') as (I1 & I2 & I3 & I4); [intros z Hz; apply S0; right; exact Hz|exact N1| |exact N4|].
      - intros n Hn. destruct (P n Hn) as (v & Hv). exists v. auto.
      - split; [exact I1|]. split; [|split; [exact I3|auto]]. cbn [map In]. intros n [H|[<-|H]]; [apply I2; auto| |apply I2; auto]. destruct N2 as (v & Hv). exists v. auto. }
    destruct (L (range s ms (m_start k) (m_end k) p) st) as (L1 & L2 & L3 & _); auto; [intros x Hx; apply filter_range in Hx; tauto|]. apply IH; auto. intros n Hn. apply in_app_iff in Hn. auto.
  Qed.
  Lemma k_ambiguous p parts : List.length parts = List.length (parts_of markers) -> ok (remove_all (remove_ambiguous s ms p parts) ms).
  Proof.
    intros L. apply k_remove; [exact Hm|]. intros r Hr K. assert (G : several_parts markers).
    { unfold several_parts. change (1 < List.length (parts_of markers)). rewrite <- L. clear - Hr. destruct parts as [|a [|b parts]]; [destruct Hr| |cbn; lia]. exfalso. unfold remove_ambiguous in Hr. cbn [amb_parts] in Hr. revert Hr.
      assert (N : forall l st, snd st = [] -> snd (fold_left (amb_match []) l st) = []).
      { induction l as [|x l IH]; intros [v rm] E; [exact E|]. cbn [fold_left amb_match]. cbn [snd] in E. subst rm. apply IH. change (smem (m_name x) []) with false. cbv iota. destruct (vmem _ _ _); reflexivity. }
      rewrite N; [intros []|reflexivity]. }
    destruct (ambiguous_other p parts r Hr) as (y & Y1 & Y2 & Y3). apply key_facts in K as (_ & _ & K1 & K2 & _). apply (r_other _ _ _ _ y); [exact G|exact Y1|congruence|congruence].
  Qed.
  Lemma sorted_length p l : List.length (marker_sorted s ms p l) = List.length l.
  Proof. unfold marker_sorted. apply Permutation.Permutation_length, isort_perm. Qed.
  Lemma k_strip ms' : StripSeparators s ms = Ok ms' -> ok ms'.
  Proof.
    intros E. destruct (mapM_map _ _ _ E m Hm) as (y & Hy & Ey). cbv beta in Ey. destruct (strip_raw _ _) as [ab|]; [|discriminate]. cbn [bind] in Ey. injection Ey as <-. left. eexists. split; [exact Hy|]. unfold same_fact. cbn. repeat split; auto using alike_refl.
  Qed.
End Rules.

(** One rule: whatever it removes has a reason to be removed *)
Lemma step_keeps context s markers ms ms' m : inside s ms -> In m ms -> step context s markers ms ms' -> ok s markers ms m ms'.
Proof.
  intros I Hm H.
  assert (OT : forall t x, other_tagged t x = true -> has_name (lit "other") x = true) by (intros t x E; unfold other_tagged in E; apply andb_true_iff in E; apply E).
  destruct H.
  - eapply k_weak_conflict; eauto.
  - eapply k_invalid_season; eauto.
  - eapply k_invalid_episode; eauto.
  - apply k_see; exact Hm.
  - apply k_range; [exact Hm|hd|hd|reflexivity].
  - apply k_range; [exact Hm|hd|hd|reflexivity].
  - eapply k_movie; eauto.
  - apply k_weak_sxxexx; exact Hm.
  - apply k_weak_duplicate; exact Hm.
  - apply k_filter; [exact Hm|hd].
  - apply k_detached; auto.
  - apply k_filter; [exact Hm|hd].
  - apply k_weak; exact Hm.
  - eapply k_absolute; eauto.
  - apply k_count; exact Hm.
  - apply k_filter; [exact Hm|hd].
  - eapply k_disc; eauto.
  - eapply k_source; eauto.
  - eapply k_weak_source; eauto.
  - apply k_ultra; exact Hm.
  - eapply k_unless; [exact Hm| |eassumption]; cbv beta; apply k_filter; [exact Hm|hd].
  - eapply k_unless; [exact Hm| |eassumption]; cbv beta; apply k_filter; [exact Hm|hd].
  - eapply k_unless; [exact Hm| |eassumption]; cbv beta; apply k_profile; exact Hm.
  - apply k_audio; exact Hm.
  - eapply k_unless; [exact Hm| |eassumption]; cbv beta; apply k_filter; [exact Hm|hd].
  - eapply k_unless; [exact Hm| |eassumption]; cbv beta; apply k_channels; exact Hm.
  - eapply k_screen; eauto.
  - apply k_one_size; exact Hm.
  - apply k_size_conflict; exact Hm.
  - apply k_website; exact Hm.
  - apply k_website_prefix; exact Hm.
  - apply k_year; exact Hm.
  - eapply k_title_base; eauto.
  - apply k_title_year; exact Hm.
  - apply k_conflicts; exact Hm.
  - eapply k_episode_title; eauto.
  - eapply k_alternative; eauto.
  - eapply k_to_episode_title; eauto.
  - apply k_filepart3; exact Hm.
  - apply k_filepart2; exact Hm.
  - eapply k_rename_title; eauto.
  - apply k_sub_extension; exact Hm.
  - eapply k_sub_prefix; eauto.
  - eapply k_sub_suffix; eauto.
  - unfold RemoveLanguage. destruct off; [apply k_named with (n := "language"%string); [exact Hm|hd|intros r Hr; apply named_In in Hr; apply Hr]|apply same; exact Hm].
  - apply k_language_list; [exact Hm|]. intros r Hr. apply filter_In in Hr as [Hr _]. apply filter_range in Hr. apply Hr.
  - apply k_language_list; [exact Hm|]. intros r Hr. apply filter_In in Hr as [Hr _]. apply filter_range in Hr. apply Hr.
  - apply k_dash; auto.
  - apply k_scene; exact Hm.
  - apply k_anime; exact Hm.
  - eapply k_service; eauto.
  - apply k_another; exact Hm.
  - apply k_until; [exact Hm|hd].
  - apply k_until; [exact Hm|hd].
  - apply k_until; [exact Hm|hd].
  - apply k_others; [exact Hm|]. intros r Hr. apply filter_In in Hr as [_ Hr]. apply andb_true_iff in Hr as [Hr _]. eauto.
  - apply k_others; [exact Hm|]. intros r Hr. apply filter_In in Hr as [_ Hr]. apply andb_true_iff in Hr as [Hr _]. eauto.
  - apply k_others; [exact Hm|]. intros r Hr. apply filter_In in Hr as [_ Hr]. apply andb_true_iff in Hr as [Hr _]. unfold is_hc in Hr. apply andb_true_iff in Hr. apply Hr.
  - eapply k_service_neighbor; eauto.
  - apply k_others; [exact Hm|]. intros r Hr. apply in_flat_map in Hr as (k & _ & Hr). apply filter_In in Hr as [Hr _]. apply filter_range in Hr as [_ Hr]. eauto.
  - apply k_others; [exact Hm|]. intros r Hr. apply in_flat_map in Hr as (k & _ & Hr). apply filter_In in Hr as [Hr _]. apply filter_range in Hr as [_ Hr]. eauto.
  - eapply k_proper; eauto.
  - eapply k_bit_rate; eauto.
  - eapply k_number; eauto.
  - eapply k_number; eauto.
  - apply k_enlarge; exact Hm.
  - apply k_equivalent; exact Hm.
  - apply k_ambiguous; [exact Hm|]. unfold specific_order. rewrite sorted_length, rev_length. reflexivity.
  - apply k_ambiguous; [exact Hm|]. rewrite sorted_length. reflexivity.
  - apply k_self, keep_append, Hm.
  - apply k_self, keep_append, Hm.
  - eapply k_strip; eauto.
  - unfold Mimetype. destruct mime as [t|]; [destruct (nonnil t); [apply k_self, in_or_app; left; exact Hm|]|]; apply same; exact Hm.
  - unfold TypeProcessor in *. destruct (is_disabled _ _) as [d|]; [|discriminate]. cbn [bind] in *. destruct d; match goal with H : Ok _ = Ok _ |- _ => injection H as <- end; [apply same; exact Hm|apply k_self, in_or_app; left; exact Hm].
Qed.

(** ** Properties *)
(** C98. One rule, whichever it is, keeps what every match tells, unless there is a reason to lose it *)
Theorem C98_step context s markers ms ms' m : inside s ms -> step context s markers ms ms' -> In m ms -> ~ reason s markers ms m -> exists x, In x ms' /\ same_fact m x.
Proof. intros I S Hm N. destruct (step_keeps context s markers ms ms' m I Hm S) as [K|K]; [exact K|contradiction]. Qed.
Print Assumptions C98_step.
Lemma runs_trans context s markers a b c : runs_rules context s markers a b -> runs_rules context s markers b c -> runs_rules context s markers a c.
Proof. intros H G. induction G as [|b1 b2 G IH S]; [exact H|eapply runs_one; eauto]. Qed.
(** All the rules, in any order and any number: what a match tells is in the result, or at some moment there was a reason to lose it *)
Theorem C98_run context s markers ms ms' m : markers_ok s markers -> (forall x, In x ms -> placed s x) -> runs_rules context s markers ms ms' -> In m ms ->
  (exists x, In x ms' /\ same_fact m x) \/
  exists ms1 x, runs_rules context s markers ms ms1 /\ runs_rules context s markers ms1 ms' /\ In x ms1 /\ same_fact m x /\ reason s markers ms1 x.
Proof.
  intros M P R Hm. induction R as [|ms1 ms2 R IH S]; [left; exists m; split; [exact Hm|apply same_refl]|].
  assert (One : runs_rules context s markers ms1 ms2) by (eapply runs_one; [apply runs_none|exact S]).
  destruct IH as [(x & X1 & X2)|(a & x & A1 & A2 & A3)].
  - destruct (step_keeps context s markers ms1 ms2 x) as [(y & Y1 & Y2)|K]; [|exact X1|exact S| |].
    + intros z Hz. destruct (C82_placed _ _ _ _ _ M P R z Hz) as (Z1 & Z2 & _). lia.
    + left. exists y. split; [exact Y1|eapply same_trans; eauto].
    + right. exists ms1, x. split; [exact R|]. auto.
  - right. exists a, x. split; [exact A1|]. split; [eapply runs_trans; eauto|exact A3].
Qed.
Print Assumptions C98_run.
(** In particular, where the name has no dash and no rule of its own is about the property, a public match that is not a part of another is only lost
    to something the rules found next to it *)
Corollary C98_plain context s markers ms ms' m : markers_ok s markers -> (forall x, In x ms -> placed s x) -> runs_rules context s markers ms ms' -> In m ms ->
  ~ one_of handled (m_name m) -> m_parent m = None -> ~ In 45%N s ->
  (exists x, In x ms' /\ same_fact m x) \/
  exists ms1 x, runs_rules context s markers ms ms1 /\ runs_rules context s markers ms1 ms' /\ In x ms1 /\ same_fact m x /\
    ((exists r t, In r ms1 /\ mkey r = mkey x /\ In t weak_tags /\ tag t r) \/
     (exists y p, In y ms1 /\ m_parent y = Some p /\ p_name p = m_name m) \/
     (exists y, In y ms1 /\ one_of ["year"; "language"; "audio_profile"]%string (m_name y) /\ overlap x y) \/
     (exists y, In y ms1 /\ m_name y = m_name m /\ (several_parts markers /\ m_value y <> m_value x \/ m_private y <> m_private x))).
Proof.
  intros M P R Hm N Pa D. destruct (C98_run _ _ _ _ _ m M P R Hm) as [K|(ms1 & x & R1 & R2 & X1 & X2 & Re)]; [left; exact K|right]. exists ms1, x. repeat (split; [assumption|]). destruct X2 as (S1 & S2 & S3 & S4 & _). destruct Re as [H|H|y p H1 H2 H3|r t H1 H2 H3 H4|y H1 H2 H3|y H0 H1 H2 H3|y H1 H2 H3 H4|c H1 H2 H3].
  - rewrite S1 in H. contradiction.
  - congruence.
  - right. left. exists y, p. repeat split; auto. congruence.
  - left. exists r, t. auto.
  - right. right. left. exists y. auto.
  - right. right. right. exists y. repeat split; auto. congruence.
  - right. right. right. exists y. repeat split; auto. congruence.
  - destruct H2 as (_ & _ & H2 & _). apply nth_error_In in H2. contradiction.
Qed.
Print Assumptions C98_plain.

(** ** Examples *)
(** a title and a type are found, the checksum stays *)
Example C98_ex : let s := lit "My.Show.S01E02.[1234ABCD].mkv" in
  let crc := simple 16 24 (lit "crc32") (MvStr (lit "1234ABCD")) [] in
  let ms := [simple 8 11 (lit "season") (MvInt 1) []; simple 11 14 (lit "episode") (MvInt 2) []; crc; simple 26 29 (lit "container") (MvStr (lit "mkv")) []] in
  let markers := [simple 0 29 (lit "path") (MvStr []) []; simple 15 25 (lit "group") (MvStr []) []] in
  markers_ok s markers /\ (forall m, In m ms -> placed s m) /\ In crc ms /\ ~ reason s markers ms crc /\
  exists ms', runs_rules [] s markers ms ms' /\ ms' <> ms /\ exists x, In x ms' /\ same_fact crc x /\ x <> crc.
Proof.
  cbv zeta. split; [intros g Hg; repeat (destruct Hg as [<-|Hg]; [split; [apply Nat.ltb_lt; vm_compute; reflexivity|]; split; [apply Nat.leb_le; vm_compute; reflexivity|]; do 4 (split; [reflexivity|]); intros X; first [discriminate X|split; vm_compute; reflexivity]|]); destruct Hg|].
  split; [placing|]. split; [cbn; auto|]. split.
  - intros H. destruct H as [H|H|x p H1 H2 H3|r t H1 H2 H3 H4|y H1 H2 H3|y H0 H1 H2 H3|y H1 H2 H3 H4|c H1 H2 H3].
    + destruct H as (t & T & E). cbn [In handled] in T. repeat (destruct T as [<-|T]; [discriminate E|]). destruct T.
    + apply H. reflexivity.
    + cbn [In] in H1. repeat (destruct H1 as [<-|H1]; [discriminate H2|]). destruct H1.
    + cbn [In] in H1. repeat (destruct H1 as [<-|H1]; [destruct H4|]). destruct H1.
    + destruct H2 as (t & T & E). cbn [In] in H1, T. repeat (destruct H1 as [<-|H1]; [repeat (destruct T as [<-|T]; [discriminate E|]); destruct T|]). destruct H1.
    + cbn [In] in H1. repeat (destruct H1 as [<-|H1]; [first [discriminate H2|apply H3; reflexivity]|]). destruct H1.
    + cbn [In] in H1. repeat (destruct H1 as [<-|H1]; [first [discriminate H2|apply H4; reflexivity]|]). destruct H1.
    + destruct H2 as (_ & _ & H2 & _). apply nth_error_In in H2. vm_compute in H2. repeat (destruct H2 as [H2|H2]; [discriminate|]). destruct H2.
  - eexists. split; [eapply runs_one; [eapply runs_one; [apply runs_none|]|]|].
    + apply st_title; [reflexivity|reflexivity|vm_compute; reflexivity].
    + apply st_enlarge.
    + split; [intros E; vm_compute in E; discriminate|]. exists (enlarge_back (enlarge_front (simple 16 24 (lit "crc32") (MvStr (lit "1234ABCD")) []))). split; [vm_compute; auto 10|]. split; [split; [reflexivity|]; split; [apply alike_refl|]; split; [reflexivity|]; split; [reflexivity|cbn; lia]|discriminate].
Qed.
(** Limit: the reasons are real. A checksum that comes last, after a dash, becomes the release group, and no checksum is left *)
Theorem C98_limit : let s := lit "My.Show.S01E02.1080p-1234ABCD.mkv" in
  let ms := [simple 8 11 (lit "season") (MvInt 1) []; simple 11 14 (lit "episode") (MvInt 2) []; simple 15 20 (lit "screen_size") (MvStr (lit "1080p")) []; simple 21 29 (lit "crc32") (MvStr (lit "1234ABCD")) []; simple 29 33 (lit "container") (MvStr (lit "mkv")) []] in
  let markers := [simple 0 33 (lit "path") (MvStr []) []] in
  exists ms', step [] s markers ms ms' /\ (forall x, In x ms' -> m_name x <> lit "crc32") /\ exists g, In g ms' /\ m_name g = lit "release_group" /\ m_value g = MvStr (lit "1234ABCD").
Proof.
  cbv zeta. eexists. split; [apply (st_dash [] _ _ _ (fun t => t)); [reflexivity|intros t c H _; exact H]|]. split.
  - intros x Hx E. vm_compute in Hx. repeat (destruct Hx as [<-|Hx]; [vm_compute in E; discriminate|]). destruct Hx.
  - vm_compute. eexists. split; [right; right; right; right; left; reflexivity|]. split; reflexivity.
Qed.
Print Assumptions C98_limit.
