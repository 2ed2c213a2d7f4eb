(** What a rule may take from the most usual technical properties (C115): SurviveProps.v again, with sharper reasons for sources, codecs, audio
    channels and editions. The proofs follow those of SurviveProps.v rule by rule. *)
From Verif Require Import Py PyFacts Text TextFacts Sort Formatters Common Rebulk RebulkFacts RuleSpec Processors ProcessorsSpec Language Other ScreenSize SmallRules Title EpisodeTitle Episodes EpisodesProofs EpisodeRules EpisodeRulesProps Technical TechnicalProps ReleaseGroup WebsiteProps Equivalent EquivalentProps Pipeline PipelineProps SurviveProps.
From Coq Require Import Arith ZifyBool.

(** ** Specification *)
(** [x] tells exactly the same as [m] at the same place, but for the case of a text *)
Definition exact_fact (m x : mt) : Prop :=
  m_name x = m_name m /\ value_alike (m_value m) (m_value x) /\ m_private x = m_private m /\ m_parent x = m_parent m /\ m_start x = m_start m /\ m_end x = m_end m /\ m_tags x = m_tags m.
(** the properties whose rules are not looked at here *)
Definition judged : list string :=
  ["episode"; "season"; "count"; "weak_episode"; "weak_duplicate"; "episodeMarker"; "episodeSeparator"; "seasonSeparator"; "version"; "episode_details"; "other"; "another";
   "streaming_service"; "audio_profile"; "video_profile"; "audio_bit_rate"; "screen_size"; "website"; "year"; "part"; "title";
   "alternative_title"; "episode_title"; "language"; "subtitle_language"; "subtitle_language.prefix"; "subtitle_language.suffix"; "country"]%string.
(** those that must stand alone *)
Definition standing : list string := ["source"; "video_codec"; "audio_codec"; "audio_channels"]%string.
(** separators, or the ends of the name, on both sides *)
Definition free_standing (s : str) (m : mt) : Prop := clear_before s m /\ clear_after s m.
Inductive cause (s : str) (markers ms : list mt) (m : mt) : Prop :=
| c_judged : one_of judged (m_name m) -> cause s markers ms m
| c_part : m_parent m <> None -> cause s markers ms m
| c_whole x p : In x ms -> m_parent x = Some p -> p_name p = m_name m -> cause s markers ms m
| c_weak r t : In r ms -> mkey r = mkey m -> In t weak_tags -> tag t r -> cause s markers ms m
| c_overlap y : In y ms -> one_of ["year"; "language"; "audio_profile"]%string (m_name y) -> overlap m y -> cause s markers ms m
| c_other y : several_parts markers -> In y ms -> m_name y = m_name m -> m_value y <> m_value m -> cause s markers ms m
| c_double y : In y ms -> m_name y = m_name m -> m_value y = m_value m -> m_private y <> m_private m -> cause s markers ms m
| c_group c : (forall x, In x ms -> m_name x <> lit "release_group") -> dash_last s markers ms c -> overlap m c -> cause s markers ms m
(* it does not stand alone *)
| c_stuck : one_of standing (m_name m) -> ~ free_standing s m -> cause s markers ms m
(* a source that is only WEB, and another source after it *)
| c_only_web r y : m_name m = lit "source" -> In r ms -> mkey r = mkey m -> tag "weak.source" r -> In y ms -> m_name y = lit "source" -> cause s markers ms m
(* a Blu-ray which is an Ultra HD one *)
| c_ultra y : m_name m = lit "source" -> m_value m = MvStr (lit "Blu-ray") -> In y ms ->
    (m_name y = lit "other" /\ m_value y = MvStr (lit "Ultra HD") \/ m_name y = lit "screen_size" /\ m_value y = MvStr (lit "2160p")) -> cause s markers ms m
(* a Criterion edition and Comedy Central *)
| c_criterion y : m_name m = lit "edition" -> m_value m = MvStr (lit "Criterion") -> In y ms -> m_name y = lit "streaming_service" -> m_value y = MvStr (lit "Comedy Central") -> cause s markers ms m.
(** no bracket group begins or ends with the match *)
Definition untouched (markers : list mt) (m : mt) : Prop :=
  forall g, In g markers -> m_name g = lit "group" -> m_start g + 1 <> m_start m /\ m_end m <> m_end g - 1.

(** ** Proofs *)
Lemma exact_refl m : exact_fact m m. Proof. repeat split; auto using alike_refl. Qed.
Lemma exact_trans a b c : exact_fact a b -> exact_fact b c -> exact_fact a c.
Proof. intros (A1 & A2 & A3 & A4 & A5 & A6 & A7) (B1 & B2 & B3 & B4 & B5 & B6 & B7). repeat split; try congruence. eapply alike_trans; eauto. Qed.

Section Survive.
  Context (context : dict) (s : str) (markers ms : list mt) (m : mt) (Hm : In m ms).
  Notation R := (cause s markers ms m).
  Definition ok (ms' : list mt) : Prop := (exists x, In x ms' /\ exact_fact m x) \/ R.
  Lemma k_self ms' : In m ms' -> ok ms'.
  Proof. intros H. left. exists m. split; [exact H|apply exact_refl]. Qed.
  Lemma k_remove l : (forall r, In r l -> mkey r = mkey m -> R) -> ok (remove_all l ms).
  Proof. intros H. destruct (keep_remove l m ms Hm) as [K|(r & Hr & E)]; [apply k_self; exact K|right; eauto]. Qed.
  Lemma k_rename n l : (forall r, In r l -> mkey r = mkey m -> R) -> In m (rename_all n l ms) \/ R.
  Proof. intros H. destruct (keep_rename n l m ms Hm) as [K|(r & Hr & E)]; [left; exact K|right; eauto]. Qed.
  Lemma k_change c : (forall r, In r (fst c) -> mkey r = mkey m -> R) -> ok (apply_change c ms).
  Proof. intros H. destruct (keep_remove (fst c) m ms Hm) as [K|(r & Hr & E)]; [apply k_self, keep_append, K|right; eauto]. Qed.
  Lemma by_name n r : In n judged -> m_name r = lit n -> mkey r = mkey m -> R.
  Proof. intros N E K. apply key_facts in K as (_ & _ & K & _). apply c_judged. exists n. split; [exact N|congruence]. Qed.
  Lemma by_names l r : (forall n, In n l -> In n judged) -> one_of l (m_name r) -> mkey r = mkey m -> R.
  Proof. intros L (n & N & E) K. eapply by_name; eauto. Qed.
  Lemma by_tag t r : In t weak_tags -> In r ms -> has_tag (lit t) r = true -> mkey r = mkey m -> R.
  Proof. intros T H G K. eapply c_weak; eauto. apply has_tag_iff. exact G. Qed.
  Lemma by_kid ini kids i k : family ini kids ms -> In k (kids i) -> mkey k = mkey m -> R.
  Proof. intros [_ F] H K. specialize (F i k H). apply key_facts in K as (_ & _ & _ & _ & K). apply c_part. rewrite <- K. destruct (m_parent k); [discriminate|destruct F]. Qed.
  (** the initiator of a match with a judged name *)
  Lemma by_ini ini kids n x : family ini kids ms -> In x ms -> In n judged -> m_name x = lit n -> mkey (ini x) = mkey m -> R.
  Proof.
    intros [F _] H N E K. specialize (F x H). destruct (m_parent x) as [p|] eqn:P; [|rewrite F in K; eapply by_name; eauto]. apply key_facts in K as (_ & _ & K & _). eapply (c_whole _ _ _ _ x p); eauto. congruence.
  Qed.
  (** a match whose initiator has a judged name *)
  Lemma by_ini_name ini kids n r : family ini kids ms -> In r ms -> In n judged -> m_name (ini r) = lit n -> mkey r = mkey m -> R.
  Proof.
    intros [F _] H N E K. specialize (F r H). destruct (m_parent r) as [p|] eqn:P; [|rewrite F in E; eapply by_name; eauto]. apply key_facts in K as (_ & _ & _ & _ & K). apply c_part. congruence.
  Qed.
  Lemma by_overlap y r : In y ms -> one_of ["year"; "language"; "audio_profile"]%string (m_name y) -> overlap r y -> mkey r = mkey m -> R.
  Proof. intros H N O K. apply key_facts in K as (K1 & K2 & _). apply (c_overlap _ _ _ _ y H N). unfold overlap in *. rewrite <- K1, <- K2. exact O. Qed.
End Survive.
Ltac hd := cbn [In judged weak_tags]; repeat (first [left; reflexivity|right]).
Section Rules.
  Context (context : dict) (s : str) (markers ms : list mt) (m : mt) (Hm : In m ms) (Un : untouched markers m).
  Notation R := (cause s markers ms m).
  Notation ok := (ok s markers ms m).
  Lemma same : ok ms. Proof. apply k_self. exact Hm. Qed.
  Lemma has_name_eq n x : has_name n x = true -> m_name x = n. Proof. apply has_name_iff. Qed.
  (** removing some of the matches of a judged name *)
  Lemma k_named n l : In n judged -> (forall r, In r l -> m_name r = lit n) -> ok (remove_all l ms).
  Proof. intros N H. apply k_remove; [exact Hm|]. intros r Hr K. eapply by_name; eauto. Qed.
  Lemma k_filter n p : In n judged -> ok (remove_all (filter p (named (lit n) ms)) ms).
  Proof. intros N. apply (k_named n); [exact N|]. intros r Hr. apply filter_In in Hr as [Hr _]. apply named_In in Hr. tauto. Qed.
  Lemma k_tagged t l : In t weak_tags -> (forall r, In r l -> In r ms /\ has_tag (lit t) r = true) -> ok (remove_all l ms).
  Proof. intros N H. apply k_remove; [exact Hm|]. intros r Hr K. destruct (H r Hr). eapply by_tag; eauto. Qed.
  Lemma k_unless n rule ms' : ok (rule ms) -> unless_disabled context n rule ms = Ok ms' -> ok ms'.
  Proof. intros G. unfold unless_disabled. destruct (is_disabled context n) as [d|]; [|discriminate]. cbn [bind]. intros E. injection E as <-. destruct d; [apply same|exact G]. Qed.
  Lemma part_sub part p x : In x (in_part_of s ms part p) -> In x ms /\ p x = true.
  Proof. apply filter_range. Qed.

  (** *** episodes *)
  Lemma k_weak_conflict ini kids : family ini kids ms -> ok (WeakConflictSolver context s ini kids markers ms).
  Proof.
    intros F. unfold WeakConflictSolver. destruct (type_is _ _); [apply same|]. apply k_change; [exact Hm|]. unfold weak_conflict. set (an := is_anime s markers ms).
    assert (G : forall parts st, (forall r, In r (fst st) -> mkey r = mkey m -> R) -> forall r, In r (fst (fold_left (weak_conflict_part s ini kids an ms) parts st)) -> mkey r = mkey m -> R); [|apply (G _ ([], [])); intros r []].
    induction parts as [|p parts IH]; intros st H; [exact H|]. cbn [fold_left]. apply IH. clear IH. intros r. unfold weak_conflict_part.
    assert (D : In r (in_part_of s ms p (fun m => has_name (lit "weak_duplicate") (ini m))) -> mkey r = mkey m -> R).
    { intros Hr. apply part_sub in Hr as [H1 H2]. apply has_name_eq in H2. eapply (by_ini_name s markers ms m ini kids "weak_duplicate"); eauto. hd. }
    assert (W : In r (in_part_of s ms p (fun m => has_name (lit "weak_episode") (ini m))) -> mkey r = mkey m -> R).
    { intros Hr. apply part_sub in Hr as [H1 H2]. apply has_name_eq in H2. eapply (by_ini_name s markers ms m ini kids "weak_episode"); eauto. hd. }
    assert (Ep : forall q, In r (in_part_of s ms p (fun m => has_name (lit "episode") m && q m)) -> mkey r = mkey m -> R).
    { intros q Hr. apply part_sub in Hr as [H1 H2]. apply andb_true_iff in H2 as [H2 _]. apply has_name_eq in H2. eapply (by_name s markers ms m "episode"); eauto. hd. }
    destruct an.
    - destruct (nonnil (in_part_of _ _ _ _)); [|apply H]. cbn [fst]. rewrite !in_app_iff. intros [Hr|[Hr|Hr]]; [exact (H r Hr)|exact (D Hr)|eapply Ep; exact Hr].
    - destruct (nonnil (in_part_of s ms p (fun m => has_name (lit "weak_duplicate") (ini m)))); [|apply H].
      assert (G : forall st' : change, (In r (fst st') -> mkey r = mkey m -> R) -> In r (fst (if nonnil (snd st') then (fst st' ++ in_part_of s ms p (fun m => has_name (lit "weak_duplicate") (ini m)), snd st') else st')) -> mkey r = mkey m -> R).
      { intros st' H'. destruct (nonnil (snd st')); cbn [fst]; [|apply H']. rewrite in_app_iff. intros [Hr|Hr]; [exact (H' Hr)|exact (D Hr)]. }
      apply G. destruct (negb _ && negb _); cbn [fst]; rewrite in_app_iff; intros [Hr|Hr]; [exact (H r Hr)|exact (W Hr)|exact (H r Hr)|]. apply part_sub in Hr as [H1 H2]. apply andb_true_iff in H2 as [H2 _]. apply andb_true_iff in H2 as [H2 _]. apply has_name_eq in H2. eapply (by_name s markers ms m "episode"); eauto. hd.
  Qed.
  Lemma by_family ini kids n x r : family ini kids ms -> In x ms -> In n judged -> m_name x = lit n -> In r (ini x :: kids (ini x)) -> mkey r = mkey m -> R.
  Proof. intros F H N E [<-|Hr] K; [eapply by_ini; eauto|eapply by_kid; eauto]. Qed.
  Lemma k_invalid_season ini kids : family ini kids ms -> ok (RemoveInvalidSeason s ini kids markers ms).
  Proof.
    intros F. apply k_remove; [exact Hm|]. intros r Hr K. apply concat_In in Hr as (part & _ & Hr). unfold invalid_season_part in Hr. destruct (first _) as [st|]; [|destruct Hr]. destruct (_ && _); [|destruct Hr].
    apply concat_In in Hr as (x & Hx & Hr). apply filter_range in Hx as [H1 H2]. apply andb_true_iff in H2 as [H2 _]. apply has_name_eq in H2. destruct (_ || _); [|destruct Hr]. assert (N : In "season"%string judged) by hd.
    destruct (m_truthy (ini x)); [eapply by_family; eauto|]. destruct Hr as [<-|[]]. eapply by_name; eauto.
  Qed.
  Lemma prefix_name x b : episode_prefix ms x = Some b -> In b ms \/ True. Proof. auto. Qed.
  Lemma k_invalid_episode ini kids : family ini kids ms -> ok (RemoveInvalidEpisode s ini kids markers ms).
  Proof.
    intros F. apply k_remove; [exact Hm|]. intros r Hr K. apply concat_In in Hr as (part & _ & Hr). unfold invalid_episode_part in Hr. destruct (first _) as [st|]; [|destruct Hr]. destruct (m_truthy st); [|destruct Hr].
    apply concat_In in Hr as (x & Hx & Hr). apply filter_range in Hx as [H1 H2]. apply andb_true_iff in H2 as [H2 _]. apply has_name_eq in H2. assert (N : In "episode"%string judged) by hd.
    destruct (episode_prefix ms st) as [a|]; [|destruct Hr]. destruct (episode_prefix ms x) as [b|] eqn:B; [|destruct Hr]. destruct (str_eqb _ _); [destruct Hr|]. destruct (m_truthy (ini x)); [eapply by_family; eauto|].
    destruct Hr as [<-|[<-|[]]]; [|eapply by_name; eauto]. unfold episode_prefix in B. destruct (first _) as [y|] eqn:Y; [|discriminate]. destruct (m_truthy y); [|discriminate]. injection B as ->.
    apply first_sub in Y. apply filter_In in Y as [_ Y]. apply (smem_names _ ["episodeMarker"; "episodeSeparator"]%string) in Y. eapply (by_names s markers ms m ["episodeMarker"; "episodeSeparator"]%string); eauto. intros n [<-|[<-|[]]]; hd.
  Qed.
  Lemma k_see seps : ok (SeePatternRange seps ms).
  Proof.
    apply k_change; [exact Hm|]. intros r Hr K. rewrite joins_fst in Hr. rewrite map_map in Hr. apply concat_In in Hr as (sep & Hs & Hr). apply filter_In in Hs as [_ Hs]. apply has_name_eq in Hs.
    assert (S0 : r = sep -> R) by (intros ->; eapply (by_name s markers ms m "episodeSeparator"); eauto; hd).
    unfold see_one in Hr. destruct (first (next sep ms _)) as [n1|]; [|destruct Hr]. destruct (m_truthy n1); [|destruct Hr].
    destruct (first (previous sep ms _)) as [p|]; [|destruct Hr as [<-|[]]; apply S0; reflexivity]. destruct (first (next n1 ms _)) as [nx|] eqn:E; [|destruct Hr as [<-|[]]; apply S0; reflexivity]. destruct (_ && _ && _); [|destruct Hr as [<-|[]]; apply S0; reflexivity].
    destruct Hr as [<-|[<-|[]]]; [|apply S0; reflexivity]. apply first_sub in E. apply filter_In in E as [_ E]. unfold is_see in E. apply andb_true_iff in E as [E _]. apply has_name_eq in E. eapply (by_name s markers ms m "episode"); eauto. hd.
  Qed.
  Lemma pairs_name ini seps n can l : forall prev c, In c (pairs s ini seps n can prev l) -> exists p nx, In nx l /\ c = pair_one s ini seps n p nx.
  Proof.
    induction l as [|y l IH]; intros prev c; cbn [pairs]; [intros []|]. assert (U : forall prev', In c (pairs s ini seps n can prev' l) -> exists p nx, In nx (y :: l) /\ c = pair_one s ini seps n p nx).
    { intros prev' H. destruct (IH _ _ H) as (p & nx & H1 & H2). exists p, nx. split; [right; exact H1|exact H2]. }
    destruct prev as [q|]; [intros [<-|H]; [exists q, y; split; [left; reflexivity|reflexivity]|eapply U; exact H]|]. destruct (can y); apply U.
  Qed.
  Lemma k_range n ini seps can : In n judged -> In (n ++ "Separator")%string judged -> lit n ++ lit "Separator" = lit (n ++ "Separator") -> ok (apply_change (separator_range s ini seps (lit n) can ms) ms).
  Proof.
    intros N NS ES. apply k_change; [exact Hm|]. intros r Hr K. unfold separator_range, join in Hr. cbn [fst] in Hr. apply in_app_iff in Hr as [Hr|Hr].
    - rewrite joins_fst, map_map in Hr. apply concat_In in Hr as (sep & Hs & Hr). apply named_In in Hs as [_ Hs]. rewrite ES in Hs. assert (S0 : r = sep -> R) by (intros ->; exact (by_name s markers ms m _ _ NS Hs K)).
      unfold sep_one in Hr. destruct (first (previous sep ms _)) as [p|]; [|destruct Hr as [<-|[]]; apply S0; reflexivity]. destruct (first (next sep ms _)) as [nx|] eqn:E; [|destruct Hr as [<-|[]]; apply S0; reflexivity]. destruct (_ && _ && _); [|destruct Hr as [<-|[]]; apply S0; reflexivity].
      destruct Hr as [<-|[<-|[]]]; [|apply S0; reflexivity]. apply first_sub in E. apply filter_In in E as [_ E]. apply has_name_eq in E. exact (by_name s markers ms m n _ N E K).
    - rewrite joins_fst in Hr. apply in_concat in Hr as (u & U & Hr). apply in_map_iff in U as (c & <- & Hc). apply pairs_name in Hc as (p & nx & Hn & ->). cbn [pair_one fst] in Hr. destruct Hr as [<-|[]].
      unfold by_start in Hn. apply (Permutation.Permutation_in _ (Permutation.Permutation_sym (isort_perm _ _))) in Hn || apply (Permutation.Permutation_in _ (isort_perm _ _)) in Hn. apply named_In in Hn as [_ Hn]. exact (by_name s markers ms m n _ N Hn K).
  Qed.
  Lemma k_movie ini kids : family ini kids ms -> ok (RemoveWeakIfMovie context s ini kids markers ms).
  Proof.
    intros F. unfold RemoveWeakIfMovie. destruct (type_is _ _); [apply same|]. apply k_remove; [exact Hm|]. intros r Hr K. unfold movie_removed in Hr. destruct (nonnil _); [|destruct Hr]. apply in_app_iff in Hr as [Hr|Hr].
    - apply concat_In in Hr as (p & _ & Hr). destruct (part_year s ms p) as [y|] eqn:Y; [|destruct Hr]. apply conflicting_sub in Hr as (H1 & H2 & _). unfold part_year in Y. destruct (first _) as [y'|] eqn:E; [|discriminate]. destruct (m_truthy y'); [|discriminate]. injection Y as ->.
      apply first_sub, part_sub in E as [E1 E2]. apply has_name_eq in E2. eapply (by_overlap s markers ms m y r); eauto. exists "year"%string. split; [cbn; auto|exact E2].
    - apply filter_In in Hr as [Hr _]. apply filter_In in Hr as [H1 H2]. eapply (by_tag s markers ms m "weak-episode"); eauto. hd.
  Qed.
  Lemma k_weak_sxxexx ini : ok (RemoveWeakIfSxxExx s ini markers ms).
  Proof.
    apply (k_tagged "weak-episode"); [hd|]. intros r Hr. apply concat_In in Hr as (p & _ & Hr). unfold sxxexx_part in Hr. destruct (nonnil _); [|destruct Hr]. apply filter_In in Hr as [Hr _]. apply part_sub in Hr. exact Hr.
  Qed.
  Lemma k_weak_duplicate pat : ok (RemoveWeakDuplicate s pat markers ms).
  Proof.
    apply (k_tagged "weak-duplicate"); [hd|]. intros r Hr. apply concat_In in Hr as (p & _ & Hr). apply duplicates_sub in Hr. apply in_rev in Hr. apply part_sub in Hr. exact Hr.
  Qed.
  Lemma k_detached ancestors : lineage ancestors ms -> ok (RemoveDetachedEpisodeNumber ancestors ms).
  Proof.
    intros L. unfold RemoveDetachedEpisodeNumber. destruct (detached ms) as [d|] eqn:D; [|apply same]. apply k_remove; [exact Hm|]. intros r Hr K.
    assert (Dn : In d ms /\ m_name d = lit "episode").
    { unfold detached in D. destruct (by_value _) as [|a [|b l]] eqn:B; try discriminate. destruct (_ && _); [|discriminate]. injection D as ->. assert (Hd : In d (by_value (first_values (filter (fun m => negb (m_private m) && weak_ep m) (named (lit "episode") ms)) []))) by (rewrite B; left; reflexivity).
      unfold by_value in Hd. apply (Permutation.Permutation_in _ (Permutation.Permutation_sym (isort_perm _ _))) in Hd || apply (Permutation.Permutation_in _ (isort_perm _ _)) in Hd.
      assert (G : forall l seen, In d (first_values l seen) -> In d l). { induction l0 as [|y l0 IH]; intros seen; cbn [first_values]; [intros []|]. destruct (existsb _ seen); [intros H; right; eauto|intros [->|H]; [left; reflexivity|right; eauto]]. }
      apply G in Hd. apply filter_In in Hd as [Hd _]. apply named_In in Hd. tauto. }
    destruct Dn as [D1 D2]. destruct (L d r D1 Hr) as [->|P]; [eapply (by_name s markers ms m "episode"); eauto; hd|]. destruct (m_parent d) as [p|] eqn:E; [|destruct P]. apply key_facts in K as (_ & _ & K & _). eapply (c_whole _ _ _ _ d p); eauto. congruence.
  Qed.
  Lemma k_weak words : ok (RemoveWeak s words markers ms).
  Proof.
    apply k_change; [exact Hm|]. intros r Hr K. rewrite joins_fst, map_map in Hr. apply concat_In in Hr as (p & _ & Hr). unfold remove_weak_part in Hr. destruct (in_part_of s ms p weak_ep) as [|w rest] eqn:E; [destruct Hr|].
    destruct (first _) as [q|]; [|destruct Hr]. destruct (_ && _); [|destruct Hr]. cbn [fst] in Hr. rewrite <- E in Hr. apply part_sub in Hr as [H1 H2]. eapply (by_tag s markers ms m "weak-episode"); eauto. hd.
  Qed.
  Lemma k_count : ok (CountValidator ms).
  Proof.
    assert (G : forall o r, In r (counts_as ms o) -> mkey r = mkey m -> R). { intros o r Hr K. apply filter_In in Hr as [Hr _]. apply named_In in Hr as [_ Hr]. eapply (by_name s markers ms m "count"); eauto. hd. }
    unfold CountValidator. destruct (keep_remove (counts_as ms None) m ms Hm) as [K|(r & Hr & E)]; [|right; eauto]. destruct (keep_rename (lit "episode_count") (counts_as ms (Some (lit "episode_count"))) m _ K) as [K1|(r & Hr & E)]; [|right; eauto].
    destruct (keep_rename (lit "season_count") (counts_as ms (Some (lit "season_count"))) m _ K1) as [K2|(r & Hr & E)]; [|right; eauto]. apply k_self. exact K2.
  Qed.
  Lemma k_absolute ini kids : family ini kids ms -> ok (RenameToAbsoluteEpisode s ini kids markers ms).
  Proof.
    intros F. unfold RenameToAbsoluteEpisode.
    assert (G : forall r, In r (fst (absolute s ini kids markers ms)) \/ In r (snd (absolute s ini kids markers ms)) -> mkey r = mkey m -> R).
    { intros r Hr K. assert (Ep : In r (named (lit "episode") ms) -> R) by (intros H; apply named_In in H as [_ H]; eapply (by_name s markers ms m "episode"); eauto; hd).
      assert (P : forall part, In r (fst (absolute_part s ini ms part)) \/ In r (snd (absolute_part s ini ms part)) -> R).
      { intros part. unfold absolute_part. destruct (nonnil _); [|intros [[]|[]]]. assert (C : In r (filter (fun m => has_name (lit "weak_episode") (ini m)) (starting (m_start part) ms)) -> R).
        { intros H. apply filter_In in H as [H1 H2]. apply filter_In in H1 as [H1 _]. apply has_name_eq in H2. eapply (by_ini_name s markers ms m ini kids "weak_episode"); eauto. hd. }
        destruct (nonnil _); cbn [fst snd]; intros [H|H]; auto; destruct H. }
      assert (J : forall l, In r (fst (joins (map (absolute_part s ini ms) l))) \/ In r (snd (joins (map (absolute_part s ini ms) l))) -> R).
      { intros l. rewrite joins_fst, joins_snd, !map_map. intros [H|H]; apply concat_In in H as (part & _ & H); eauto. }
      unfold absolute in Hr. destruct (isort _ _) as [|a [|b [|c l]]]; [apply (J (parts_of markers)); exact Hr|apply (J (parts_of markers)); exact Hr| |apply (J (parts_of markers)); exact Hr].
      unfold absolute_groups in Hr. destruct (negb _); [|destruct Hr as [[]|[]]]. destruct (_ =? _); [|destruct Hr as [[]|[]]].
      destruct (filter (fun m0 => mt_eqb (ini m0) a) (named (lit "episode") ms)) as [|x xs] eqn:E1; [destruct Hr as [[]|[]]|]. destruct (filter (fun m0 => mt_eqb (ini m0) b) (named (lit "episode") ms)) as [|y ys] eqn:E2; [destruct Hr as [[]|[]]|].
      destruct (_ <? _)%Z; [cbn [fst snd] in Hr; destruct Hr as [Hr|[]]; rewrite <- E2 in Hr; apply filter_In in Hr as [Hr _]; auto|]. destruct (_ <? _)%Z; [|destruct Hr as [[]|[]]]. cbn [fst snd] in Hr. destruct Hr as [Hr|[]]. rewrite <- E1 in Hr. apply filter_In in Hr as [Hr _]. auto. }
    destruct (k_rename s markers ms m Hm (lit "absolute_episode") (fst (absolute s ini kids markers ms))) as [K|K]; [intros r Hr; apply G; auto| |right; exact K].
    destruct (keep_remove (snd (absolute s ini kids markers ms)) m _ K) as [K2|(r & Hr & E)]; [apply k_self; exact K2|right; eauto].
  Qed.
  Lemma k_disc ini kids ms' : family ini kids ms -> RenameToDiscMatch context ini kids ms = Ok ms' -> ok ms'.
  Proof.
    intros F. unfold RenameToDiscMatch. destruct (is_disabled context (lit "disc")) as [d|]; [|discriminate]. cbn [bind]. intros E. injection E as <-.
    assert (D : forall x, In x (disc_markers ms) -> m_name x = lit "episodeMarker") by (intros x Hx; apply filter_In in Hx as [Hx _]; apply named_In in Hx; tauto). destruct d.
    - apply k_remove; [exact Hm|]. intros r Hr K. apply concat_In in Hr as (x & Hx & [<-|Hr]); [eapply (by_name s markers ms m "episodeMarker"); eauto; hd|eapply by_kid; eauto].
    - destruct (k_rename s markers ms m Hm (lit "disc") (List.concat (map (fun d => by_value (named (lit "episode") (kids (ini d)))) (disc_markers ms)))) as [K|K]; [| |right; exact K].
      + intros r Hr K. apply concat_In in Hr as (x & _ & Hr). unfold by_value in Hr. apply (Permutation.Permutation_in _ (Permutation.Permutation_sym (isort_perm _ _))) in Hr || apply (Permutation.Permutation_in _ (isort_perm _ _)) in Hr. apply named_In in Hr as [Hr _]. eapply by_kid; eauto.
      + destruct (keep_rename (lit "discMarker") (disc_markers ms) m _ K) as [K2|(r & Hr & E)]; [apply k_self; exact K2|right]. eapply (by_name s markers ms m "episodeMarker"); eauto. hd.
  Qed.
  (** *** source, codecs, screen size *)
  Lemma stuck r : one_of standing (m_name m) -> mkey r = mkey m -> (chars_before is_sep s r = false \/ chars_after is_sep s r = false) -> R.
  Proof.
    intros N K H. apply key_facts in K as (K1 & K2 & _). apply c_stuck; [exact N|]. intros [B A]. destruct H as [H|H].
    - rewrite (proj2 (before_iff s r)) in H; [discriminate|]. unfold clear_before in *. rewrite K1. exact B.
    - rewrite (proj2 (after_iff s r)) in H; [discriminate|]. unfold clear_after in *. rewrite K2. exact A.
  Qed.
  Lemma source_alone_stuck i : source_alone s ms i = true -> chars_before is_sep s i = false \/ chars_after is_sep s i = false.
  Proof. unfold source_alone. destruct (chars_before is_sep s i), (chars_after is_sep s i); cbn [negb andb orb]; auto. Qed.
  Lemma k_source ini kids : family ini kids ms -> ok (ValidateSource s ini kids markers ms).
  Proof.
    intros F. apply k_remove; [exact Hm|]. intros r Hr K. apply concat_In in Hr as (part & _ & Hr). apply concat_In in Hr as (x & Hx & Hr). apply part_sub in Hx as [H1 H2]. apply has_name_eq in H2. destruct (source_alone s ms (ini x)) eqn:Al; [|destruct Hr].
    apply source_alone_stuck in Al. apply in_app_iff in Hr as [Hr|[<-|[]]]; [eapply by_kid; eauto|].
    pose proof K as K'. apply key_facts in K' as (_ & _ & K3 & _). destruct F as [F _]. specialize (F x H1). destruct (m_parent x) as [p|] eqn:P.
    - eapply (c_whole _ _ _ _ x p); eauto. congruence.
    - rewrite F in *. apply (stuck x); [exists "source"%string; split; [left; reflexivity|congruence]|exact K|exact Al].
  Qed.
  Lemma k_weak_source kids : family (fun x => x) kids [] -> ok (ValidateWeakSource s kids markers ms).
  Proof.
    intros [_ F]. apply k_remove; [exact Hm|]. intros r Hr K. apply concat_In in Hr as (part & _ & Hr). apply concat_In in Hr as (x & Hx & Hr). apply part_sub in Hx as [H1 H2]. apply has_name_eq in H2. destruct (weak_source s ms part x) eqn:W; [|destruct Hr].
    apply in_app_iff in Hr as [Hr|[<-|[]]].
    - specialize (F x r Hr). apply key_facts in K as (_ & _ & _ & _ & K). apply c_part. rewrite <- K. destruct (m_parent r); [discriminate|destruct F].
    - unfold weak_source in W. apply andb_true_iff in W as [W _]. apply andb_true_iff in W as [W1 W2]. apply nonnil_ex in W2 as (y & Hy). apply filter_range in Hy as [Y1 Y2]. apply has_name_eq in Y2. apply has_tag_iff in W1.
      pose proof K as K'. apply key_facts in K' as (_ & _ & K3 & _). apply (c_only_web _ _ _ _ x y); auto. congruence.
  Qed.
  Lemma uhd_evidence l part x o : uhd_other s l part x = (true, o) -> exists y, In y l /\ (m_name y = lit "other" /\ m_value y = MvStr (lit "Ultra HD") \/ m_name y = lit "screen_size" /\ m_value y = MvStr (lit "2160p")).
  Proof.
    assert (TX : forall t y, is_text t y = true -> m_value y = MvStr t) by (intros t y E; unfold is_text, mval_eqb in E; destruct (mval_eq_dec (m_value y) (MvStr t)); [assumption|discriminate]).
    assert (UH : forall y, In y l -> ultra_hd y = true -> exists y, In y l /\ (m_name y = lit "other" /\ m_value y = MvStr (lit "Ultra HD") \/ m_name y = lit "screen_size" /\ m_value y = MvStr (lit "2160p"))).
    { intros y Hy U. unfold ultra_hd in U. apply andb_true_iff in U as [U U2]. apply andb_true_iff in U as [_ U1]. apply has_name_eq in U1. exists y. split; [exact Hy|]. left. split; [exact U1|apply TX, U2]. }
    assert (H2 : has_2160p s l part = true -> exists y, In y l /\ (m_name y = lit "other" /\ m_value y = MvStr (lit "Ultra HD") \/ m_name y = lit "screen_size" /\ m_value y = MvStr (lit "2160p"))).
    { intros H. unfold has_2160p in H. apply nonnil_ex in H as (y & Hy). apply filter_range in Hy as [Y1 Y2]. apply andb_true_iff in Y2 as [Y2 Y3]. apply has_name_eq in Y2. exists y. split; [exact Y1|]. right. split; [exact Y2|apply TX, Y3]. }
    assert (T : forall o' x, Technical.truthy_o o' = Some x -> o' = Some x) by (intros [y|] z H; [|discriminate]; unfold Technical.truthy_o in H; destruct (m_truthy y); [exact H|discriminate]).
    assert (UA : uhd_after s l part x = (true, o) -> exists y, In y l /\ (m_name y = lit "other" /\ m_value y = MvStr (lit "Ultra HD") \/ m_name y = lit "screen_size" /\ m_value y = MvStr (lit "2160p"))).
    { unfold uhd_after. destruct (Technical.truthy_o _) as [z|] eqn:E; [|intros H; injection H as H _; apply H2, H]. apply T, first_sub, filter_range in E as [E1 E2]. intros _. apply (UH z E1 E2). }
    unfold uhd_other. destruct (Technical.truthy_o _) as [z|] eqn:E; [|exact UA]. apply T, last_sub, filter_range in E as [E1 E2]. intros _. apply (UH z E1 E2).
  Qed.
  Lemma uhd_named l part x b o : uhd_other s l part x = (b, Some o) -> m_name o = lit "other".
  Proof.
    assert (U : forall x, ultra_hd x = true -> m_name x = lit "other") by (intros y H; unfold ultra_hd in H; apply andb_true_iff in H as [H _]; apply andb_true_iff in H as [_ H]; apply has_name_iff; exact H).
    assert (T : forall o' x, Technical.truthy_o o' = Some x -> o' = Some x) by (intros [y|] z H; [|discriminate]; unfold Technical.truthy_o in H; destruct (m_truthy y); [exact H|discriminate]).
    assert (UA : uhd_after s l part x = (b, Some o) -> m_name o = lit "other").
    { unfold uhd_after. destruct (Technical.truthy_o _) as [z|] eqn:F; [|discriminate]. apply T, first_sub, filter_range in F as [_ F]. intros H. apply U. destruct (uhd_range _ _ _ _); injection H as _ <-; exact F. }
    unfold uhd_other. destruct (Technical.truthy_o _) as [z|] eqn:F; [|exact UA]. apply T, last_sub, filter_range in F as [_ F]. destruct (uhd_range _ _ _ _); [|exact UA]. intros H. injection H as _ <-. apply U, F.
  Qed.
  Lemma k_ultra : ok (UltraHdBluray s markers ms).
  Proof.
    unfold UltraHdBluray.
    set (I0 := fun st : list mt * change => (In m (fst st) \/ R) /\ (forall y, In y (fst st) -> exists z, In z ms /\ m_name z = m_name y /\ m_value z = m_value y) /\ (forall r, In r (fst (snd st)) -> mkey r = mkey m -> R)).
    assert (S1 : forall part l st, (forall x, In x l -> blu_ray x = true) -> I0 st -> I0 (fold_left (uhd_step s part) l st)).
    { intros part. induction l as [|x l IH]; intros st L H; [exact H|]. cbn [fold_left]. apply IH; [intros y Hy; apply L; right; exact Hy|]. clear IH. destruct H as (A & B & C).
      unfold uhd_step. destruct (uhd_other s (fst st) part x) as [b o] eqn:U. destruct b; [|exact (conj A (conj B C))]. split; [|split]; cbn [fst snd].
      - destruct A as [A|A]; [|right; exact A]. destruct o as [o|]; [|left; exact A]. destruct (mt_eqb o m) eqn:E.
        + right. apply mt_eqb_eq in E. apply uhd_named in U. eapply (by_name s markers ms m "other" o); [hd|exact U|exact E].
        + left. unfold make_private. apply in_map_iff. exists m. rewrite E. auto.
      - destruct o as [o|]; [|exact B]. intros y Hy. unfold make_private in Hy. apply in_map_iff in Hy as (z & <- & Hz). destruct (B z Hz) as (w & W1 & W2 & W3). exists w. split; [exact W1|]. destruct (mt_eqb o z); [|auto]. destruct z; cbn in *; auto.
      - intros r Hr. apply in_app_iff in Hr as [Hr|[<-|[]]]; [apply C; exact Hr|]. intros K. apply key_facts in K as (_ & _ & K3 & K4 & _). pose proof (L x (or_introl eq_refl)) as Bx. unfold blu_ray in Bx. apply andb_true_iff in Bx as [Bx B2]. apply andb_true_iff in Bx as [_ B1]. apply has_name_eq in B1.
        unfold is_text, mval_eqb in B2. destruct (mval_eq_dec (m_value x) _) as [B2'|]; [|discriminate]. destruct (uhd_evidence _ _ _ _ U) as (y & Y1 & Y2). destruct (B y Y1) as (z & Z1 & Z2 & Z3). rewrite <- Z2, <- Z3 in Y2. apply (c_ultra _ _ _ _ z); congruence || auto. }
    assert (S2 : forall parts st, I0 st -> I0 (fold_left (uhd_part s) parts st)).
    { induction parts as [|p parts IH]; intros st H; [exact H|]. cbn [fold_left]. apply IH. unfold uhd_part. apply S1; [|exact H]. intros x Hx. apply filter_range in Hx as [_ Hx]. exact Hx. }
    destruct (S2 (parts_of markers) (ms, ([], []))) as (A & _ & C); [split; [left; exact Hm|split; [intros y Hy; exists y; auto|intros r []]]|]. set (st' := fold_left _ _ _) in *. clearbody st'. destruct A as [A|A]; [|right; exact A].
    destruct (keep_remove (fst (snd st')) m (fst st') A) as [K|(r & Hr & E)]; [apply k_self, keep_append, K|right; eapply C; eauto].
  Qed.
  Lemma k_audio : ok (AudioValidator s ms).
  Proof.
    apply k_remove; [exact Hm|]. intros r Hr K. apply filter_In in Hr as [Hr Al]. apply filter_range in Hr as [_ Hr]. apply (smem_names _ ["audio_codec"; "audio_profile"; "audio_channels"]%string) in Hr. destruct Hr as (n & N & E).
    assert (Al' : chars_before is_sep s r = false \/ chars_after is_sep s r = false) by (unfold audio_alone in Al; destruct (chars_before is_sep s r), (chars_after is_sep s r); cbn [negb andb orb] in Al; auto).
    pose proof K as K'. apply key_facts in K' as (_ & _ & K3 & _). destruct N as [<-|[<-|[<-|[]]]].
    - apply (stuck r); [eexists; split; [|rewrite <- K3; exact E]; cbn; auto|exact K|exact Al'].
    - eapply (by_name s markers ms m "audio_profile"); eauto. hd.
    - apply (stuck r); [eexists; split; [|rewrite <- K3; exact E]; cbn; auto|exact K|exact Al'].
  Qed.
  Lemma k_codec : ok (remove_all (filter (codec_alone s ms) (named (lit "video_codec") ms)) ms).
  Proof.
    apply k_remove; [exact Hm|]. intros r Hr K. apply filter_In in Hr as [Hr Al]. apply named_In in Hr as [_ E]. pose proof K as K'. apply key_facts in K' as (_ & _ & K3 & _). apply (stuck r); [exists "video_codec"%string; split; [cbn; auto|congruence]|exact K|].
    unfold codec_alone in Al. destruct (chars_before is_sep s r), (chars_after is_sep s r); cbn [negb andb orb] in Al; auto.
  Qed.
  Lemma k_profile codec : ok (remove_all (profile_removed codec ms) ms).
  Proof.
    apply k_remove; [exact Hm|]. intros r Hr K. apply concat_In in Hr as (p & Hp & Hr). apply filter_In in Hp as [Hp _]. apply named_In in Hp as [P1 P2]. destruct (profile_codec ms codec p).
    - apply conflicting_sub in Hr as (_ & O & _). apply (by_overlap s markers ms m p r); auto. exists "audio_profile"%string. split; [cbn; auto|exact P2].
    - destruct Hr as [<-|[]]. eapply (by_name s markers ms m "audio_profile"); eauto. hd.
  Qed.
  Lemma k_channels : ok (remove_all (filter (fun a => negb (nonnil (match m_start a with O => [] | S i => range s ms i (S i) (has_name (lit "audio_codec")) end))) (tagged (lit "weak-audio_channels") ms)) ms).
  Proof. apply (k_tagged "weak-audio_channels"); [hd|]. intros r Hr. apply filter_In in Hr as [Hr _]. apply filter_In in Hr. exact Hr. Qed.
  Lemma mapM_map {A B} (f : A -> res B) l : forall l', mapM f l = Ok l' -> forall x, In x l -> exists y, In y l' /\ f x = Ok y.
  Proof.
    induction l as [|a l IH]; intros l' E x; cbn [mapM] in E; [intros []|]. destruct (f a) as [b|] eqn:Fa; [|discriminate]. cbn [bind] in E. destruct (mapM f l) as [r|]; [|discriminate]. cbn [bind] in E. injection E as <-.
    intros [<-|H]; [exists b; split; [left; reflexivity|exact Fa]|]. destruct (IH r eq_refl x H) as (y & Hy & Ey). exists y. split; [right; exact Hy|exact Ey].
  Qed.
  Lemma k_screen standard lo hi ms' : PostProcess context s standard lo hi ms = Ok ms' -> ok ms'.
  Proof.
    unfold PostProcess. destruct (mapM _ ms) as [l|] eqn:E; [|discriminate]. cbn [bind]. intros G. injection G as <-. destruct (mapM_map _ _ _ E m Hm) as (y & Hy & Ey). destruct (has_name (lit "screen_size") m) eqn:N.
    - right. apply has_name_eq in N. eapply (by_name s markers ms m "screen_size" m); eauto. hd.
    - injection Ey as <-. apply k_self, keep_append. apply in_map_iff. exists (m, []). auto.
  Qed.
  Lemma k_one_size : ok (OnlyOne s markers ms).
  Proof.
    apply (k_named "screen_size"); [hd|]. intros r Hr. apply in_flat_map in Hr as (p & _ & Hr). unfold extra_sizes in Hr. destruct (_ && _); [|destruct Hr]. assert (T : forall (l : list mt) x, In x (tl l) -> In x l) by (intros [|a l] x; [auto|right; auto]).
    apply T, in_rev, filter_range in Hr as [_ Hr]. apply has_name_eq. exact Hr.
  Qed.
  Lemma k_size_conflict : ok (ResolveConflicts s markers ms).
  Proof.
    apply k_remove; [exact Hm|]. intros r Hr K. apply in_flat_map in Hr as (p & _ & Hr). unfold size_conflicts in Hr. destruct (first _) as [z|] eqn:Z; [|destruct Hr]. apply first_sub, filter_range in Z as [Z1 Z2]. apply has_name_eq in Z2. destruct (negb (m_truthy z)); [destruct Hr|].
    destruct (conflicting z ms ScreenSize.season_or_episode) as [|c l] eqn:C; [destruct Hr|]. assert (G : In r (c :: l) -> R).
    { rewrite <- C. intros H. apply conflicting_sub in H as (_ & _ & H). apply (smem_names _ ["season"; "episode"]%string) in H. refine (by_names s markers ms m _ r _ H K). intros n [<-|[<-|[]]]; hd. }
    assert (If : forall b : bool, In r (if b then c :: l else []) -> R) by (intros [|] H; [exact (G H)|destruct H]). apply in_app_iff in Hr as [Hr|Hr]; [eapply If; exact Hr|]. apply in_app_iff in Hr as [Hr|Hr]; [eapply If; exact Hr|].
    destruct (_ || _) in Hr; [destruct Hr|]. destruct Hr as [<-|[]]. eapply (by_name s markers ms m "screen_size"); eauto. hd.
  Qed.
  Lemma k_website safe : ok (PreferTitleOverWebsite safe markers ms).
  Proof. apply (k_filter "website"). hd. Qed.
  Lemma k_website_prefix : ok (ValidateWebsitePrefix s ms).
  Proof. apply (k_tagged "website.prefix"); [hd|]. intros r Hr. apply filter_In in Hr as [Hr _]. apply filter_In in Hr. exact Hr. Qed.
  Lemma k_year : ok (KeepMarkedYear s markers ms).
  Proof.
    unfold KeepMarkedYear. destruct (1 <? _); [|apply same]. apply (k_named "year"); [hd|]. intros r Hr. apply in_flat_map in Hr as (p & _ & Hr).
    assert (H : In r (years_in s ms p)); [|apply filter_range in H as [_ H]; apply has_name_eq; exact H]. revert Hr. unfold year_removed. generalize (years_in s ms p). intros l. destruct (1 <? _); [|intros []].
    assert (A : forall q x, In x (filter q l) -> In x l) by (intros q x Hx; apply filter_In in Hx; apply Hx).
    destruct (filter (SmallRules.in_group markers) l) as [|g gs] eqn:E1; destruct (filter (fun y => negb (SmallRules.in_group markers y)) l) as [|u us] eqn:E2; cbn [app]; intros H.
    - destruct H.
    - destruct H as [<-|H]; (eapply A; rewrite E2); [left; reflexivity|right; destruct us; [destruct H|right; exact H]].
    - destruct H.
    - destruct H as [<-|H]; [eapply A; rewrite E2; left; reflexivity|]. apply in_app_iff in H as [H|H]; [eapply A; rewrite E2; right; exact H|eapply A; rewrite E1; right; exact H].
  Qed.
  (** *** titles *)
  Definition ignorable (x : mt) : Prop := one_of ["language"; "country"; "episode_details"]%string (m_name x).
  Lemma by_ignorable r : ignorable r -> mkey r = mkey m -> R.
  Proof. intros H K. refine (by_names s markers ms m _ r _ H K). intros n [<-|[<-|[<-|[]]]]; hd. Qed.
  Lemma hole_removed r part h t rm : hole_titles r s context ms part h = Ok (Some (t, rm)) -> forall x, In x rm -> ignorable x.
  Proof.
    unfold hole_titles. destruct (_ || _); [discriminate|]. destruct (trim _ _ _ _ _) as [h' kp]. destruct (_ <? _); [discriminate|]. destruct (_ && _); [|discriminate]. intros E. injection E as _ <-. intros x Hx. apply remove_sub in Hx. apply filter_In in Hx as [Hx _]. apply filter_range in Hx as [_ Hx].
    unfold is_ignored in Hx. apply andb_true_iff in Hx as [_ Hx]. apply (smem_names _ ["language"; "country"; "episode_details"]%string) in Hx. exact Hx.
  Qed.
  Lemma check_removed r extra part t rm : check_titles r s context markers ms extra part = Ok (Some (t, rm)) -> forall x, In x rm -> ignorable x.
  Proof.
    unfold check_titles. generalize (holes_process markers (filter (fun h => nonnil (hole_value s h)) (holes s ms (m_start part) (m_end part + 1) (fun m0 => is_ignored s m0 || extra m0) None))). induction l as [|h l IH]; cbn [first_titles]; [discriminate|].
    destruct (hole_titles r s context ms part h) as [o|] eqn:E; [|discriminate]. cbn [bind]. destruct o as [[t' rm']|]; [|exact IH]. intros Q. injection Q as -> ->. eapply hole_removed; exact E.
  Qed.
  Lemma title_removed r w : title_when r s context markers ms = Ok w -> forall x, In x (snd w) -> ignorable x.
  Proof.
    unfold title_when. destruct (existsb _ _); [intros E; injection E as <-; intros x []|]. set (parts := filter _ _). destruct (serie_titles _ _ _ _ _ _) as [se|] eqn:S1; [|discriminate]. cbn [bind]. destruct (main_part _ _ _ _ _ _ _) as [[years main]|] eqn:S2; [|discriminate]. cbn [bind].
    destruct (mapM _ years) as [others|] eqn:S3; [|discriminate]. cbn [bind]. intros E. injection E as <-. cbn [snd]. intros x Hx. apply in_app_iff in Hx as [Hx|Hx]; [|apply in_app_iff in Hx as [Hx|Hx]].
    - destruct se as [[t rm]|]; [|destruct Hx]. unfold serie_titles in S1. destruct (serie_part s ms parts) as [p|]; [|discriminate]. destruct (m_truthy p); [|discriminate]. destruct (check_titles _ _ _ _ _ _ _) as [[[[|t' [|? ?]] rm']|]|] eqn:C; try discriminate. cbn [bind] in S1. injection S1 as -> ->. eapply check_removed; eauto.
    - clear S1. revert S2. generalize (filter (with_year s ms) parts) as ys. induction parts as [|p ps IH]; intros ys S2; cbn [main_part] in S2; [injection S2 as <- <-; destruct Hx|]. destruct (check_titles r s context markers ms never p) as [[[t rm]|]|] eqn:C; [| |discriminate]; cbn [bind] in S2; [|eapply IH; exact S2].
      injection S2 as <- <-. cbn [removed_of snd] in Hx. eapply check_removed; eauto.
    - clear S1 S2. revert others S3 Hx. induction years as [|y ys IH]; intros others S3 Hx; cbn [mapM] in S3; [injection S3 as <-; destruct Hx|]. destruct (check_titles r s context markers ms never y) as [o|] eqn:C; [|discriminate]. cbn [bind] in S3. destruct (mapM _ ys) as [os|]; [|discriminate]. cbn [bind] in S3. injection S3 as <-.
      cbn [flat_map] in Hx. apply in_app_iff in Hx as [Hx|Hx]; [|eapply IH; eauto]. destruct o as [[t rm]|]; [|destruct Hx]. eapply check_removed; eauto.
  Qed.
  Lemma k_title_base r ms' : title_base r s context markers ms = Ok ms' -> ok ms'.
  Proof.
    unfold title_base. destruct (title_when _ _ _ _ _) as [w|] eqn:W; [|discriminate]. cbn [bind]. intros E. injection E as <-. unfold title_then. destruct (keep_remove (snd w) m _ (keep_append (fst w) m ms Hm)) as [K|(x & Hx & E)]; [apply k_self; exact K|right]. eapply by_ignorable; [eapply title_removed; eauto|exact E].
  Qed.
  Lemma k_title_year : ok (PreferTitleWithYear s markers ms).
  Proof.
    unfold PreferTitleWithYear. destruct (prefer_year s markers ms) as [rm tg] eqn:E. assert (T : forall r, In r rm \/ In r tg -> mkey r = mkey m -> R).
    { intros r Hr K. assert (H : In r (named (lit "title") ms)). { unfold prefer_year in E. injection E as <- <-. destruct Hr as [Hr|Hr]; [apply filter_In in Hr; apply Hr|]. destruct (nonnil _) in Hr; apply filter_In in Hr; apply Hr. }
      apply named_In in H as [_ H]. eapply (by_name s markers ms m "title"); eauto. hd. }
    destruct (keep_remove rm m ms Hm) as [K|(r & Hr & Q)]; [|right; eauto]. unfold append_tags. destruct (keep_remove tg m _ K) as [K2|(r & Hr & Q)]; [apply k_self, keep_append, K2|right; eauto].
  Qed.
  Lemma k_conflicts : ok (RemoveConflictsWithEpisodeTitle s markers ms).
  Proof.
    apply k_remove; [exact Hm|]. intros r Hr K. apply in_flat_map in Hr as (p & _ & Hr). apply filter_In in Hr as [Hr _]. apply filter_range in Hr as [_ Hr]. apply (smem_names _ ["part"; "year"]%string) in Hr. refine (by_names s markers ms m _ r _ Hr K). intros n [<-|[<-|[]]]; hd.
  Qed.
  Lemma k_episode_title ms' : EpisodeTitleFromPosition s context markers ms = Ok ms' -> ok ms'.
  Proof. unfold EpisodeTitleFromPosition. destruct (nonnil _); [intros E; injection E as <-; apply same|apply k_title_base]. Qed.
  Lemma k_alternative ms' : AlternativeTitleReplace s ms = Ok ms' -> ok ms'.
  Proof.
    unfold AlternativeTitleReplace. destruct (alternative_found s ms) as [a|] eqn:A; [|intros E; injection E as <-; apply same]. destruct (mmem a ms); [|discriminate]. intros E. injection E as <-.
    destruct (keep_remove1 a m ms Hm) as [K|K]; [apply k_self, in_or_app; left; exact K|right]. unfold alternative_found in A. destruct (nonnil _); [discriminate|]. destruct (first (range_all _ _ _)) as [a'|] eqn:F; [|discriminate]. destruct (m_truthy a'); [|discriminate]. destruct (first (chain_before _ _ _ _)) as [t|]; [|discriminate]. destruct (_ && _); [|discriminate]. injection A as ->.
    apply first_sub, filter_range in F as [_ F]. apply has_name_eq in F. eapply (by_name s markers ms m "alternative_title"); eauto. hd.
  Qed.
  Lemma k_rename_now n n0 l ms' : In n0 judged -> (forall r, In r l -> m_name r = lit n0) -> foldM (rename_now n) l ms = Ok ms' -> ok ms'.
  Proof.
    intros N L E. assert (G : In m ms' \/ R); [|destruct G; [apply k_self; assumption|right; assumption]]. revert E. apply (foldM_inv (rename_now n) (fun ms' => In m ms' \/ R)); [|left; exact Hm]. intros a b c Hb [Ha|Ha] E; [|right; exact Ha]. unfold rename_now in E. destruct (mmem b a); [|discriminate]. injection E as <-.
    destruct (keep_remove1 b m a Ha) as [K|K]; [left; apply in_or_app; left; exact K|right]. exact (by_name s markers ms m n0 b N (L b Hb) K).
  Qed.
  Lemma k_to_episode_title ms' : TitleToEpisodeTitle ms = Ok ms' -> ok ms'.
  Proof. apply (k_rename_now _ "title"); [hd|]. intros r Hr. unfold to_episode_title in Hr. destruct (_ <? _); [destruct Hr|]. apply filter_In in Hr as [Hr _]. apply named_In in Hr. tauto. Qed.
  Lemma k_rename_title ms' : RenameEpisodeTitle ms = Ok ms' -> ok ms'.
  Proof. unfold RenameEpisodeTitle. destruct (_ && _); [|intros E; injection E as <-; apply same]. apply (k_rename_now _ "episode_title"); [hd|]. intros r Hr. apply named_In in Hr. tauto. Qed.
  Lemma k_append_named n x : ok (append_named n x ms).
  Proof. unfold append_named. destruct (mmem x ms); [apply same|]. apply k_self, in_or_app. left. exact Hm. Qed.
  Lemma k_filepart3 : ok (Filepart3EpisodeTitle s markers ms).
  Proof. unfold Filepart3EpisodeTitle. destruct (nonnil _); [apply same|]. destruct (rev _) as [|a [|b [|c l]]]; try apply same. destruct (_ && _); [|apply same]. destruct (folder_hole _ _ _); [apply k_append_named|apply same]. Qed.
  Lemma k_filepart2 : ok (Filepart2EpisodeTitle s markers ms).
  Proof. unfold Filepart2EpisodeTitle. destruct (nonnil _); [apply same|]. destruct (rev _) as [|a [|b l]]; try apply same. destruct (_ && _); [|apply same]. destruct (folder_hole _ _ _); [apply k_append_named|apply same]. Qed.
  Lemma k_number n tn zone ms' : number_title n tn zone s markers ms = Ok ms' -> ok ms'.
  Proof.
    unfold number_title. destruct (first (filter public _)) as [b|]; [|intros E; injection E as <-; apply same]. destruct (m_truthy b); [|intros E; injection E as <-; apply same]. destruct (first (filter _ _)) as [p|]; [|discriminate].
    destruct (first (holes _ _ _ _ _ _)) as [h|]; [|intros E; injection E as <-; apply same]. destruct (_ <? _); [discriminate|]. destruct (_ && _); intros E; injection E as <-; [apply k_self, (keep_append [_]), Hm|apply same].
  Qed.
  (** *** languages *)
  Lemma k_sub_extension : ok (SubtitleExtension ms).
  Proof.
    unfold SubtitleExtension. destruct (first (filter _ _)) as [e|]; [|apply same]. destruct (negb (m_truthy e)); [apply same|]. destruct (first (previous e ms _)) as [l|] eqn:L; [|apply same]. destruct (negb (m_truthy l)); [apply same|].
    assert (Lin : In l ms) by (apply first_sub, previous_In in L; apply L). apply first_sub in L. apply filter_In in L as [_ L]. apply has_name_eq in L. cbv zeta. set (f := fun m0 : mt => if has_name (lit "subtitle_language") m0 && has_tag (lit "weak-language") m0 then set_private m0 else m0).
    assert (In m (map f ms) \/ R) as [K|K]; [| |right; exact K].
    { destruct (has_name (lit "subtitle_language") m && has_tag (lit "weak-language") m) eqn:E.
      - right. apply andb_true_iff in E as [E _]. apply has_name_eq in E. eapply (by_name s markers ms m "subtitle_language" m); eauto. hd.
      - left. apply in_map_iff. exists m. split; [unfold f; rewrite E; reflexivity|exact Hm]. }
    destruct (keep_remove (conflicting l (map f ms) (has_name (lit "source"))) m _ K) as [K2|(r & Hr & E)].
    - destruct (keep_rename (lit "subtitle_language") [l] m _ K2) as [K3|(r & [<-|[]] & E)]; [apply k_self; exact K3|right]. eapply (by_name s markers ms m "language"); eauto. hd.
    - right. apply conflicting_sub in Hr as (_ & O & _). assert (Hl : In l ms) by exact Lin. apply (by_overlap s markers ms m l r); auto. exists "language"%string. split; [cbn; auto|exact L].
  Qed.
  Lemma to_subtitle_keep l ms0 ms' : m_name l = lit "language" -> In m ms0 -> to_subtitle ms0 l = Ok ms' -> In m ms' \/ R.
  Proof.
    intros N H. unfold to_subtitle. destruct (mmem l ms0); [|discriminate]. intros E. injection E as <-. destruct (keep_remove1 l m ms0 H) as [K|K]; [left; apply in_or_app; left; exact K|right]. eapply (by_name s markers ms m "language"); eauto. hd.
  Qed.
  Lemma k_sub_prefix ms' : SubtitlePrefix s markers ms = Ok ms' -> ok ms'.
  Proof.
    intros E. assert (G : In m ms' \/ R); [|destruct G; [apply k_self; assumption|right; assumption]]. revert E. unfold SubtitlePrefix.
    assert (W : (forall pl, In pl (fst (prefix_when s markers ms)) -> m_name (snd pl) = lit "language") /\ (forall r, In r (snd (prefix_when s markers ms)) -> mkey r = mkey m -> R)).
    { unfold prefix_when. assert (G : forall ls (st : list (mt * mt) * list mt), (forall l, In l ls -> In l ms /\ m_name l = lit "language") -> (forall pl, In pl (fst st) -> m_name (snd pl) = lit "language") -> (forall r, In r (snd st) -> mkey r = mkey m -> R) ->
        let st' := fold_left (prefix_step s markers ms) ls st in (forall pl, In pl (fst st') -> m_name (snd pl) = lit "language") /\ (forall r, In r (snd st') -> mkey r = mkey m -> R)).
      { induction ls as [|l ls IH]; intros st L A B; [split; assumption|]. cbn [fold_left]. destruct (L l (or_introl eq_refl)) as [L1 L2]. apply IH; [intros y Hy; apply L; right; exact Hy| |]; unfold prefix_step; destruct (prefix_of s markers ms l) as [p|]; auto; cbn [fst snd].
        - intros pl Hp. apply in_app_iff in Hp as [Hp|[<-|[]]]; [auto|exact L2].
        - intros r Hr K. apply remove1_sub in Hr. apply in_app_iff in Hr as [Hr|Hr]; [eapply B; eauto|]. apply conflicting_sub in Hr as (_ & O & _). apply (by_overlap s markers ms m l r); auto. exists "language"%string. split; [cbn; auto|exact L2]. }
      apply G; [intros l Hl; apply named_In in Hl; tauto|intros pl []|]. intros r Hr K. apply named_In in Hr as [_ Hr]. eapply (by_name s markers ms m "subtitle_language.prefix"); eauto. hd. }
    destruct W as [W1 W2]. apply (foldM_inv _ (fun ms' => In m ms' \/ R)).
    - intros a [p l] c Hb [Ha|Ha] E; [|right; exact Ha]. cbn [fst snd] in E. destruct (keep_remove1 (set_name p (lit "subtitle_language.suffix")) m a Ha) as [K|K]; [|right; eapply (by_name s markers ms m "subtitle_language.suffix"); [hd| |exact K]; reflexivity]. eapply to_subtitle_keep; [|exact K|exact E]. apply (W1 (p, l) Hb).
    - destruct (keep_remove (snd (prefix_when s markers ms)) m ms Hm) as [K|(r & Hr & E)]; [left; exact K|right; eauto].
  Qed.
  Lemma k_sub_suffix ms' : SubtitleSuffix ms = Ok ms' -> ok ms'.
  Proof.
    intros E. assert (G : In m ms' \/ R); [|destruct G; [apply k_self; assumption|right; assumption]]. revert E. unfold SubtitleSuffix. set (w := fold_left _ _ _).
    assert (W : (forall l, In l (fst w) -> m_name l = lit "language") /\ (forall r, In r (snd w) -> m_name r = lit "subtitle_language.suffix")).
    { unfold w. clear w. assert (G : forall ls (st : list mt * list mt), (forall l, In l ls -> m_name l = lit "language") -> (forall l, In l (fst st) -> m_name l = lit "language") -> (forall r, In r (snd st) -> m_name r = lit "subtitle_language.suffix") ->
        let st' := fold_left (suffix_step ms) ls st in (forall l, In l (fst st') -> m_name l = lit "language") /\ (forall r, In r (snd st') -> m_name r = lit "subtitle_language.suffix")).
      { induction ls as [|l ls IH]; intros st L A B; [split; assumption|]. cbn [fold_left]. pose proof (L l (or_introl eq_refl)) as L2. apply IH; [intros y Hy; apply L; right; exact Hy| |]; unfold suffix_step; destruct (suffix_of ms l) as [p|]; auto; cbn [fst snd].
        - intros pl Hp. apply in_app_iff in Hp as [Hp|[<-|[]]]; [auto|exact L2].
        - intros r Hr. apply remove1_sub in Hr. auto. }
      apply G; [intros l Hl; apply named_In in Hl; tauto|intros l []|]. intros r Hr. apply named_In in Hr. tauto. }
    destruct W as [W1 W2]. apply (foldM_inv _ (fun ms' => In m ms' \/ R)).
    - intros a l c Hb [Ha|Ha] E; [|right; exact Ha]. eapply to_subtitle_keep; eauto.
    - destruct (keep_remove (snd w) m ms Hm) as [K|(r & Hr & E)]; [left; exact K|right]. eapply (by_name s markers ms m "subtitle_language.suffix"); eauto. hd.
  Qed.
  Lemma k_language_list l : (forall r, In r l -> is_language r = true) -> ok (remove_all l ms).
  Proof. intros H. apply k_remove; [exact Hm|]. intros r Hr K. apply H in Hr. apply (smem_names _ ["language"; "subtitle_language"]%string) in Hr. refine (by_names s markers ms m _ r _ Hr K). intros n [<-|[<-|[]]]; hd. Qed.
  (** *** release groups *)
  Lemma at_match_over c r : m_start c < m_end c -> In r (at_match c ms) -> overlap r c.
  Proof.
    intros L. unfold at_match, at_span. intros H. apply merge_new_sub in H as [H|H].
    - apply filter_In in H as [_ H]. unfold covers in H. exists (m_start c). lia.
    - destruct (m_end c) as [|b] eqn:E; [destruct H|]. apply filter_In in H as [_ H]. unfold covers in H. exists b. lia.
  Qed.
  Lemma slice_one (t : str) a b c : b <= List.length t -> slice a b t = [c] -> 0 < b /\ nth_error t (b - 1) = Some c.
  Proof.
    intros L E. assert (N : List.length (slice a b t) = 1) by (rewrite E; reflexivity). unfold slice in N. rewrite firstn_length, skipn_length in N. assert (b = S a) as -> by lia. split; [lia|]. replace (S a - 1) with a by lia.
    unfold slice in E. replace (S a - a) with 1 in E by lia. rewrite <- (firstn_skipn a t) at 1. rewrite nth_error_app2 by (rewrite firstn_length; lia). rewrite firstn_length. replace (a - Nat.min a (List.length t)) with 0 by lia. destruct (skipn a t) as [|x l]; [discriminate|]. cbn in E. injection E as ->. reflexivity.
  Qed.
  Lemma k_dash clean : inside s ms -> ok (DashSeparatedReleaseGroup clean s markers ms).
  Proof.
    intros I. unfold DashSeparatedReleaseGroup. destruct (nonnil (named (lit "release_group") ms)) eqn:NG; [apply same|]. apply k_change; [exact Hm|]. intros r Hr K.
    assert (NG' : forall x, In x ms -> m_name x <> lit "release_group").
    { intros x Hx E. assert (G : In x (named (lit "release_group") ms)) by (apply named_In; auto). destruct (named (lit "release_group") ms); [destruct G|discriminate]. }
    assert (PP : exists part, In part markers /\ m_name part = lit "path" /\ In r (fst (dash_part clean s markers ms part))).
    { assert (L : forall p, In p (parts_of markers) -> In p markers /\ m_name p = lit "path") by (intros p Hp; apply named_In in Hp; tauto). revert Hr L. induction (parts_of markers) as [|p ps IH]; cbn [dash_parts]; [intros []|]. intros Hr L.
      destruct (nonnil (fst (dash_part clean s markers ms p)) || _); [exists p; destruct (L p (or_introl eq_refl)); auto|]. apply IH; [exact Hr|]. intros q Hq. apply L. right. exact Hq. }
    destruct PP as (part & P1 & P2 & Hr'). clear Hr. unfold dash_part in Hr'. destruct (detect_end s markers ms part) as [c|] eqn:D; [|destruct (detect_start s markers ms part); destruct Hr']. cbn [fst] in Hr'.
    unfold detect_end in D. destruct (candidate_end s ms (m_start part) (real_end ms (m_end part))) as [c'|] eqn:C; [|discriminate]. cbn [keep_if] in D. destruct (valid_end s markers ms (m_start part) c') eqn:V; [|discriminate]. injection D as ->.
    unfold candidate_end in C. destruct (truthy_o (first (filter (candidate_match s) (ending (real_end ms (m_end part)) ms)))) as [c'|] eqn:T.
    - injection C as ->. unfold truthy_o in T. destruct (first _) as [c'|] eqn:F; [|discriminate]. destruct (m_truthy c') eqn:Tc; [|discriminate]. injection T as ->. apply first_sub, filter_In in F as [F1 F2]. apply filter_In in F1 as [F1 F3]. apply Nat.eqb_eq in F3. unfold m_truthy in Tc. apply Nat.ltb_lt in Tc.
      apply key_facts in K as (K1 & K2 & _). apply (c_group _ _ _ _ c NG'); [|apply at_match_over in Hr'; [|exact Tc]; unfold overlap in *; rewrite <- K1, <- K2; exact Hr'].
      destruct (I c F1) as [_ Ic]. split; [exact F1|]. split; [exact Tc|].
      assert (Da : 0 < m_start c /\ nth_error s (m_start c - 1) = Some 45%N).
      { unfold valid_end in V. apply andb_true_iff in V as [_ V]. cbn [dotted] in V. destruct (truthy_o (last_o _)) as [p|]; [|discriminate]. destruct (str_eqb _ (lit "-")) eqn:E in V; [|discriminate]. apply str_eqb_eq in E.
        assert (ND : starts_dash (m_raw s c) = false).
        { unfold candidate_match in F2. apply andb_true_iff in F2 as [F2 _]. apply andb_true_iff in F2 as [_ F2]. apply negb_true_iff in F2. unfold starts_dash. destruct (m_raw s c) as [|x l]; [reflexivity|]. unfold cmem in F2. cbn [existsb] in F2. apply orb_false_iff in F2 as [F2 _]. rewrite N.eqb_sym. exact F2. }
        rewrite ND, andb_false_r in E. apply slice_one in E; [exact E|lia]. }
      destruct Da as [Da1 Da2]. split; [exact Da2|]. split; [exact Da1|]. exists part. split; [exact P1|]. split; [exact P2|]. rewrite F3. unfold real_end. destruct (truthy_o (first (filter (has_name (lit "container")) (ending (m_end part) ms)))) as [k|] eqn:Tk; [|left; reflexivity]. right.
      unfold truthy_o in Tk. destruct (first _) as [k'|] eqn:Fk in Tk; [|discriminate]. destruct (m_truthy k'); [|discriminate]. injection Tk as ->. apply first_sub, filter_In in Fk as [G1 G2]. apply filter_In in G1 as [G1 G3]. exists k. apply has_name_eq in G2. apply Nat.eqb_eq in G3. auto.
    - exfalso. destruct (last_o _) as [h|] eqn:L; [|discriminate]. injection C as <-. apply last_sub, filter_In in L as [L1 L2]. apply andb_true_iff in L2 as [L2 _]. apply andb_true_iff in L2 as [_ L2]. apply text_lt in L2.
      pose proof (holes_free _ _ _ _ _ _ (fst h) L1 ltac:(lia)) as E1. pose proof (holes_free _ _ _ _ _ _ (snd h - 1) L1 ltac:(lia)) as E2. unfold at_match, at_span in Hr'. cbn [hole_match m_start m_end] in Hr'. rewrite E1 in Hr'. destruct (snd h) as [|b]; [lia|]. replace (S b - 1) with b in E2 by lia. rewrite E2 in Hr'. exact Hr'.
  Qed.
  Lemma k_scene clean : ok (SceneReleaseGroup clean s markers ms).
  Proof.
    unfold SceneReleaseGroup. set (parts := marker_sorted _ _ _ _). assert (G : forall st : list mt * list mt, In m (fst st) \/ R -> In m (fst (fold_left (scene_step clean s markers) parts st)) \/ R).
    { induction parts as [|p ps IH]; intros st H; [exact H|]. cbn [fold_left]. apply IH. destruct H as [H|H]; [|right; exact H]. unfold scene_step. destruct (scene_part clean s markers (fst st) p) as [[g rem]|] eqn:E; [|left; exact H]. cbn [fst].
      destruct (keep_remove rem m (fst st) H) as [K|(r & Hr & K)]; [left; exact K|right]. unfold scene_part in E. destruct (nonnil _); [discriminate|]. destruct (scene_hole _ _ _ _) as [h|]; [|discriminate]. destruct (_ && _); [|discriminate]. injection E as _ <-. apply filter_range in Hr as [_ Hr].
      unfold extra_title in Hr. apply mmem_iff in Hr as (t & Ht & Kt). assert (Tl : forall (l : list mt) x, In x (tl l) -> In x l) by (intros [|a l] x; [auto|right; auto]). apply Tl, filter_In in Ht as [Ht _]. apply named_In in Ht as [_ Ht].
      eapply (by_name s markers ms m "title" t); [hd|exact Ht|congruence]. }
    destruct (G (ms, [])) as [K|K]; [left; exact Hm|apply k_self, keep_append, K|right; exact K].
  Qed.
  Lemma k_anime : ok (AnimeReleaseGroup s markers ms).
  Proof.
    unfold AnimeReleaseGroup. destruct (nonnil _); [apply same|]. apply k_change; [exact Hm|]. intros r Hr K. rewrite joins_fst, map_map in Hr. apply concat_In in Hr as (p & _ & Hr). unfold anime_part in Hr. destruct (truthy_o _) as [g|]; [|destruct Hr]. cbn [fst] in Hr. apply filter_range in Hr as [H1 H2].
    eapply (by_tag s markers ms m "weak-language"); eauto. hd.
  Qed.
  (** *** other *)
  Lemma k_service ini kids : ok (ValidateStreamingService s ini kids ms).
  Proof.
    apply k_remove; [exact Hm|]. intros r Hr K. apply concat_In in Hr as (v & Hv & Hr). apply named_In in Hv as [Hv' Hv]. destruct (service_alone _ _ _ _ _); [destruct Hr as [<-|[]]; eapply (by_name s markers ms m "streaming_service"); eauto; hd|].
    assert (TX : forall t y, is_text t y = true -> m_value y = MvStr t) by (intros t y E; unfold is_text, mval_eqb in E; destruct (mval_eq_dec (m_value y) (MvStr t)); [assumption|discriminate]).
    destruct (is_text (lit "Comedy Central") v) eqn:C; [|destruct Hr]. apply filter_In in Hr as [Hr C2]. apply named_In in Hr as [_ Hr]. apply key_facts in K as (_ & _ & K3 & K4 & _). apply TX in C. apply TX in C2. apply (c_criterion _ _ _ _ v); congruence.
  Qed.
  Lemma k_service_neighbor ini kids : family ini kids ms -> ok (ValidateStreamingServiceNeighbor s ini kids ms).
  Proof.
    intros F. apply k_remove; [exact Hm|]. intros r Hr K. apply concat_In in Hr as (x & Hx & Hr). apply filter_In in Hx as [Hx _]. apply named_In in Hx as [H1 H2]. destruct (neighbour_alone _ _ _); [|destruct Hr].
    apply (by_family ini kids "other" x r); auto; [hd|]. apply in_app_iff in Hr as [Hr|[<-|[]]]; [right; exact Hr|left; reflexivity].
  Qed.
  Lemma k_another : ok (RenameAnother ms).
  Proof.
    destruct (k_rename s markers ms m Hm (lit "other") (named (lit "another") ms)) as [K|K]; [|apply k_self; exact K|right; exact K]. intros r Hr K. apply named_In in Hr as [_ Hr]. eapply (by_name s markers ms m "another"); eauto. hd.
  Qed.
  Lemma k_until t v : In t weak_tags -> ok (remove_all (until v (range_all s ms (has_tag (lit t)))) ms).
  Proof. intros T. apply (k_tagged t); [exact T|]. intros r Hr. apply until_sub in Hr. apply filter_range in Hr. exact Hr. Qed.
  Lemma k_others l : (forall r, In r l -> has_name (lit "other") r = true) -> ok (remove_all l ms).
  Proof. intros H. apply (k_named "other"); [hd|]. intros r Hr. apply has_name_eq, H, Hr. Qed.
  Lemma k_bit_rate ms' : BitRateType context s ms = Ok ms' -> ok ms'.
  Proof.
    unfold BitRateType. destruct (bit_rate_split context s ms) as [x|] eqn:B; [|discriminate]. cbn [bind]. intros E. injection E as <-.
    assert (N : forall r, In r (fst x) \/ In r (snd x) -> mkey r = mkey m -> R).
    { intros r Hr K. assert (Q : In r (named (lit "audio_bit_rate") ms)); [|apply named_In in Q as [_ Q]; eapply (by_name s markers ms m "audio_bit_rate"); eauto; hd].
      unfold bit_rate_split in B. destruct (is_disabled context (lit "audio_bit_rate")) as [a|]; [|discriminate]. cbn [bind] in B. destruct a; [injection B as <-; destruct Hr as [[]|Hr]; exact Hr|]. destruct (is_disabled context (lit "video_bit_rate")) as [v|]; [|discriminate]. cbn [bind] in B. injection B as <-.
      destruct v; cbn [fst snd] in Hr; destruct Hr as [Hr|Hr]; try destruct Hr; apply filter_In in Hr; apply Hr. }
    destruct (k_rename s markers ms m Hm (lit "video_bit_rate") (fst x)) as [K|K]; [intros r Hr; apply N; auto| |right; exact K]. destruct (keep_remove (snd x) m _ K) as [K2|(r & Hr & E)]; [apply k_self; exact K2|right; eauto].
  Qed.
  Lemma k_proper ms' : ProperCount s ms = Ok ms' -> ok ms'.
  Proof.
    unfold ProperCount. destruct (filter is_proper ms); [intros E; injection E as <-; apply same|]. destruct (raws s _) as [d|]; [|discriminate]. cbn [bind]. intros E. injection E as <-. apply k_self, (keep_append [_]), Hm.
  Qed.
  (** *** processors *)
  (** what is not at the place of the match is not the match *)
  Lemma replace_keep f l x : exact_fact m x -> (forall y, In y l -> m_start y <> m_start m \/ m_end y <> m_end m) -> forall cur, In x cur -> In x (replace_each f l cur).
  Proof.
    intros E. unfold replace_each. induction l as [|y l IH]; intros L cur H; [exact H|]. cbn [fold_left]. apply IH; [intros z Hz; apply L; right; exact Hz|].
    destruct (keep_remove1 y x cur H) as [K|K]; [apply in_or_app; left; exact K|]. exfalso. apply key_facts in K as (K1 & K2 & _). destruct E as (_ & _ & _ & _ & E1 & E2 & _). destruct (L y (or_introl eq_refl)); congruence.
  Qed.
  Lemma k_enlarge : ok (EnlargeGroupMatches markers ms).
  Proof.
    apply k_self. unfold EnlargeGroupMatches. apply replace_keep; [apply exact_refl| |apply replace_keep; [apply exact_refl| |exact Hm]].
    - intros y Hy. right. apply in_map_iff in Hy as (z & <- & Hz). apply in_flat_map in Hz as (g & Hg & Hz). apply named_In in Hg as [G1 G2]. apply filter_In in Hz as [_ Hz]. apply Nat.eqb_eq in Hz. destruct (Un g G1 G2) as [_ U2]. intros E. apply U2. rewrite <- E, <- Hz.
      destruct (mmem z _); destruct z; reflexivity.
    - intros y Hy. left. apply in_flat_map in Hy as (g & Hg & Hy). apply named_In in Hg as [G1 G2]. apply filter_In in Hy as [_ Hy]. apply Nat.eqb_eq in Hy. destruct (Un g G1 G2) as [U1 _]. congruence.
  Qed.
  Lemma scan_keep name hv l : forall hv' f l', eq_scan name hv l = (hv', f, l') -> forall x, In x l -> exact_fact m x -> exists y, In y l' /\ exact_fact m y.
  Proof.
    revert hv. induction l as [|a l IH]; intros hv hv' f l' E x; cbn [eq_scan] in E; [intros []|]. pose proof (eq_one_spec name hv a) as S0. destruct (eq_one name hv a) as [v|].
    - destruct (eq_scan name v l) as [[h' f'] r'] eqn:Q. injection E as <- <- <-. intros [<-|Hx] Sx; [|destruct (IH _ _ _ _ Q x Hx Sx) as (y & Y1 & Y2); exists y; split; [right; exact Y1|exact Y2]].
      exists (set_value a (MvStr v)). split; [left; reflexivity|]. destruct S0 as (t & _ & V & C1 & _ & _ & C2). eapply exact_trans; [exact Sx|]. unfold exact_fact. cbn [set_value m_name m_value m_private m_parent m_start m_end]. split; [reflexivity|]. split; [|auto]. right. exists t, v. unfold same_but_case in *. repeat split; congruence.
    - destruct (eq_scan name hv l) as [[h' f'] r'] eqn:Q. injection E as <- <- <-. intros [<-|Hx] Sx; [exists a; split; [left; reflexivity|exact Sx]|destruct (IH _ _ _ _ Q x Hx Sx) as (y & Y1 & Y2); exists y; split; [right; exact Y1|exact Y2]].
  Qed.
  Lemma k_equivalent names : ok (EquivalentHoles names s markers ms).
  Proof.
    unfold EquivalentHoles. set (has := fun st : eqst => exists x, In x (e_ms st) /\ exact_fact m x).
    assert (H1 : forall name hs st, has st -> has (fold_left (eq_hole name) hs st)).
    { intros name. induction hs as [|h hs IH]; intros st H; [exact H|]. cbn [fold_left]. apply IH. unfold eq_hole. destruct H as (x & X1 & X2). destruct (eq_scan name (snd h) (e_ms st)) as [[v fd] l'] eqn:Q. destruct (scan_keep _ _ _ _ _ _ Q x X1 X2) as (y & Y1 & Y2). destruct fd; exists y; auto. }
    assert (H2 : forall ns st, has st -> has (fold_left eq_name ns st)) by (induction ns as [|n ns IH]; intros st H; [exact H|]; cbn [fold_left]; apply IH; unfold eq_name; apply H1; exact H).
    assert (H3 : forall ps st, has st -> has (fold_left (eq_part names s) ps st)) by (induction ps as [|p ps IH]; intros st H; [exact H|]; cbn [fold_left]; apply IH; unfold eq_part; apply H2; exact H).
    destruct (H3 (marker_sorted s ms comparator_predicate (parts_of markers)) (mk_eq [] ms [])) as (x & X1 & X2); [exists m; split; [exact Hm|apply exact_refl]|]. left. exists x. split; [apply keep_append; exact X1|exact X2].
  Qed.
  Lemma ambiguous_other p parts : forall r, In r (remove_ambiguous s ms p parts) -> exists y, In y ms /\ m_name y = m_name r /\ m_value y <> m_value r.
  Proof.
    unfold remove_ambiguous. assert (G : forall parts prev (st : vals * list mt), (forall nv, In nv (fst st) -> exists y, In y ms /\ m_name y = fst nv /\ m_value y = snd nv) -> (forall n, In n prev -> exists v, In (n, v) (fst st)) ->
      (forall r, In r (snd st) -> exists y, In y ms /\ m_name y = m_name r /\ m_value y <> m_value r) -> forall r, In r (amb_parts s ms p parts prev st) -> exists y, In y ms /\ m_name y = m_name r /\ m_value y <> m_value r).
    2:{ apply (G parts [] ([], [])); [intros nv []|intros n []|intros r []]. }
    clear parts. induction parts as [|k parts IH]; intros prev st V P D; cbn [amb_parts]; [exact D|].
    assert (L : forall l (st : vals * list mt), (forall x, In x l -> In x ms) -> (forall nv, In nv (fst st) -> exists y, In y ms /\ m_name y = fst nv /\ m_value y = snd nv) -> (forall n, In n prev -> exists v, In (n, v) (fst st)) ->
      (forall r, In r (snd st) -> exists y, In y ms /\ m_name y = m_name r /\ m_value y <> m_value r) ->
      let st' := fold_left (amb_match prev) l st in (forall nv, In nv (fst st') -> exists y, In y ms /\ m_name y = fst nv /\ m_value y = snd nv) /\ (forall n, In n prev \/ In n (map m_name l) -> exists v, In (n, v) (fst st')) /\
        (forall r, In r (snd st') -> exists y, In y ms /\ m_name y = m_name r /\ m_value y <> m_value r) /\ (forall nv, In nv (fst st) -> In nv (fst st'))).
    { clear IH V P D st. induction l as [|x l IH]; intros [values rm] S0 V P D; [cbn [map]; repeat split; auto; intros n [H|[]]; auto|]. cbn [fold_left]. cbn [fst snd] in *.
      assert (M : forall n v, vmem n v values = true <-> In (n, v) values).
      { intros n v. unfold vmem. rewrite existsb_exists. split; [intros ([n' v'] & H & E); cbn in E; apply andb_true_iff in E as [E1 E2]; apply str_eqb_eq in E1; unfold mval_eqb in E2; destruct (mval_eq_dec v' v); [subst; exact H|discriminate]|].
        intros H. exists (n, v). split; [exact H|]. cbn. rewrite str_eqb_refl. unfold mval_eqb. destruct (mval_eq_dec v v); [reflexivity|contradiction]. }
      pose proof (S0 x (or_introl eq_refl)) as Hx.
      assert (N : exists st' : vals * list mt, amb_match prev (values, rm) x = st' /\ (forall nv, In nv (fst st') -> exists y, In y ms /\ m_name y = fst nv /\ m_value y = snd nv) /\ (exists v, In (m_name x, v) (fst st')) /\ (forall nv, In nv values -> In nv (fst st')) /\
        (forall r, In r (snd st') -> exists y, In y ms /\ m_name y = m_name r /\ m_value y <> m_value r)).
      { eexists. split; [reflexivity|]. cbn [amb_match]. destruct (smem (m_name x) prev) eqn:Pn.
        - apply smem_In in Pn. destruct (P _ Pn) as (v & Hv). destruct (vmem (m_name x) (m_value x) values) eqn:E; cbn [fst snd]; [split; [exact V|]; split; [exists v; exact Hv|]; auto|]. split; [exact V|]. split; [exists v; exact Hv|]. split; [auto|].
          intros r Hr. apply in_app_iff in Hr as [Hr|[<-|[]]]; [auto|]. destruct (V _ Hv) as (y & Y1 & Y2 & Y3). cbn [fst snd] in *. exists y. split; [exact Y1|]. split; [exact Y2|]. intros Q. rewrite <- Bool.not_true_iff_false, M in E. apply E. rewrite <- Q, Y3. exact Hv.
        - destruct (vmem (m_name x) (m_value x) values) eqn:E; cbn [fst snd]; [apply M in E; split; [exact V|]; split; [exists (m_value x); exact E|]; auto|]. split; [|split; [exists (m_value x); apply in_or_app; right; left; reflexivity|split; [intros nv H; apply in_or_app; left; exact H|exact D]]].
          intros nv H. apply in_app_iff in H as [H|[<-|[]]]; [auto|]. exists x. auto. }
      destruct N as (st' & -> & N1 & N2 & N3 & N4). destruct (IH st') as (I1 & I2 & I3 & I4); [intros z Hz; apply S0; right; exact Hz|exact N1| |exact N4|].
      - intros n Hn. destruct (P n Hn) as (v & Hv). exists v. auto.
      - split; [exact I1|]. split; [|split; [exact I3|auto]]. cbn [map In]. intros n [H|[<-|H]]; [apply I2; auto| |apply I2; auto]. destruct N2 as (v & Hv). exists v. auto. }
    destruct (L (range s ms (m_start k) (m_end k) p) st) as (L1 & L2 & L3 & _); auto; [intros x Hx; apply filter_range in Hx; tauto|]. apply IH; auto. intros n Hn. apply in_app_iff in Hn. auto.
  Qed.
  Lemma k_ambiguous p parts : List.length parts = List.length (parts_of markers) -> ok (remove_all (remove_ambiguous s ms p parts) ms).
  Proof.
    intros L. apply k_remove; [exact Hm|]. intros r Hr K. assert (G : several_parts markers).
    { unfold several_parts. change (1 < List.length (parts_of markers)). rewrite <- L. clear - Hr. destruct parts as [|a [|b parts]]; [destruct Hr| |cbn; lia]. exfalso. unfold remove_ambiguous in Hr. cbn [amb_parts] in Hr. revert Hr.
      assert (N : forall l st, snd st = [] -> snd (fold_left (amb_match []) l st) = []).
      { induction l as [|x l IH]; intros [v rm] E; [exact E|]. cbn [fold_left amb_match]. cbn [snd] in E. subst rm. apply IH. change (smem (m_name x) []) with false. cbv iota. destruct (vmem _ _ _); reflexivity. }
      rewrite N; [intros []|reflexivity]. }
    destruct (ambiguous_other p parts r Hr) as (y & Y1 & Y2 & Y3). apply key_facts in K as (_ & _ & K1 & K2 & _). apply (c_other _ _ _ _ y); [exact G|exact Y1|congruence|congruence].
  Qed.
  Lemma sorted_length p l : List.length (marker_sorted s ms p l) = List.length l.
  Proof. unfold marker_sorted. apply Permutation.Permutation_length, isort_perm. Qed.
  Lemma k_strip ms' : StripSeparators s ms = Ok ms' -> ok ms'.
  Proof.
    intros E. destruct (mapM_map _ _ _ E m Hm) as (y & Hy & Ey). cbv beta in Ey. destruct (strip_raw _ _) as [ab|]; [|discriminate]. cbn [bind] in Ey. injection Ey as <-. left. eexists. split; [exact Hy|]. unfold exact_fact. cbn. repeat split; auto using alike_refl.
  Qed.
End Rules.

(** One rule: whatever it removes has a reason to be removed *)
Lemma step_keeps context s markers ms ms' m : untouched markers m -> inside s ms -> In m ms -> step context s markers ms ms' -> ok s markers ms m ms'.
Proof.
  intros Un I Hm H.
  assert (OT : forall t x, other_tagged t x = true -> has_name (lit "other") x = true) by (intros t x E; unfold other_tagged in E; apply andb_true_iff in E; apply E).
  destruct H.
  - eapply k_weak_conflict; eauto.
  - eapply k_invalid_season; eauto.
  - eapply k_invalid_episode; eauto.
  - apply k_see; exact Hm.
  - apply k_range; [exact Hm|hd|hd|reflexivity].
  - apply k_range; [exact Hm|hd|hd|reflexivity].
  - eapply k_movie; eauto.
  - apply k_weak_sxxexx; exact Hm.
  - apply k_weak_duplicate; exact Hm.
  - apply k_filter; [exact Hm|hd].
  - apply k_detached; auto.
  - apply k_filter; [exact Hm|hd].
  - apply k_weak; exact Hm.
  - eapply k_absolute; eauto.
  - apply k_count; exact Hm.
  - apply k_filter; [exact Hm|hd].
  - eapply k_disc; eauto.
  - eapply k_source; eauto.
  - eapply k_weak_source; eauto.
  - apply k_ultra; exact Hm.
  - eapply k_unless; [exact Hm| |eassumption]; cbv beta; apply k_codec; exact Hm.
  - eapply k_unless; [exact Hm| |eassumption]; cbv beta; apply k_filter; [exact Hm|hd].
  - eapply k_unless; [exact Hm| |eassumption]; cbv beta; apply k_profile; exact Hm.
  - apply k_audio; exact Hm.
  - eapply k_unless; [exact Hm| |eassumption]; cbv beta; apply k_filter; [exact Hm|hd].
  - eapply k_unless; [exact Hm| |eassumption]; cbv beta; apply k_channels; exact Hm.
  - eapply k_screen; eauto.
  - apply k_one_size; exact Hm.
  - apply k_size_conflict; exact Hm.
  - apply k_website; exact Hm.
  - apply k_website_prefix; exact Hm.
  - apply k_year; exact Hm.
  - eapply k_title_base; eauto.
  - apply k_title_year; exact Hm.
  - apply k_conflicts; exact Hm.
  - eapply k_episode_title; eauto.
  - eapply k_alternative; eauto.
  - eapply k_to_episode_title; eauto.
  - apply k_filepart3; exact Hm.
  - apply k_filepart2; exact Hm.
  - eapply k_rename_title; eauto.
  - apply k_sub_extension; exact Hm.
  - eapply k_sub_prefix; eauto.
  - eapply k_sub_suffix; eauto.
  - unfold RemoveLanguage. destruct off; [apply k_named with (n := "language"%string); [exact Hm|hd|intros r Hr; apply named_In in Hr; apply Hr]|apply same; exact Hm].
  - apply k_language_list; [exact Hm|]. intros r Hr. apply filter_In in Hr as [Hr _]. apply filter_range in Hr. apply Hr.
  - apply k_language_list; [exact Hm|]. intros r Hr. apply filter_In in Hr as [Hr _]. apply filter_range in Hr. apply Hr.
  - apply k_dash; auto.
  - apply k_scene; exact Hm.
  - apply k_anime; exact Hm.
  - eapply k_service; eauto.
  - apply k_another; exact Hm.
  - apply k_until; [exact Hm|hd].
  - apply k_until; [exact Hm|hd].
  - apply k_until; [exact Hm|hd].
  - apply k_others; [exact Hm|]. intros r Hr. apply filter_In in Hr as [_ Hr]. apply andb_true_iff in Hr as [Hr _]. eauto.
  - apply k_others; [exact Hm|]. intros r Hr. apply filter_In in Hr as [_ Hr]. apply andb_true_iff in Hr as [Hr _]. eauto.
  - apply k_others; [exact Hm|]. intros r Hr. apply filter_In in Hr as [_ Hr]. apply andb_true_iff in Hr as [Hr _]. unfold is_hc in Hr. apply andb_true_iff in Hr. apply Hr.
  - eapply k_service_neighbor; eauto.
  - apply k_others; [exact Hm|]. intros r Hr. apply in_flat_map in Hr as (k & _ & Hr). apply filter_In in Hr as [Hr _]. apply filter_range in Hr as [_ Hr]. eauto.
  - apply k_others; [exact Hm|]. intros r Hr. apply in_flat_map in Hr as (k & _ & Hr). apply filter_In in Hr as [Hr _]. apply filter_range in Hr as [_ Hr]. eauto.
  - eapply k_proper; eauto.
  - eapply k_bit_rate; eauto.
  - eapply k_number; eauto.
  - eapply k_number; eauto.
  - apply k_enlarge; assumption.
  - apply k_equivalent; exact Hm.
  - apply k_ambiguous; [exact Hm|]. unfold specific_order. rewrite sorted_length, rev_length. reflexivity.
  - apply k_ambiguous; [exact Hm|]. rewrite sorted_length. reflexivity.
  - apply k_self, keep_append, Hm.
  - apply k_self, keep_append, Hm.
  - eapply k_strip; eauto.
  - unfold Mimetype. destruct mime as [t|]; [destruct (nonnil t); [apply k_self, in_or_app; left; exact Hm|]|]; apply same; exact Hm.
  - unfold TypeProcessor in *. destruct (is_disabled _ _) as [d|]; [|discriminate]. cbn [bind] in *. destruct d; match goal with H : Ok _ = Ok _ |- _ => injection H as <- end; [apply same; exact Hm|apply k_self, in_or_app; left; exact Hm].
Qed.

(** ** Properties *)
(** C115. One rule: what a match tells is still there, at the same place, unless there is a cause to lose it *)
Theorem C115_step context s markers ms ms' m : untouched markers m -> inside s ms -> step context s markers ms ms' -> In m ms -> ~ cause s markers ms m -> exists x, In x ms' /\ exact_fact m x.
Proof. intros U I S Hm N. destruct (step_keeps _ _ _ _ _ _ U I Hm S) as [K|K]; [exact K|contradiction]. Qed.
Print Assumptions C115_step.
Lemma exact_free s m x : exact_fact m x -> free_standing s x -> free_standing s m.
Proof. intros (_ & _ & _ & _ & E1 & E2 & _) (A & B). unfold free_standing, clear_before, clear_after in *. rewrite E1, E2 in *. auto. Qed.
Lemma exact_untouched markers m x : exact_fact m x -> untouched markers m -> untouched markers x.
Proof. intros (_ & _ & _ & _ & E1 & E2 & _) U g G1 G2. rewrite E1, E2. auto. Qed.
(** All the rules, in any order and any number *)
Theorem C115_run context s markers ms ms' m : markers_ok s markers -> (forall x, In x ms -> placed s x) -> runs_rules context s markers ms ms' -> In m ms -> untouched markers m ->
  (exists x, In x ms' /\ exact_fact m x) \/
  exists ms1 x, runs_rules context s markers ms ms1 /\ runs_rules context s markers ms1 ms' /\ In x ms1 /\ exact_fact m x /\ cause s markers ms1 x.
Proof.
  intros M P R Hm U. induction R as [|ms1 ms2 R IH S]; [left; exists m; split; [exact Hm|apply exact_refl]|].
  assert (One : runs_rules context s markers ms1 ms2) by (eapply runs_one; [apply runs_none|exact S]).
  destruct IH as [(x & X1 & X2)|(a & x & A1 & A2 & A3)].
  - destruct (step_keeps context s markers ms1 ms2 x) as [(y & Y1 & Y2)|K]; [eapply exact_untouched; eauto| |exact X1|exact S| |].
    + intros z Hz. destruct (C82_placed _ _ _ _ _ M P R z Hz) as (Z1 & Z2 & _). lia.
    + left. exists y. split; [exact Y1|eapply exact_trans; eauto].
    + right. exists ms1, x. split; [exact R|]. auto.
  - right. exists a, x. split; [exact A1|]. split; [eapply runs_trans; eauto|exact A3].
Qed.
Print Assumptions C115_run.

(** ** Examples *)
(** a codec between two dots has no cause to go when a title is found; glued to a letter it has one, and it goes *)
Example C115_ex : let s := lit "Film.x264.mkv" in
  let codec := simple 5 9 (lit "video_codec") (MvStr (lit "H.264")) [] in
  let ms := [codec; simple 9 13 (lit "container") (MvStr (lit "mkv")) [lit "extension"]] in
  let markers := [simple 0 13 (lit "path") (MvStr []) []] in
  untouched markers codec /\ inside s ms /\ In codec ms /\ ~ cause s markers ms codec /\ exists ms', step [] s markers ms ms' /\ ms' <> ms.
Proof.
  cbv zeta. split; [intros g [<-|[]] E; discriminate E|]. split; [intros m [<-|[<-|[]]]; vm_compute; lia|]. split; [left; reflexivity|]. split.
  - intros [H|H|x p H1 H2 H3|r t H1 H2 H3 H4|y H1 H2 H3|y Hs H1 H2 H3|y H1 H2 H3 H4|c H1 H2 H3|H1 H2|r y H1 H2 H3 H4 H5 H6|y H1 H2 H3 H4|y H1 H2 H3 H4 H5].
    + destruct H as (t & T & E). cbn [In judged] in T. repeat (destruct T as [<-|T]; [discriminate E|]). destruct T.
    + apply H. reflexivity.
    + cbn [In] in H1. destruct H1 as [<-|[<-|[]]]; discriminate H2.
    + cbn [In] in H1. destruct H1 as [<-|[<-|[]]]; [destruct H4|discriminate H2].
    + destruct H2 as (t & T & E). cbn [In] in H1, T. repeat (destruct H1 as [<-|H1]; [repeat (destruct T as [<-|T]; [discriminate E|]); destruct T|]). destruct H1.
    + cbn [In] in H1. destruct H1 as [<-|[<-|[]]]; [apply H3; reflexivity|discriminate H2].
    + cbn [In] in H1. destruct H1 as [<-|[<-|[]]]; [apply H4; reflexivity|discriminate H2].
    + destruct H2 as (_ & _ & H2 & _). apply nth_error_In in H2. vm_compute in H2. repeat (destruct H2 as [H2|H2]; [discriminate|]). destruct H2.
    + apply H2. split; [apply before_iff|apply after_iff]; reflexivity.
    + discriminate H1.
    + discriminate H1.
    + discriminate H1.
  - eexists. split; [apply st_title; [reflexivity|reflexivity|vm_compute; reflexivity]|]. intros E. vm_compute in E. discriminate.
Qed.
Theorem C115_limit : let s := lit "Filmx264.mkv" in
  let codec := simple 4 8 (lit "video_codec") (MvStr (lit "H.264")) [] in
  let ms := [codec; simple 8 12 (lit "container") (MvStr (lit "mkv")) [lit "extension"]] in
  let markers := [simple 0 12 (lit "path") (MvStr []) []] in
  untouched markers codec /\ exists ms', step [] s markers ms ms' /\ forall x, In x ms' -> m_name x <> lit "video_codec".
Proof.
  cbv zeta. split; [intros g [<-|[]] E; discriminate E|]. eexists. split; [apply st_video_codec; vm_compute; reflexivity|]. intros x Hx. vm_compute in Hx. destruct Hx as [<-|[]]. discriminate.
Qed.
Print Assumptions C115_limit.
