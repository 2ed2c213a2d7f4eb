(** All the rules together: what one rule may do to the matches, whatever the order of the rules.
    rebulk runs the rules by priority, after their dependencies; the theorems on [runs_rules] hold for every order and every choice.
    A rule takes place if the builder it belongs to and the rule itself are not disabled ([on]). The arguments that come from the
    configuration, and the initiators, children and ancestors of matches, are arguments of the steps. *)
From Verif Require Import Py Text Sort Formatters Common Rebulk Processors Language Other ScreenSize SmallRules Title EpisodeTitle Episodes EpisodeRules Technical ReleaseGroup WebsiteProps Equivalent.
From Coq Require Import QArith.
Local Open Scope nat_scope.

(** mimetype.py:30-48 [Mimetype]; [mime] is the answer of [mimetypes.guess_type] *)
Definition Mimetype (mime : option str) (s : str) (ms : list mt) : list mt :=
  match mime with
  | Some t => if nonnil t then ms ++ [simple (List.length s) (List.length s) (lit "mimetype") (MvStr t) []] else ms
  | None => ms
  end.

Section Step.
  Context (context : dict) (s : str) (markers : list mt).
  Definition on (name : str) : Prop := is_disabled context name = Ok false.
  (** an object is found by its span, name, value and parent: the children are the matches of the list they are equal to *)
  Definition same_objects (kids : mt -> list mt) (ms : list mt) : Prop := forall i k m, In k (kids i) -> In m ms -> mt_eqb k m = true -> k = m.
  (** a match of length zero comes from no pattern, and so is its own initiator *)
  Definition own_initiator (ini : mt -> mt) (ms : list mt) : Prop := forall m, In m ms -> m_start m = m_end m -> ini m = m.
  (** the children of a match are inside it *)
  Definition in_initiator (ini : mt -> mt) (ms : list mt) : Prop := forall m, In m ms -> m_start (ini m) <= m_start m /\ m_end m <= m_end (ini m).
  (** a formatter of release groups only takes characters away and adds separators *)
  Definition takes_away (clean : str -> str) : Prop := forall t c, In c (clean t) -> is_sep c = false -> In c t.
  (** the initiator of a match is its parent, or itself if it has none, and the children of a match have it as parent. Simplification: no rule
      renames a match that has children *)
  Definition family (ini : mt -> mt) (kids : mt -> list mt) (ms : list mt) : Prop :=
    (forall m, In m ms -> match m_parent m with Some p => m_name (ini m) = p_name p | None => ini m = m end) /\
    forall i k, In k (kids i) -> match m_parent k with Some p => m_name i = p_name p | None => False end.
  (** the ancestors of a match are itself and its parent *)
  Definition lineage (ancestors : mt -> list mt) (ms : list mt) : Prop :=
    forall m a, In m ms -> In a (ancestors m) -> a = m \/ match m_parent m with Some p => m_name a = p_name p | None => False end.
  Definition no_kids (m : mt) : list mt := [].
  (** no match has an empty text as value *)
  Definition no_empty_text (ms : list mt) : Prop := forall m, In m ms -> m_value m <> MvStr [].

  Inductive step (ms : list mt) : list mt -> Prop :=
  (* episodes.py:355-360 *)
  | st_weak_conflict ini kids : family ini kids ms -> step ms (WeakConflictSolver context s ini kids markers ms)
  | st_invalid_season ini kids : family ini kids ms -> step ms (RemoveInvalidSeason s ini kids markers ms)
  | st_invalid_episode ini kids : family ini kids ms -> step ms (RemoveInvalidEpisode s ini kids markers ms)
  | st_see_pattern seps : step ms (SeePatternRange seps ms)
  | st_episode_range ini seps : family ini no_kids ms -> in_initiator ini ms -> ~ In [] seps -> step ms (EpisodeNumberSeparatorRange s ini seps ms)
  | st_season_range ini seps : family ini no_kids ms -> in_initiator ini ms -> ~ In [] seps -> step ms (SeasonSeparatorRange s ini seps ms)
  | st_weak_movie ini kids : family ini kids ms -> step ms (RemoveWeakIfMovie context s ini kids markers ms)
  | st_weak_sxxexx ini : family ini no_kids ms -> step ms (RemoveWeakIfSxxExx s ini markers ms)
  | st_weak_duplicate pat : step ms (RemoveWeakDuplicate s pat markers ms)
  | st_detail : step ms (EpisodeDetailValidator s ms)
  | st_detached ancestors : lineage ancestors ms -> step ms (RemoveDetachedEpisodeNumber ancestors ms)
  | st_version ini : family ini no_kids ms -> step ms (VersionValidator s ini ms)
  | st_weak words : step ms (RemoveWeak s words markers ms)
  | st_absolute ini kids : family ini kids ms -> own_initiator ini ms -> step ms (RenameToAbsoluteEpisode s ini kids markers ms)
  | st_count : step ms (CountValidator ms)
  | st_single_digit ini : family ini no_kids ms -> step ms (EpisodeSingleDigitValidator s ini markers ms)
  | st_disc ini kids ms' : family ini kids ms -> same_objects kids ms -> RenameToDiscMatch context ini kids ms = Ok ms' -> step ms ms'
  (* source.py:120 *)
  | st_source ini kids : family ini kids ms -> on (lit "source") -> step ms (ValidateSource s ini kids markers ms)
  | st_weak_source kids : family (fun m => m) kids [] -> on (lit "source") -> step ms (ValidateWeakSource s kids markers ms)
  | st_ultra : on (lit "source") -> step ms (UltraHdBluray s markers ms)
  (* video_codec.py:77, audio_codec.py:64: the builders are always enabled, the rules look at the context *)
  | st_video_codec ms' : ValidateVideoCodec context s ms = Ok ms' -> step ms ms'
  | st_video_profile ms' : VideoProfile context ms = Ok ms' -> step ms ms'
  | st_audio_profile codec ms' : AudioProfile codec context ms = Ok ms' -> step ms ms'
  | st_audio : step ms (AudioValidator s ms)
  | st_hq ms' : HqConflict context ms = Ok ms' -> step ms ms'
  | st_channels ms' : AudioChannelsValidator context s ms = Ok ms' -> step ms ms'
  (* screen_size.py:56 *)
  | st_screen_size standard lo hi ms' : PostProcess context s standard lo hi ms = Ok ms' -> step ms ms'
  | st_one_size : step ms (OnlyOne s markers ms)
  | st_size_conflict : step ms (ResolveConflicts s markers ms)
  (* website.py:93 *)
  | st_website safe : on (lit "website") -> step ms (PreferTitleOverWebsite safe markers ms)
  | st_website_prefix : on (lit "website") -> step ms (ValidateWebsitePrefix s ms)
  (* date.py:62, 74-75 *)
  | st_year : on (lit "year") -> step ms (KeepMarkedYear s markers ms)
  (* title.py:34-35, 351-352 *)
  | st_title ms' : on (lit "title") -> on (lit "alternative_title") -> TitleFromPosition s context markers ms = Ok ms' -> step ms ms'
  | st_title_year : on (lit "title") -> step ms (PreferTitleWithYear s markers ms)
  (* episode_title.py:30-37 *)
  | st_conflicts : on (lit "episode_title") -> step ms (RemoveConflictsWithEpisodeTitle s markers ms)
  | st_episode_title ms' : on (lit "episode_title") -> EpisodeTitleFromPosition s context markers ms = Ok ms' -> step ms ms'
  | st_alternative ms' : on (lit "episode_title") -> AlternativeTitleReplace s ms = Ok ms' -> step ms ms'
  | st_to_episode_title ms' : on (lit "episode_title") -> TitleToEpisodeTitle ms = Ok ms' -> step ms ms'
  | st_filepart3 : on (lit "episode_title") -> step ms (Filepart3EpisodeTitle s markers ms)
  | st_filepart2 : on (lit "episode_title") -> step ms (Filepart2EpisodeTitle s markers ms)
  | st_rename_title ms' : on (lit "episode_title") -> RenameEpisodeTitle ms = Ok ms' -> step ms ms'
  (* language.py:63-68 and the [enabled] of the rules *)
  | st_sub_extension : on (lit "subtitle_language") -> step ms (SubtitleExtension ms)
  | st_sub_prefix ms' : on (lit "subtitle_language") -> SubtitlePrefix s markers ms = Ok ms' -> step ms ms'
  | st_sub_suffix ms' : on (lit "subtitle_language") -> SubtitleSuffix ms = Ok ms' -> step ms ms'
  | st_language off : step ms (RemoveLanguage off ms)
  | st_invalid_language common : step ms (RemoveInvalid common s markers ms)
  | st_undetermined : step ms (RemoveUndetermined s ms)
  (* release_group.py:59-72 *)
  | st_dash clean : on (lit "release_group") -> takes_away clean -> step ms (DashSeparatedReleaseGroup clean s markers ms)
  | st_scene clean : on (lit "release_group") -> takes_away clean -> step ms (SceneReleaseGroup clean s markers ms)
  | st_anime : on (lit "release_group") -> step ms (AnimeReleaseGroup s markers ms)
  (* streaming_service.py:31, other.py:35-37 *)
  | st_service ini kids : family ini kids ms -> on (lit "streaming_service") -> step ms (ValidateStreamingService s ini kids ms)
  | st_another : on (lit "other") -> step ms (RenameAnother ms)
  | st_neighbor : on (lit "other") -> step ms (HasNeighbor s markers ms)
  | st_neighbor_after : on (lit "other") -> step ms (HasNeighborAfter s markers ms)
  | st_neighbor_before : on (lit "other") -> step ms (HasNeighborBefore s markers ms)
  | st_screener : on (lit "other") -> step ms (Screener s ms)
  | st_mux : on (lit "other") -> step ms (Mux ms)
  | st_hardcoded : on (lit "other") -> step ms (HardcodedSubs s ms)
  | st_service_neighbor ini kids : family ini kids ms -> on (lit "other") -> step ms (ValidateStreamingServiceNeighbor s ini kids ms)
  | st_at_end : on (lit "other") -> step ms (AtEnd s markers ms)
  | st_real : on (lit "other") -> step ms (Real s markers ms)
  | st_proper ms' : on (lit "other") -> ProperCount s ms = Ok ms' -> step ms ms'
  (* bit_rate.py:32, bonus.py:24-29, film.py:22-28, 41-42 *)
  | st_bit_rate ms' : BitRateType context s ms = Ok ms' -> step ms ms'
  | st_bonus ms' : on (lit "bonus") -> BonusTitle s markers ms = Ok ms' -> step ms ms'
  | st_film ms' : on (lit "film") -> on (lit "film_title") -> FilmTitle s markers ms = Ok ms' -> step ms ms'
  (* processors.py:254-257 *)
  | st_enlarge : step ms (EnlargeGroupMatches markers ms)
  | st_equivalent names : no_empty_text ms -> step ms (EquivalentHoles names s markers ms)
  | st_less_specific name : step ms (RemoveLessSpecific name s markers ms)
  | st_ambiguous : step ms (RemoveAmbiguous s markers ms)
  | st_season_year : step ms (SeasonYear context ms)
  | st_year_season : step ms (YearSeason context ms)
  | st_strip ms' : StripSeparators s ms = Ok ms' -> step ms ms'
  (* mimetype.py:24-25, type.py:32-33 *)
  | st_mimetype mime : on (lit "mimetype") -> step ms (Mimetype mime s ms)
  | st_type ms' : TypeProcessor context s ms = Ok ms' -> step ms ms'.
  (** any number of rules in any order *)
  Inductive runs_rules (ms : list mt) : list mt -> Prop :=
  | runs_none : runs_rules ms ms
  | runs_one ms1 ms2 : runs_rules ms ms1 -> step ms1 ms2 -> runs_rules ms ms2.
End Step.
