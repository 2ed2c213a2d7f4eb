(** The order in which the rules run: which rules are loaded, in which order, with
    which priorities and dependencies ([rules/__init__.py] and every builder), and how
    rebulk schedules them ([Rules.execute_all_rules], [toposort_rules], [toposort] of
    rebulk 3.2.0, which is not in /repo and is transcribed from memory). *)
From Coq Require Import List Bool ZArith Lia Permutation.
From Verif Require Import Py Sort.
Import ListNotations.

(** A rule as the scheduler sees it: its class, its priority and the classes it
    declares in [dependency] (one class or a list of classes). *)
Record rule := mkrule { r_class : str; r_prio : Z; r_deps : list str }.

(** rebulk [Rules]: a rule is known by its place in the list of loaded rules. *)
Definition prio (rules : list rule) (i : nat) : Z :=
  match nth_error rules i with Some r => r_prio r | None => 0%Z end.
Definition class (rules : list rule) (i : nat) : str :=
  match nth_error rules i with Some r => r_class r | None => [] end.
Definition wants (rules : list rule) (i : nat) : list str :=
  match nth_error rules i with Some r => r_deps r | None => [] end.

(** [sorted(self)] with [CustomRule.__lt__]: higher priority first, otherwise load order. *)
Definition by_priority (rules : list rule) : list nat :=
  isort (fun i j => Z.leb (prio rules j) (prio rules i)) (seq 0 (List.length rules)).

(** [itertools.groupby(..., lambda rule: rule.priority)]: runs of equal priority. *)
Fixpoint runs (key : nat -> Z) (l : list nat) : list (list nat) :=
  match l with
  | [] => []
  | i :: r =>
      match runs key r with
      | (j :: g) :: gs => if Z.eqb (key i) (key j) then (i :: j :: g) :: gs else [i] :: (j :: g) :: gs
      | gs => [i] :: gs
      end
  end.

(** [class_dict.get(dependency)] of [toposort_rules]: the last rule of that class among
    those of the group. *)
Definition of_class (rules : list rule) (group : list nat) (c : str) : option nat :=
  find (fun i => str_eqb (class rules i) c) (rev group).

Fixpoint filter_map {A B} (f : A -> option B) (l : list A) : list B :=
  match l with [] => [] | a :: r => match f a with Some b => b :: filter_map f r | None => filter_map f r end end.
Definition nmem (i : nat) (l : list nat) : bool := existsb (Nat.eqb i) l.

(** [toposort_rules]: the graph; a dependency that is not in the group is left out.
    [toposort] then discards the dependency of a rule on itself; its
    [extra_items_in_deps] are always empty here, since dependencies come from the group. *)
Definition graph (rules : list rule) (group : list nat) : list (nat * list nat) :=
  map (fun i => (i, filter (fun j => negb (Nat.eqb i j)) (filter_map (of_class rules group) (wants rules i)))) group.

(** [toposort]: the levels, each the set of the items with no dependency left. *)
Fixpoint levels (fuel : nat) (data : list (nat * list nat)) : res (list (list nat)) :=
  match fuel with
  | 0 => Err Diverges
  | S k =>
      let ordered := map fst (filter (fun d => match snd d with [] => true | _ => false end) data) in
      match ordered with
      | [] => match data with [] => Ok [] | _ => Err (OtherError 7) (* CyclicDependency *) end
      | _ =>
          rest <- levels k (map (fun d => (fst d, filter (fun j => negb (nmem j ordered)) (snd d)))
                                (filter (fun d => negb (nmem (fst d) ordered)) data));
          Ok (ordered :: rest)
      end
  end.

(** [execute_all_rules]: the groups by priority, in each the levels, in each the load
    order ([sorted(rules_group, key=self.index)]). A level is a Python set: [shuffle] is
    the order in which the set happens to be iterated. A cycle is found when the group
    is reached: the whole run fails. *)
Definition schedule_group (shuffle : list nat -> list nat) (rules : list rule) (group : list nat) : res (list nat) :=
  lv <- levels (S (List.length group)) (graph rules group);
  Ok (List.concat (map (fun l => isort Nat.leb (shuffle l)) lv)).
Definition schedule (shuffle : list nat -> list nat) (rules : list rule) : res (list nat) :=
  gs <- mapM (schedule_group shuffle rules) (runs (prio rules) (by_priority rules));
  Ok (List.concat gs).

(** [Rebulk.effective_rules]: [extend_safe] adds the rules of each enabled builder,
    leaving out those already there; rules are equal when they have the same class. *)
Definition extend_safe (target source : list rule) : list rule :=
  fold_left (fun t r => if existsb (fun x => str_eqb (r_class x) (r_class r)) t then t else t ++ [r]) source target.

Definition PRE_PROCESS : Z := 2048.
Definition POST_PROCESS : Z := -2048.
Definition R (c : str) (p : Z) (deps : list str) : rule := mkrule c p deps.

(** The two default rules of every [Rebulk()]. *)
Definition default_rules : list rule :=
  [R (lit "ConflictSolver") PRE_PROCESS []; R (lit "PrivateRemover") POST_PROCESS []].

(** rules/__init__.py:54-89 with the [rebulk.rules(...)] call and the [priority] and
    [dependency] attributes of every builder; builders without rules are left out
    (path, groups, container, country, size, edition, cd, part, crc).
    episodes.py:355-360 *)
Definition episodes_rules : list rule :=
  [R (lit "WeakConflictSolver") 128 []; (* episodes.py:365-376 *)
   R (lit "RemoveInvalidSeason") 64 []; (* 736-741 *)
   R (lit "RemoveInvalidEpisode") 64 []; (* 764-769 *)
   R (lit "SeePatternRange") 128 []; (* 473-478 *)
   R (lit "EpisodeNumberSeparatorRange") 128 []; (* 617-621 *)
   R (lit "SeasonSeparatorRange") 128 []; (* 630-634 *)
   R (lit "RemoveWeakIfMovie") 64 []; (* 640-645 *)
   R (lit "RemoveWeakIfSxxExx") 64 []; (* 716-723 *)
   R (lit "RemoveWeakDuplicate") 64 []; (* 801-806 *)
   R (lit "EpisodeDetailValidator") 64 []; (* 821-826 *)
   R (lit "RemoveDetachedEpisodeNumber") 64 [lit "RemoveWeakIfSxxExx"; lit "RemoveWeakDuplicate"]; (* 838-846 *)
   R (lit "VersionValidator") 64 [lit "RemoveWeakIfMovie"; lit "RemoveWeakIfSxxExx"]; (* 869-875 *)
   R (lit "RemoveWeak") 16 []; (* 674-679 *)
   R (lit "RenameToAbsoluteEpisode") 0 []; (* 573-585 *)
   R (lit "CountValidator") 64 []; (* 445-450 *)
   R (lit "EpisodeSingleDigitValidator") 0 [lit "TitleFromPosition"]; (* 886-892 *)
   R (lit "RenameToDiscMatch") 0 [] (* 904-909 *)].
(** source.py:120, 125-130, 177-182, 207-213 *)
Definition source_rules : list rule :=
  [R (lit "ValidateSourcePrefixSuffix") 64 [];
   R (lit "ValidateWeakSource") 64 [lit "ValidateSourcePrefixSuffix"];
   R (lit "UltraHdBlurayRule") 0 [lit "HqConflictRule"]].
(** video_codec.py:77, 82-87, 106-110 *)
Definition video_codec_rules : list rule :=
  [R (lit "ValidateVideoCodec") 64 []; R (lit "VideoProfileRule") 0 []].
(** audio_codec.py:64-65, 70-75, 98-195 *)
Definition audio_codec_rules : list rule :=
  [R (lit "DtsHDRule") 64 [lit "AudioValidatorRule"];
   R (lit "DtsRule") 64 [lit "AudioValidatorRule"];
   R (lit "AacRule") 64 [lit "AudioValidatorRule"];
   R (lit "DolbyDigitalRule") 64 [lit "AudioValidatorRule"];
   R (lit "AudioValidatorRule") 64 [];
   R (lit "HqConflictRule") 0 [lit "DtsHDRule"; lit "DtsRule"; lit "AacRule"; lit "DolbyDigitalRule"];
   R (lit "AudioChannelsValidatorRule") 128 []].
(** screen_size.py:56, 61-70, 113-134 *)
Definition screen_size_rules : list rule :=
  [R (lit "PostProcessScreenSize") 0 []; R (lit "ScreenSizeOnlyOne") 0 []; R (lit "ResolveScreenSizeConflicts") 0 []].
(** website.py:64-68, 93, 98-103 *)
Definition website_rules : list rule :=
  [R (lit "PreferTitleOverWebsite") 0 []; R (lit "ValidateWebsitePrefix") 64 []].
(** date.py:62, 67-72 *)
Definition date_rules : list rule := [R (lit "KeepMarkedYearInFilepart") 64 []].
(** title.py:35, 340-344, 355-360 *)
Definition title_rules : list rule :=
  [R (lit "TitleFromPosition") 0 [lit "FilmTitleRule"; lit "SubtitlePrefixLanguageRule"; lit "SubtitleSuffixLanguageRule"; lit "SubtitleExtensionRule"];
   R (lit "PreferTitleWithYear") 0 [lit "TitleFromPosition"]].
(** episode_title.py:31-37, 41-47, 95-99, 124-129, 161-166, 197-204, 218-231, 258-276 *)
Definition episode_title_rules : list rule :=
  [R (lit "RemoveConflictsWithEpisodeTitle") 64 [];
   R (lit "EpisodeTitleFromPosition") 0 [lit "TitleToEpisodeTitle"];
   R (lit "AlternativeTitleReplace") 0 [lit "EpisodeTitleFromPosition"];
   R (lit "TitleToEpisodeTitle") 0 [lit "TitleFromPosition"];
   R (lit "Filepart3EpisodeTitle") 0 [];
   R (lit "Filepart2EpisodeTitle") 0 [];
   R (lit "RenameEpisodeTitleWhenMovieType") POST_PROCESS [lit "TypeProcessor"]].
(** language.py:63-68, 364-368, 413-418, 447-453, 473-476, 485-489, 515-519 *)
Definition language_rules : list rule :=
  [R (lit "SubtitleExtensionRule") 0 [];
   R (lit "SubtitlePrefixLanguageRule") 0 [];
   R (lit "SubtitleSuffixLanguageRule") 0 [lit "SubtitlePrefixLanguageRule"];
   R (lit "RemoveLanguage") 0 [];
   R (lit "RemoveInvalidLanguages") 32 [];
   R (lit "RemoveUndeterminedLanguages") 32 []].
(** release_group.py:68-72, 84-101, 206-213, 304-310 *)
Definition release_group_rules : list rule :=
  [R (lit "DashSeparatedReleaseGroup") 0 [];
   R (lit "SceneReleaseGroup") 0 [lit "TitleFromPosition"];
   R (lit "AnimeReleaseGroup") 0 [lit "SceneReleaseGroup"; lit "TitleFromPosition"]].
(** streaming_service.py:31, 36-40 *)
Definition streaming_service_rules : list rule := [R (lit "ValidateStreamingService") 128 []].
(** other.py:35-37, 71-308 *)
Definition other_rules : list rule :=
  [R (lit "RenameAnotherToOther") 32 []; R (lit "ValidateHasNeighbor") 64 [];
   R (lit "ValidateHasNeighborAfter") 64 []; R (lit "ValidateHasNeighborBefore") 64 [];
   R (lit "ValidateScreenerRule") 64 []; R (lit "ValidateMuxRule") 64 [];
   R (lit "ValidateHardcodedSubs") 32 []; R (lit "ValidateStreamingServiceNeighbor") 32 [];
   R (lit "ValidateAtEnd") 32 []; R (lit "ValidateReal") 64 []; R (lit "ProperCountRule") POST_PROCESS []].
(** bit_rate.py:32, 37-41; bonus.py:29, 34-39; film.py:28, 33-37 *)
Definition bit_rate_rules : list rule := [R (lit "BitRateTypeRule") 0 []].
Definition bonus_rules : list rule := [R (lit "BonusTitleRule") 0 [lit "TitleFromPosition"]].
Definition film_rules : list rule := [R (lit "FilmTitleRule") 0 []].
(** processors.py:254-257, 18-22, 54-59, 87-94, 126, 177-200, 212-229 *)
Definition processors_rules : list rule :=
  [R (lit "EnlargeGroupMatches") PRE_PROCESS []; R (lit "EquivalentHoles") POST_PROCESS [];
   R (lit "RemoveLessSpecificSeasonEpisode") POST_PROCESS []; (* 'season' *)
   R (lit "RemoveLessSpecificSeasonEpisode") POST_PROCESS []; (* 'episode' *)
   R (lit "RemoveAmbiguous") POST_PROCESS []; R (lit "SeasonYear") POST_PROCESS [];
   R (lit "YearSeason") POST_PROCESS []; R (lit "Processors") POST_PROCESS [];
   R (lit "StripSeparators") POST_PROCESS []].
(** mimetype.py:25, 30-40; type.py:33, 38-44 *)
Definition mimetype_rules : list rule := [R (lit "Mimetype") POST_PROCESS [lit "Processors"]].
Definition type_rules : list rule := [R (lit "TypeProcessor") POST_PROCESS [lit "Processors"]].

(** The builders that have rules, in the order of rules/__init__.py:54-89, each with the
    property names that switch the whole builder off when all of them are excluded
    (the [disabled] of its outermost [Rebulk]; [[]]: never switched off. audio_codec,
    video_codec, screen_size, date and episodes have [disabled] on their patterns only). *)
Definition builders : list (list str * list rule) :=
  [([], episodes_rules);
   ([lit "source"], source_rules);
   ([], video_codec_rules);
   ([], audio_codec_rules);
   ([], screen_size_rules);
   ([lit "website"], website_rules);
   ([], date_rules);
   ([lit "title"], title_rules);
   ([lit "episode_title"], episode_title_rules);
   ([lit "language"; lit "subtitle_language"], language_rules);
   ([lit "release_group"], release_group_rules);
   ([lit "streaming_service"], streaming_service_rules);
   ([lit "other"], other_rules);
   ([lit "audio_bit_rate"; lit "video_bit_rate"], bit_rate_rules);
   ([lit "bonus"], bonus_rules);
   ([lit "film"], film_rules);
   ([], processors_rules);
   ([lit "mimetype"], mimetype_rules);
   ([lit "type"], type_rules)].

(** [is_disabled(context, name)] is [excluded name]: common/pattern.py:11-27 *)
Definition switched_off (excluded : str -> bool) (names : list str) : bool :=
  match names with [] => false | _ => forallb excluded names end.
Definition effective_rules (excluded : str -> bool) : list rule :=
  fold_left (fun rs b => if switched_off excluded (fst b) then rs else extend_safe (extend_safe rs default_rules) (snd b))
            builders default_rules.

(** The order in which guessit's rules run, by class name. *)
Definition guessit_order (shuffle : list nat -> list nat) (excluded : str -> bool) : res (list str) :=
  o <- schedule shuffle (effective_rules excluded);
  Ok (map (class (effective_rules excluded)) o).
