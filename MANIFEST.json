{
 "claims": [
  {
   "property": "C01",
   "status": "proved",
   "theorems": [
    "C01_last_defined_wins",
    "C01_no_invented_key",
    "C01_omitted_unchanged",
    "C01_C04_merge_refines_spec"
   ],
   "note": ""
  },
  {
   "property": "C02",
   "status": "proved",
   "theorems": [
    "C02_lists_accumulate",
    "C02_deterministic"
   ],
   "note": ""
  },
  {
   "property": "C03",
   "status": "proved",
   "theorems": [
    "C03_dicts_merge_recursively",
    "C01_C04_merge_refines_spec"
   ],
   "note": ""
  },
  {
   "property": "C04",
   "status": "proved",
   "theorems": [
    "C04_pristine_true",
    "C04_pristine_names",
    "C01_C04_merge_refines_spec",
    "C04_first_pristine_copied_refuted"
   ],
   "note": ""
  },
  {
   "property": "C05",
   "status": "proved",
   "theorems": [
    "C05_merge_never_modifies_existing_objects",
    "C05_result_is_new",
    "C05_result_shares_nested_dicts_refuted"
   ],
   "note": ""
  },
  {
   "property": "C06",
   "status": "proved",
   "theorems": [
    "C06_merge_succeeds_iff_mergeable",
    "C06_other_layers"
   ],
   "note": ""
  },
  {
   "property": "C07",
   "status": "proved",
   "theorems": [
    "C07_layer_order",
    "C07_depends_only_on_three_options",
    "C07_advanced_config_always_there"
   ],
   "note": ""
  },
  {
   "property": "C08",
   "status": "proved",
   "theorems": [
    "C08_locations"
   ],
   "note": ""
  },
  {
   "property": "C09",
   "status": "proved",
   "theorems": [
    "C09_history_independence",
    "C09_custom_builder_lost_refuted"
   ],
   "note": "premise: no call failed after its configuration files were loaded; a custom rules_builder is lost at the next reconfiguration (refuted witness)"
  },
  {
   "property": "C10",
   "status": "proved",
   "theorems": [
    "C10_load_failure_changes_nothing",
    "C10_reset",
    "C10_failed_build_leaks_refuted",
    "C10_failed_merge_leaks_refuted"
   ],
   "note": "limits as witnesses"
  },
  {
   "property": "C100",
   "status": "proved",
   "theorems": [
    "C100_sound",
    "C100_kept",
    "C100_alone"
   ],
   "note": "Guess.v composes Conflicts.v, Pipeline.v (74 rules) and ToDict.v. Premises: markers and matches lie in the text, markers have no parent; shown values are not lists. The patterns' matches are an arbitrary list."
  },
  {
   "property": "C101",
   "status": "proved",
   "theorems": [
    "C101_sound",
    "C101_found",
    "C101_limit",
    "C101_version"
   ],
   "note": "exact up to a number that is itself a count of an earlier match (1 of 2 of 3: the second pair is not seen); sound without condition"
  },
  {
   "property": "C102",
   "status": "proved",
   "theorems": [
    "C102_sound",
    "C102_found",
    "C102_alone",
    "C102_limit"
   ],
   "note": "for the season words and articles of options.json"
  },
  {
   "property": "C103",
   "status": "proved",
   "theorems": [
    "C103_reads",
    "C103_guess",
    "C103_unique",
    "C103_line",
    "C103_limit"
   ],
   "note": "JSON output; float repr is a parameter (finite floats); C103_limit: an object and a text of the same name print alike"
  },
  {
   "property": "C104",
   "status": "proved",
   "theorems": [
    "C104_options",
    "C104_split",
    "C104_unknown",
    "C104_dashes",
    "C104_short",
    "C104_ambiguous"
   ],
   "note": "argparse (Python 3.11) transcribed for this parser; C104_short and C104_ambiguous are about shortened long options"
  },
  {
   "property": "C105",
   "status": "proved",
   "theorems": [
    "C105_words",
    "C105_every",
    "C105_same",
    "C105_open"
   ],
   "note": "shlex.split transcribed (posix, no comments)"
  },
  {
   "property": "C106",
   "status": "proved",
   "theorems": [
    "C106_loads",
    "C106_rfc",
    "C106_round",
    "C106_members",
    "C106_named",
    "C106_inline",
    "C106_errors",
    "C106_no_yaml",
    "C106_replaced"
   ],
   "note": "json.loads is transcribed (decoder and scanner); floats are what a function makes of their text; the limit on the depth of nesting and yaml.load are not modelled"
  },
  {
   "property": "C107",
   "status": "proved",
   "theorems": [
    "C107_year_first",
    "C107_year_day",
    "C107_year_last",
    "C107_short_year_first",
    "C107_short_year_last",
    "C107_eight_digits",
    "C107_six_digits",
    "C107_unique",
    "C107_unique_run",
    "C107_real",
    "C107_written",
    "C107_shown",
    "C107_isoformat",
    "C107_shifted_refuted"
   ],
   "note": "dateutil's numeric parsing is transcribed in DateParse.v; dates written with the name of a month are a parameter here and are given by C113. C107_shifted_refuted records a misreading."
  },
  {
   "property": "C108",
   "status": "proved",
   "theorems": [
    "C108_found",
    "C108_count",
    "C108_range",
    "C108_sound",
    "C108_limit"
   ],
   "note": "model in SeasonWords.v (chain of parts of rebulk in Chain.v); the separators of C108_range are range separators; lists with discrete separators are only in C108_sound"
  },
  {
   "property": "C109",
   "status": "proved",
   "theorems": [
    "C109_order",
    "C109_cycles",
    "C109_determined",
    "C109_guessit",
    "C109_limit",
    "C109_stages",
    "C109_told"
   ],
   "note": "Schedule.v: the rule table of guessit and rebulk's scheduler (rebulk itself is not in /repo: Rules.execute_all_rules, toposort_rules, effective_rules transcribed from memory). C109_limit: excluding properties can swap two unrelated rules."
  },
  {
   "property": "C11",
   "status": "proved",
   "theorems": [
    "C11_rebuild_iff"
   ],
   "note": ""
  },
  {
   "property": "C110",
   "status": "proved",
   "theorems": [
    "C110_says",
    "C110_unique",
    "C110_fails",
    "C110_long",
    "C110_nothing"
   ],
   "note": "Yaml.v: representers, block layout of PyYAML's emitter (transcribed), the lines printed; the writing of one scalar is a parameter with the hypothesis that it can be read back. The loader OrderedDictYAMLLoader (used by the test suite only) is not modelled."
  },
  {
   "property": "C111",
   "status": "proved",
   "theorems": [
    "C111_found",
    "C111_apart",
    "C111_domains",
    "C111_empty_domain",
    "C111_trailing_dot",
    "C111_next_lost"
   ],
   "note": "Sites.v: the three expressions of website.py and the reading of the list of domains; rebulk's RePattern and the re module as in the other patterns (ASCII case). The rules on websites are C80."
  },
  {
   "property": "C112",
   "status": "proved",
   "theorems": [
    "C112_solver",
    "C112_wins",
    "C112_expected",
    "C112_date",
    "C112_year",
    "C112_country",
    "C112_us",
    "C112_container"
   ],
   "note": "the kind of the pattern each match comes from is a parameter; rebulk's ConflictSolver as in C97; matches distinct by span, value, name"
  },
  {
   "property": "C113",
   "status": "proved",
   "theorems": [
    "C113_found",
    "C113_refused",
    "C113_other_word",
    "C113_unique",
    "C113_shown",
    "C113_limit"
   ],
   "note": "dateutil is not part of the repository: its lexer and the part of its parser that these dates reach are transcribed from memory (MonthDate.v). Words that make it complete the date from the current day (weekdays, hours, utc, and) are left to a parameter. C113_limit: a year written 0012 is read as 2012 after a space and refused after two equal separators."
  },
  {
   "property": "C114",
   "status": "proved",
   "theorems": [
    "C114_repack",
    "C114_counts",
    "C114_lame"
   ],
   "note": "Exact both ways: what is found is what is written. ASCII digits. C114_counts uses the same specification of the count as C39."
  },
  {
   "property": "C115",
   "status": "proved",
   "theorems": [
    "C115_step",
    "C115_run",
    "C115_alone",
    "C115_limit"
   ],
   "note": "SpareProps.v, SpareGuess.v: the causes are written with the separators, the values and the places only; C115_alone goes from the matches of the patterns to the dictionary; C115_limit shows that a glued codec does go"
  },
  {
   "property": "C116",
   "status": "proved",
   "theorems": [
    "C116_shown",
    "C116_plain"
   ],
   "note": "SpareGuess.v: from the matches of the patterns to the dictionary; C116_shown_ex has a year, two codecs and a group after a dash"
  },
  {
   "property": "C12",
   "status": "proved",
   "theorems": [
    "C12_no_bytes_left_same_shape",
    "C12_identity_without_bytes",
    "C12_raises_iff_non_ascii",
    "C12_key_clash_refuted"
   ],
   "note": ""
  },
  {
   "property": "C13",
   "status": "proved",
   "theorems": [
    "C13_one_object_own_synonyms",
    "C13_instances_interfere_refuted"
   ],
   "note": ""
  },
  {
   "property": "C14",
   "status": "proved",
   "theorems": [
    "C14_is_disabled",
    "C14_default_enabled",
    "C14_text_is_substring_refuted"
   ],
   "note": ""
  },
  {
   "property": "C15",
   "status": "proved",
   "theorems": [
    "C15_path_parts",
    "C15_name_only"
   ],
   "note": "find_all of rebulk is modelled, not in /repo"
  },
  {
   "property": "C16",
   "status": "proved",
   "theorems": [
    "C16_groups",
    "C16_groups_nested",
    "C16_bad_configuration",
    "C16_same_kind_refuted"
   ],
   "note": "opening and closing brackets disjoint (true of the bundled configuration)"
  },
  {
   "property": "C17",
   "status": "proved",
   "theorems": [
    "C17_words",
    "C17_every_character"
   ],
   "note": ""
  },
  {
   "property": "C18",
   "status": "proved",
   "theorems": [
    "C18_only_separators",
    "C18_letters_kept",
    "C18_exact"
   ],
   "note": "ASCII case mapping"
  },
  {
   "property": "C19",
   "status": "proved",
   "theorems": [
    "C19_reorder",
    "C19_idempotent_refuted"
   ],
   "note": "ASCII case mapping; articles non-empty"
  },
  {
   "property": "C20",
   "status": "proved",
   "theorems": [
    "C20_roman_read",
    "C20_roman_canonical"
   ],
   "note": "a final newline is tolerated by the pattern"
  },
  {
   "property": "C21",
   "status": "proved",
   "theorems": [
    "C21_digits",
    "C21_words",
    "C21_words_exist",
    "C21_french_ten_refuted",
    "C21_number_words"
   ],
   "note": "ASCII digits and case mapping, default flags"
  },
  {
   "property": "C22",
   "status": "proved",
   "theorems": [
    "C22_roundtrip",
    "C22_units_idempotent",
    "C22_magnitude",
    "C22_no_unit_refuted",
    "C22_equal_but_different_hash_refuted",
    "C22_equality"
   ],
   "note": "integer magnitudes round-trip when a unit is present; the two limits are formal counterexamples; float repr not modelled"
  },
  {
   "property": "C23",
   "status": "proved",
   "theorems": [
    "C23_sound",
    "C23_first_plausible",
    "C23_guess_leaks_refuted",
    "C23_undecided_order",
    "C23_guess"
   ],
   "note": "regexes modelled concretely (ASCII digits/letters); dateutil is an arbitrary function"
  },
  {
   "property": "C24",
   "status": "proved",
   "theorems": [
    "C24_guess_idnumber"
   ],
   "note": "float ratio compared exactly"
  },
  {
   "property": "C25",
   "status": "proved",
   "theorems": [
    "C25_shape",
    "C25_balanced",
    "C25_empty_refuted",
    "C25_escaped_literal"
   ],
   "note": "parentheses inside character classes are counted like the others"
  },
  {
   "property": "C26",
   "status": "proved",
   "theorems": [
    "C26_in_order",
    "C26_callable",
    "C26_dict_entry",
    "C26_text_entry",
    "C26_second_load_refuted",
    "C26_resolved"
   ],
   "note": "importing/evaluating executables is a parameter; when an exception is raised the events before it are not described"
  },
  {
   "property": "C27",
   "status": "proved",
   "theorems": [
    "C27_located",
    "C27_regex_sees_modified_input_refuted",
    "C27_empty_diverges_refuted"
   ],
   "note": "user regexes are an arbitrary function"
  },
  {
   "property": "C28",
   "status": "proved",
   "theorems": [
    "C28_part_of_text",
    "C28_forbidden_prefix",
    "C28_forbidden_alone",
    "C28_forbidden_suffix_refuted",
    "C28_separators_left_refuted",
    "C28_brackets_kept",
    "C28_brackets_dropped"
   ],
   "note": ""
  },
  {
   "property": "C29",
   "status": "proved",
   "theorems": [
    "C29_counted",
    "C29_marker_sorted",
    "C29_total"
   ],
   "note": "the sorted list is the only arrangement ordered by the specification; matches counted characterised"
  },
  {
   "property": "C30",
   "status": "proved",
   "theorems": [
    "C30_remove_ambiguous",
    "C30_agree"
   ],
   "note": "matches pairwise distinct (key), spans inside the input; on the rebulk transcription"
  },
  {
   "property": "C31",
   "status": "proved",
   "theorems": [
    "C31_less_specific",
    "C31_rightmost_refuted"
   ],
   "note": "leftmost part wins; documented rightmost refuted"
  },
  {
   "property": "C32",
   "status": "proved",
   "theorems": [
    "C32_istitle",
    "C32_isupper",
    "C32_one_of_both",
    "C32_title_first",
    "C32_title_second",
    "C32_upper_second",
    "C32_upper_first",
    "C32_limits"
   ],
   "note": "ASCII case"
  },
  {
   "property": "C33",
   "status": "proved",
   "theorems": [
    "C33_season_year",
    "C33_year_season",
    "C33_excludes_refuted"
   ],
   "note": "integer season/year values"
  },
  {
   "property": "C34",
   "status": "proved",
   "theorems": [
    "C34_decision",
    "C34_one_type",
    "C34_unvalidated"
   ],
   "note": "SmallRules.v"
  },
  {
   "property": "C35",
   "status": "proved",
   "theorems": [
    "C35_years"
   ],
   "note": ""
  },
  {
   "property": "C36",
   "status": "proved",
   "theorems": [
    "C36_episodes",
    "C36_seasons",
    "C36_order",
    "C36_place",
    "C36_rest",
    "C36_see",
    "C36_spaced_limit",
    "C36_unbounded"
   ],
   "note": "Numbers found = numbers of the text plus those strictly inside a range, in order; separators removed; Cap.102_104 pattern; limits: ' - ' does not join, ranges between two patterns are unbounded."
  },
  {
   "property": "C37",
   "status": "proved",
   "theorems": [
    "C37_accepted",
    "C37_chain",
    "C37_whole",
    "C37_limit"
   ],
   "note": "Exact acceptance condition of a list; a chain keeps neighbours within the maximum; limit: a number may come back after a greater one."
  },
  {
   "property": "C38",
   "status": "proved",
   "theorems": [
    "C38_notation",
    "C38_zero_height",
    "C38_only_one",
    "C38_conflicts"
   ],
   "note": "finding: a zero height raises ZeroDivisionError"
  },
  {
   "property": "C39",
   "status": "proved",
   "theorems": [
    "C39_count",
    "C39_start_refuted"
   ],
   "note": ""
  },
  {
   "property": "C40",
   "status": "proved",
   "theorems": [
    "C40_has_neighbor",
    "C40_has_neighbor_before",
    "C40_has_neighbor_after",
    "C40_all_validated_refuted"
   ],
   "note": ""
  },
  {
   "property": "C41",
   "status": "proved",
   "theorems": [
    "C41_bit_rate",
    "C41_disabled",
    "C41_exclude_audio_refuted"
   ],
   "note": ""
  },
  {
   "property": "C42",
   "status": "proved",
   "theorems": [
    "C42_countries",
    "C42_span",
    "C42_leading_space_refuted",
    "C42_unknown_code_refuted"
   ],
   "note": "babelfish database is a parameter"
  },
  {
   "property": "C43",
   "status": "proved",
   "theorems": [
    "C43_report",
    "C43_sound",
    "C43_complete",
    "C43_prefix",
    "C43_suffix"
   ],
   "note": "LanguageFinder over any babelfish database (a parameter). Which languages found are given; soundness (allowed, text, place, affix); completeness for words, joined words, and unambiguous affixes. A suffix on the first word of the text is not seen (ex_lang3)."
  },
  {
   "property": "C44",
   "status": "proved",
   "theorems": [
    "C44_keys",
    "C44_values",
    "C44_single_value",
    "C44_input_string"
   ],
   "note": "match values are not lists (guessit produces none)"
  },
  {
   "property": "C45",
   "status": "proved",
   "theorems": [
    "C45_suggested_expected"
   ],
   "note": ""
  },
  {
   "property": "C46",
   "status": "proved",
   "theorems": [
    "C46_main",
    "C46_once",
    "C46_help",
    "C46_asked",
    "C46_limit"
   ],
   "note": "the whole of __main__.py from the merged options; argparse, JSON/YAML printing and logging are parameters or events"
  },
  {
   "property": "C47",
   "status": "proved",
   "theorems": [
    "C47_bytes_like_text",
    "C47_only_guessit_exception",
    "C47_exception_carries_input",
    "C47_non_ascii_bytes_rejected"
   ],
   "note": "values textual and ASCII; argparse SystemExit is not wrapped; input_string stays text"
  },
  {
   "property": "C48",
   "status": "proved",
   "theorems": [
    "C48_listing",
    "C48_limit"
   ],
   "note": "from the introspection result (a parameter); listing order, KeyError without count"
  },
  {
   "property": "C49",
   "status": "proved",
   "theorems": [
    "C49_groups",
    "C49_limit",
    "C49_always"
   ],
   "note": "Groups equal to a path part do not cut titles; limit: the second of two consecutive ones still cuts (list modified while iterated)."
  },
  {
   "property": "C50",
   "status": "proved",
   "theorems": [
    "C50_movie",
    "C50_unchanged",
    "C50_limit"
   ],
   "note": "C50_limit: without a type match (type excluded) the episode title of an episode is renamed."
  },
  {
   "property": "C51",
   "status": "proved",
   "theorems": [
    "C51_strip",
    "C51_strip_all_separators_raises",
    "C51_strip_separators",
    "C51_strip_separators_fails"
   ],
   "note": "both trimming functions"
  },
  {
   "property": "C52",
   "status": "proved",
   "theorems": [
    "C52_and",
    "C52_or"
   ],
   "note": ""
  },
  {
   "property": "C53",
   "status": "proved",
   "theorems": [
    "C53_without_sharing",
    "C53_other_options",
    "C53_shared_list_leaks_refuted"
   ],
   "note": "the sharing case is refuted by a witness; the no-sharing case is a refinement of the heap model to the value model"
  },
  {
   "property": "C54",
   "status": "proved",
   "theorems": [
    "C54_enlarge"
   ],
   "note": "raw bounds unset before; no two matches become equal when extended"
  },
  {
   "property": "C55",
   "status": "proved",
   "theorems": [
    "C55_screener",
    "C55_mux",
    "C55_hardcoded",
    "C55_at_end",
    "C55_real",
    "C55_another"
   ],
   "note": "ValidateStreamingServiceNeighbor is in C74"
  },
  {
   "property": "C56",
   "status": "proved",
   "theorems": [
    "C56_excluded",
    "C56_common_words",
    "C56_undetermined",
    "C56_extension",
    "C56_suffix",
    "C56_prefix",
    "C56_prefix_limit"
   ],
   "note": "The six rules of language.py; two overlapping languages after a prefix make the prefix rule raise (C56_prefix_limit)."
  },
  {
   "property": "C57",
   "status": "proved",
   "theorems": [
    "C57_sound",
    "C57_found",
    "C57_years",
    "C57_origin",
    "C57_split",
    "C57_tidy",
    "C57_limit",
    "C57_word"
   ],
   "note": "C57_limit: the rule raises ValueError when an ignored match crosses the start of a hole."
  },
  {
   "property": "C58",
   "status": "proved",
   "theorems": [
    "C58_prefer"
   ],
   "note": "Under disjoint path parts and years."
  },
  {
   "property": "C59",
   "status": "proved",
   "theorems": [
    "C59_titles",
    "C59_position",
    "C59_found",
    "C59_alternative",
    "C59_replaced"
   ],
   "note": ""
  },
  {
   "property": "C60",
   "status": "proved",
   "theorems": [
    "C60_three",
    "C60_two",
    "C60_few",
    "C60_limit"
   ],
   "note": "exact behaviour of both rules; every match is assumed to have a name"
  },
  {
   "property": "C61",
   "status": "proved",
   "theorems": [
    "C61_film",
    "C61_bonus",
    "C61_without_number",
    "C61_film_limit"
   ],
   "note": "sound, found, and the limit for film titles below a folder"
  },
  {
   "property": "C62",
   "status": "proved",
   "theorems": [
    "C62_words"
   ],
   "note": "exact but for ties in position, where both directions are stated"
  },
  {
   "property": "C63",
   "status": "proved",
   "theorems": [
    "C63_marked",
    "C63_technical",
    "C63_word",
    "C63_word_made",
    "C63_movie"
   ],
   "note": "exact conditions for each of the three rules"
  },
  {
   "property": "C64",
   "status": "proved",
   "theorems": [
    "C64_detail",
    "C64_version",
    "C64_digit"
   ],
   "note": "exact; the digit rule for matches of one character with groups apart"
  },
  {
   "property": "C65",
   "status": "proved",
   "theorems": [
    "C65_count"
   ],
   "note": "exact"
  },
  {
   "property": "C66",
   "status": "proved",
   "theorems": [
    "C66_duplicate",
    "C66_detached"
   ],
   "note": "exact; ties of span for the same name and pattern excluded"
  },
  {
   "property": "C67",
   "status": "proved",
   "theorems": [
    "C67_disc",
    "C67_disabled"
   ],
   "note": "exact"
  },
  {
   "property": "C68",
   "status": "proved",
   "theorems": [
    "C68_season",
    "C68_episode"
   ],
   "note": "exact; one number per place"
  },
  {
   "property": "C69",
   "status": "proved",
   "theorems": [
    "C69_first",
    "C69_second",
    "C69_consistent",
    "C69_limit"
   ],
   "note": "exact; order independence refuted when both give way"
  },
  {
   "property": "C70",
   "status": "proved",
   "theorems": [
    "C70_anime",
    "C70_marked",
    "C70_split",
    "C70_film",
    "C70_limit"
   ],
   "note": "exact; C70_limit shows the state leaks to later components"
  },
  {
   "property": "C71",
   "status": "proved",
   "theorems": [
    "C71_groups",
    "C71_part",
    "C71_limit"
   ],
   "note": "exact"
  },
  {
   "property": "C72",
   "status": "proved",
   "theorems": [
    "C72_audio",
    "C72_profile",
    "C72_hq",
    "C72_channels",
    "C72_solver"
   ],
   "note": "audio_codec.py rules"
  },
  {
   "property": "C73",
   "status": "proved",
   "theorems": [
    "C73_codec",
    "C73_limit",
    "C73_profile"
   ],
   "note": "video_codec.py rules; C73_limit: the suffix is looked for one character too far"
  },
  {
   "property": "C74",
   "status": "proved",
   "theorems": [
    "C74_service",
    "C74_neighbour"
   ],
   "note": "streaming_service.py and other.py:ValidateStreamingServiceNeighbor"
  },
  {
   "property": "C75",
   "status": "proved",
   "theorems": [
    "C75_source",
    "C75_limit",
    "C75_weak",
    "C75_ultra_only",
    "C75_ultra",
    "C75_ultra_limit"
   ],
   "note": "source.py rules; C75_limit: touching prefixes of one or two characters are not seen"
  },
  {
   "property": "C76",
   "status": "proved",
   "theorems": [
    "C76_int",
    "C76_unique",
    "C76_roman"
   ],
   "note": "int() on ASCII texts"
  },
  {
   "property": "C77",
   "status": "proved",
   "theorems": [
    "C77_anime",
    "C77_known",
    "C77_value"
   ],
   "note": "AnimeReleaseGroup"
  },
  {
   "property": "C78",
   "status": "proved",
   "theorems": [
    "C78_part",
    "C78_one",
    "C78_only",
    "C78_formatter"
   ],
   "note": "C78_one is exact for a name of one path component; C78_only bounds what happens for any number of components"
  },
  {
   "property": "C79",
   "status": "proved",
   "theorems": [
    "C79_dash",
    "C79_known",
    "C79_unique"
   ],
   "note": "exact for every number of components; C79_limit shows a separator before the dash hides the group"
  },
  {
   "property": "C80",
   "status": "proved",
   "theorems": [
    "C80_title",
    "C80_prefix"
   ],
   "note": "C80_limit: another prefix counts as a website"
  },
  {
   "property": "C81",
   "status": "proved",
   "theorems": [
    "C81_sound",
    "C81_found",
    "C81_limit"
   ],
   "note": "EquivalentHoles: sound, complete and framed; the disagreement of equivalents is shown"
  },
  {
   "property": "C82",
   "status": "proved",
   "theorems": [
    "C82_placed",
    "C82_takes_away",
    "C82_text_limit"
   ],
   "note": "The rules are one relation (step) with a constructor per rule; runs_rules is any sequence of them. Premises on a step: children are inside their initiator, range separators are not empty texts, and for EquivalentHoles no match has an empty text (C82_text_limit shows a release group can be empty). The matches the patterns give, and the markers, are assumed to be placed."
  },
  {
   "property": "C83",
   "status": "proved",
   "theorems": [
    "C83_names",
    "C83_excluded",
    "C83_always",
    "C83_limit"
   ],
   "note": "The names the patterns give are those of the start list; C83_limit shows nine properties that come back although excluded."
  },
  {
   "property": "C84",
   "status": "proved",
   "theorems": [
    "C84_year",
    "C84_crc"
   ],
   "note": "exact characterisation of the pattern matches; rebulk's RePattern is transcribed"
  },
  {
   "property": "C85",
   "status": "proved",
   "theorems": [
    "C85_film",
    "C85_bonus",
    "C85_week"
   ],
   "note": "exact characterisation of the public matches"
  },
  {
   "property": "C86",
   "status": "proved",
   "theorems": [
    "C86_size",
    "C86_bit_rate"
   ],
   "note": "exact characterisation of spans and values"
  },
  {
   "property": "C87",
   "status": "proved",
   "theorems": [
    "C87_found",
    "C87_sound"
   ],
   "note": "model of rebulk chains (Chain.v) transcribed; ASCII digits and case"
  },
  {
   "property": "C88",
   "status": "proved",
   "theorems": [
    "C88_season",
    "C88_pairs",
    "C88_list",
    "C88_limit"
   ],
   "note": "model of rebulk chains (Chain.v) transcribed; the two exceptions are exhibited in C88_limit"
  },
  {
   "property": "C89",
   "status": "proved",
   "theorems": [
    "C89_cd",
    "C89_count",
    "C89_cds",
    "C89_limit"
   ],
   "note": "iff characterisation of the cd and cd_count patterns before conflict solving"
  },
  {
   "property": "C90",
   "status": "proved",
   "theorems": [
    "C90_alone",
    "C90_only",
    "C90_exact",
    "C90_groups",
    "C90_groups_only",
    "C90_default",
    "C90_rip",
    "C90_sources",
    "C90_limit"
   ],
   "note": "Theorems in KeywordProps.v (any entry) and KeywordTable.v (default configuration, written out in DefaultConfig.v by a script). LAME with a version and Repack/Rerip with a count: see C114; not read: three editions with two values. C90_limit: 4k.remaster hides remaster."
  },
  {
   "property": "C91",
   "status": "proved",
   "theorems": [
    "C91_order",
    "C91_default_order",
    "C91_found",
    "C91_resolution",
    "C91_4k",
    "C91_frame_rate",
    "C91_only",
    "C91_groups",
    "C91_limit",
    "C91_order_limit"
   ],
   "note": "the four size patterns, 4k, WxH and frame rate patterns with the default configuration in any set order; conflict solving between them is C69"
  },
  {
   "property": "C92",
   "status": "proved",
   "theorems": [
    "C92_part",
    "C92_limit"
   ],
   "note": "exact: sound and complete for every input; default prefixes pt, part; ASCII case folding"
  },
  {
   "property": "C93",
   "status": "proved",
   "theorems": [
    "C93_digits",
    "C93_numeral_sound",
    "C93_numeral_found",
    "C93_all"
   ],
   "note": "digits and whole seasons: exact; numerals: sound, and complete except capitulo right after another episode word (a limit of the code, shown by C93_limit_ex)"
  },
  {
   "property": "C94",
   "status": "proved",
   "theorems": [
    "C94_codes",
    "C94_language",
    "C94_case",
    "C94_order",
    "C94_order_refuted",
    "C94_country_round",
    "C94_country_round_refuted",
    "C94_one_word",
    "C94_total",
    "C94_total_refuted"
   ],
   "note": "babelfish constructors are parameters; ASCII case mapping"
  },
  {
   "property": "C95",
   "status": "proved",
   "theorems": [
    "C95_history",
    "C95_meaning",
    "C95_top_level",
    "C95_no_default",
    "C95_colon_refuted",
    "C95_plain"
   ],
   "note": "modules, attributes and eval are parameters"
  },
  {
   "property": "C96",
   "status": "proved",
   "theorems": [
    "C96_found",
    "C96_version",
    "C96_sound",
    "C96_limit",
    "opens_fun"
   ],
   "note": "Rocq model of the eight chains over rebulk's Chain (Chain.v, EpisodeChains.v); conflicts with other patterns are not part of the model"
  },
  {
   "property": "C97",
   "status": "proved",
   "theorems": [
    "C97_result",
    "C97_reason",
    "C97_apart",
    "C97_left",
    "C97_settled",
    "C97_pair",
    "C97_longest",
    "C97_private",
    "C97_extension",
    "C97_limit"
   ],
   "note": "rebulk's ConflictSolver and PrivateRemover are transcribed from memory of rebulk 3.2.0 (not in /repo), as Rebulk.v is; C97_settled and C97_extension assume no two equal matches."
  },
  {
   "property": "C98",
   "status": "proved",
   "theorems": [
    "C98_step",
    "C98_run",
    "C98_plain",
    "C98_limit",
    "C98_stays"
   ],
   "note": "For every rule of the model (Pipeline.step) and every run; C98_limit shows that a checksum after a last dash is really lost. The initiator, children and ancestors of matches are arguments constrained by family/lineage (parent names); simplification stated in Pipeline.v."
  },
  {
   "property": "C99",
   "status": "proved",
   "theorems": [
    "C99_run",
    "C99_absent",
    "C99_dated",
    "C99_limit",
    "C99_source"
   ],
   "note": "Over Pipeline.v's step relation (74 rules), any number of them in any order. Premises: markers lie in the text and have no parent, matches lie in the text. C99_limit shows the list of made properties is needed (S01E02-04 yields episode 3)."
  }
 ]
}