{"id": "C01", "title": "Option layering: the last defined value wins", "statement": "Merging option dicts (merge_options, used for config files, config+call options and advanced_config) yields, for every key other than 'pristine', the value of the last layer that defines it with a non-None value when neither value is a list/dict; a layer that omits a key, or sets it to None, changes nothing; no key is invented and 'pristine' coming from a later layer never shows up at top level.", "quantifier": "every sequence of option dicts, of any size, nesting and key order", "why_tests_cant": "The inputs are unbounded (any string / any nesting / any history); a test only samples a few.", "anchors": ["guessit/options.py: merge_options, merge_option_value"]}
{"id": "C02", "title": "Option layering: lists accumulate without duplicates", "statement": "When the accumulated value of an option is a list, merging another list keeps the accumulated elements, in order, as a prefix and appends exactly the new elements that are not None and not already equal (==) to an element present, in first-occurrence order; no appended element equals another element of the result.", "quantifier": "every pair of lists of option values", "why_tests_cant": "The inputs are unbounded (any string / any nesting / any history); a test only samples a few.", "anchors": ["guessit/options.py: merge_option_value"]}
{"id": "C03", "title": "Option layering: dicts merge recursively", "statement": "When the accumulated value is a dict, merging a dict value gives exactly the recursive merge of the two, at every depth; merging an empty value leaves it unchanged.", "quantifier": "every nesting depth", "why_tests_cant": "The inputs are unbounded (any string / any nesting / any history); a test only samples a few.", "anchors": ["guessit/options.py: merge_options, merge_option_value"]}
{"id": "C04", "title": "pristine discards exactly what it names", "statement": "A layer whose 'pristine' is true discards every option set by earlier layers; a layer whose 'pristine' lists names discards exactly those options; other options are kept. A layer without pristine discards nothing. Limit: the 'pristine' of the very first layer is not interpreted and is copied into the result.", "quantifier": "every sequence of layers", "why_tests_cant": "The inputs are unbounded (any string / any nesting / any history); a test only samples a few.", "anchors": ["guessit/options.py: merge_options"]}
{"id": "C05", "title": "Merging never modifies the caller's objects", "statement": "merge_options does not modify any list or dict that existed before the call, however its arguments alias each other or share sub-objects, whether it returns or raises; so caller options and the cached configuration are never changed by a merge.", "quantifier": "every heap of list/dict objects, every aliasing pattern between the arguments, every outcome", "why_tests_cant": "Aliasing bugs only appear for particular sharing patterns and on a later call; tests compare results, not every reachable object.", "anchors": ["guessit/options.py: merge_options, merge_option_value", "guessit/api.py: GuessItApi.guessit"]}
{"id": "C06", "title": "Merging type-compatible layers never raises", "statement": "If every layer is a dict and each option keeps one kind (list with list, dict with dict, or scalar), merge_options succeeds; it raises only when a list meets a non-iterable scalar, a dict meets a truthy non-dict, the first layer is a truthy non-dict, or pristine is a truthy non-iterable / contains an unhashable element.", "quantifier": "every sequence of layers", "why_tests_cant": "The inputs are unbounded (any string / any nesting / any history); a test only samples a few.", "anchors": ["guessit/options.py: merge_options, merge_option_value"]}
{"id": "C07", "title": "Configuration layering order", "statement": "load_config merges, in this order: bundled defaults (unless no_default_config), then the existing user option files (unless no_user_config) in location order, then the --config files in the given order; files that load to an empty value are skipped; the result always contains advanced_config, falling back to the bundled one; the result depends on the call options only through config, no_user_config and no_default_config.", "quantifier": "every file system content, every options dict", "why_tests_cant": "Depends on arbitrary file system content and arbitrary option dicts.", "anchors": ["guessit/options.py: load_config, load_config_file"]}
{"id": "C08", "title": "User option file locations", "statement": "The searched locations are exactly home/.guessit/options.EXT, home/.config/guessit/options.EXT, cwd/guessit.options.EXT in this order, with EXT running over json, and also yaml, yml when YAML is available, directory-major.", "quantifier": "every home and working directory string", "why_tests_cant": "The inputs are unbounded (any string / any nesting / any history); a test only samples a few.", "anchors": ["guessit/options.py: get_options_file_locations"]}
{"id": "C09", "title": "guessit() does not depend on call history", "statement": "With unchanged configuration files, after any sequence of guessit/properties/configure/reset calls in which no call failed after its configuration files were loaded (while merging advanced_config or building rules) and no custom rules_builder was given, guessit(string, options) returns what a fresh API object returns: the configuration and rules in use are those of the current options, never of an earlier call. Limit: a custom rules_builder is silently dropped by a later reconfiguration.", "quantifier": "every finite history of API calls, every option value", "why_tests_cant": "Histories are unbounded and the cache keeps state between calls.", "anchors": ["guessit/api.py: GuessItApi.configure, guessit, reset, _has_same_properties"]}
{"id": "C10", "title": "A failed reconfiguration does not leak into later calls (limits)", "statement": "If loading configuration files fails, the API state is unchanged, so later calls behave as if the call had not happened; reset() always gives back the fresh state. Limits (each refuted by witness): if building the rules fails after an earlier success, the same failing call, repeated, silently succeeds with stale rules; if merging the call's advanced_config fails, the options used to detect configuration changes are already updated, so the next call with the same configuration files uses the configuration of an earlier call.", "quantifier": "every state, every failing call", "why_tests_cant": "Requires a failure at a specific point of a specific history.", "anchors": ["guessit/api.py: GuessItApi.configure"]}
{"id": "C11", "title": "Rules are rebuilt exactly when needed", "statement": "A configure() call rebuilds the rules iff it is forced, or no rules exist, or the previous effective advanced_config is empty/unset or differs from the new effective advanced_config; otherwise the rules object is left untouched.", "quantifier": "every API state and every options value", "why_tests_cant": "The inputs are unbounded (any string / any nesting / any history); a test only samples a few.", "anchors": ["guessit/api.py: GuessItApi.configure"]}
{"id": "C12", "title": "Byte strings in options are decoded everywhere", "statement": "Sanitising options returns a structure with no bytes at any depth (keys included), identical to the input when the input contains none, with the same shape; it raises only if some byte string is not ASCII. Limit: a text key and a byte key with the same characters collapse into one entry.", "quantifier": "every nested options value", "why_tests_cant": "The inputs are unbounded (any string / any nesting / any history); a test only samples a few.", "anchors": ["guessit/api.py: GuessItApi._fix_encoding"]}
{"id": "C13", "title": "API instances share language/country synonyms", "statement": "Within one API object the synonyms used for a guess are those of its own last successful rule build. Across two API objects this fails: building rules in one replaces the synonyms used by the other (refuted by witness).", "quantifier": "every interleaving of calls on several API objects", "why_tests_cant": "Needs interleavings of several instances with different configurations.", "anchors": ["guessit/rules/properties/language.py: language, GuessitConverter", "guessit/rules/properties/country.py: country"]}
{"id": "C14", "title": "includes/excludes decide which properties are enabled", "statement": "A property is disabled iff it is in excludes, or includes is non-empty and does not contain it; excludes has priority over includes; without either nothing is disabled. When excludes or includes is a text instead of a list, 'contains' means substring (a limit, by witness).", "quantifier": "every includes list, excludes list and property name", "why_tests_cant": "The inputs are unbounded (any string / any nesting / any history); a test only samples a few.", "anchors": ["guessit/rules/common/pattern.py: is_disabled"]}
{"id": "C15", "title": "Path parts partition the input", "statement": "Unless name_only is set, the path parts are the maximal '/'- and '\\'-free segments of the input, in order: re-joining them with the separator characters found between them gives back the input, no part contains a separator and their number is the separator count plus one. With name_only there is exactly one part, the whole input.", "quantifier": "every input string", "why_tests_cant": "The inputs are unbounded (any string / any nesting / any history); a test only samples a few.", "anchors": ["guessit/rules/markers/path.py: mark_path"]}
{"id": "C16", "title": "Bracket groups are the balanced bracket pairs", "statement": "A span is reported as a group iff it starts with an opening bracket, ends with a closing bracket and what lies between is balanced (kinds ignored); groups never partially overlap; each bracket belongs to at most one group. Limit: the two ends may be of different kinds, e.g. '(a]' (refuted by witness for 'same kind').", "quantifier": "every input string and every bracket configuration with disjoint opening/closing sets", "why_tests_cant": "The inputs are unbounded (any string / any nesting / any history); a test only samples a few.", "anchors": ["guessit/rules/markers/groups.py: mark_groups"]}
{"id": "C17", "title": "Word splitting is exact", "statement": "iter_words yields, in increasing order, exactly the maximal runs of characters that are not ASCII separators, each with its span and its text; every non-separator character is in exactly one word.", "quantifier": "every string, including non-ASCII ones", "why_tests_cant": "The inputs are unbounded (any string / any nesting / any history); a test only samples a few.", "anchors": ["guessit/rules/common/words.py: iter_words"]}
{"id": "C18", "title": "cleanup only touches separators", "statement": "cleanup keeps every non-separator character, in order; never lengthens the string; the result contains no two consecutive spaces; every separator character kept is one of the input's characters or a space; the result has no leading/trailing separator other than one restored between single letters.", "quantifier": "every string", "why_tests_cant": "The inputs are unbounded (any string / any nesting / any history); a test only samples a few.", "anchors": ["guessit/rules/common/formatters.py: cleanup, _potential_before, _potential_after, strip"]}
{"id": "C19", "title": "reorder_title moves a trailing article to the front", "statement": "If the title ends (case-insensitively) with separator+article the result is article + ' ' + the rest, original case kept; otherwise it is unchanged; characters outside the separator are never lost. It is not idempotent in general (refuted by witness).", "quantifier": "every title, every list of articles and separators", "why_tests_cant": "The inputs are unbounded (any string / any nesting / any history); a test only samples a few.", "anchors": ["guessit/rules/common/formatters.py: reorder_title"]}
{"id": "C20", "title": "Roman numerals", "statement": "Every number from 1 to 4999 written as a Roman numeral is parsed to itself, and every string accepted as a Roman numeral is the canonical numeral of the value returned.", "quantifier": "all 4999 numerals and every string", "why_tests_cant": "The inputs are unbounded (any string / any nesting / any history); a test only samples a few.", "anchors": ["guessit/rules/common/numeral.py: __parse_roman, roman_numeral"]}
{"id": "C21", "title": "Numeral parsing priority", "statement": "parse_numeral returns the first run of digits when the text contains a digit; otherwise the value of the first word that is a Roman numeral; otherwise the first English/French number word; otherwise it raises ValueError. Limit: a French word that is also a Roman numeral is not its word value: 'dix' gives 509 instead of 10 (refuted by witness).", "quantifier": "every string", "why_tests_cant": "The inputs are unbounded (any string / any nesting / any history); a test only samples a few.", "anchors": ["guessit/rules/common/numeral.py: parse_numeral, __parse_word"]}
{"id": "C22", "title": "Quantities round-trip through their text", "statement": "Parsing the text form of a Size/BitRate/FrameRate with an integer magnitude gives back an equal quantity; parsing normalises units idempotently. Limit: equality and hash disagree for quantities such as 1GB and 1.0GB (refuted by witness).", "quantifier": "every magnitude and every unit text without digits", "why_tests_cant": "The inputs are unbounded (any string / any nesting / any history); a test only samples a few.", "anchors": ["guessit/rules/common/quantity.py: Quantity, Size, BitRate, FrameRate"]}
{"id": "C23", "title": "Dates found are plausible and located", "statement": "Whatever the date parser returns, search_date only returns dates whose year is in 1920..2029, with the span of the matched text, from the first pattern/interpretation that gives one; explicit year_first/day_first options are passed unchanged; without a plausible interpretation nothing is returned.", "quantifier": "every string, every behaviour of the regex engine and of the date parser", "why_tests_cant": "The third-party parser is arbitrary.", "anchors": ["guessit/rules/common/date.py: search_date, valid_year, _guess_day_first_parameter"]}
{"id": "C24", "title": "UUID detection", "statement": "guess_idnumber returns exactly the spans of the maximal runs of at least 20 characters in [A-Za-z0-9-] whose character-class switches exceed 40% of the length and whose letter changes exceed 40% of the letters (or that have no letter), in order.", "quantifier": "every string", "why_tests_cant": "The inputs are unbounded (any string / any nesting / any history); a test only samples a few.", "anchors": ["guessit/rules/properties/crc.py: guess_idnumber"]}
{"id": "C25", "title": "Alternation patterns", "statement": "build_or_pattern over a non-empty list is '(?:' or '(?P<name>' followed by the alternatives joined with '|' and ')'; when the alternatives have balanced parentheses so has the result. Limit: for an empty list the result is the unbalanced ')' (refuted by witness).", "quantifier": "every list of patterns", "why_tests_cant": "The inputs are unbounded (any string / any nesting / any history); a test only samples a few.", "anchors": ["guessit/reutils.py: build_or_pattern"]}
{"id": "C26", "title": "Configured patterns are registered faithfully", "statement": "load_config_patterns registers, in configuration order, for every entry its regex patterns then its string patterns, with the entry's own options overriding the defaults and type-specific defaults overriding both, value = the entry key unless it starts with '_'; entries with 'callable' call it once and register nothing else; a validator, conflict solver or formatter given as text is replaced by the object it names, also inside a dict, and no other option is; 're:' strings become regexes without the prefix. Limit: loading the same configuration object a second time registers something else, because the first load changes it (refuted by witness).", "quantifier": "every pattern configuration", "why_tests_cant": "The inputs are unbounded (any string / any nesting / any history); a test only samples a few.", "anchors": ["guessit/config/__init__.py: load_config_patterns, load_patterns, _build_entry_decl, _process_option"]}
{"id": "C27", "title": "Expected titles/groups are located", "statement": "For every plain expected text, every reported span has the length of the expected text and covers a portion of the input equal to it up to case and up to separator characters; the spans of one expected text do not overlap and no non-overlapping occurrence is missed. Limits: a regex after a plain text is searched in the separator-normalised input (order dependence, refuted by witness) and an empty expected text makes the search diverge.", "quantifier": "every input string and expected list", "why_tests_cant": "The inputs are unbounded (any string / any nesting / any history); a test only samples a few.", "anchors": ["guessit/rules/common/expected.py: build_expected_function"]}
{"id": "C28", "title": "Release group cleaning", "statement": "The release group kept by clean_groupname is a contiguous part of the text it is given; a forbidden word at the start followed by a separator is dropped and the rest kept; a text that is only a forbidden word is dropped. Limits: a forbidden word at the end truncates the name to the length of the forbidden word instead of dropping it ('MyGroup by' gives 'My'), and the separators around the kept text are not always stripped (both refuted by witnesses). A name between brackets on both sides keeps them; one with a bracket on one side only loses it.", "quantifier": "every string and configuration", "why_tests_cant": "The inputs are unbounded (any string / any nesting / any history); a test only samples a few.", "anchors": ["guessit/rules/properties/release_group.py: clean_groupname"]}
{"id": "C29", "title": "Most valuable path part first", "statement": "marker_sorted returns a permutation of the path parts, sorted by decreasing number of distinct property names found in them, ties broken by the position in the given list, later positions first; the order is a strict total order, hence the result is unique.", "quantifier": "every list of distinct path parts and every match set", "why_tests_cant": "The inputs are unbounded (any string / any nesting / any history); a test only samples a few.", "anchors": ["guessit/rules/common/comparators.py: marker_sorted, marker_comparator, marker_weight"]}
{"id": "C30", "title": "Conflicting values across path parts are resolved", "statement": "After RemoveAmbiguous, for every property the values left are those found in the most valuable path part that has the property; a match is removed iff its property occurs in an earlier (more valuable) part and its value is not among those values.", "quantifier": "every match set and path part order", "why_tests_cant": "The inputs are unbounded (any string / any nesting / any history); a test only samples a few.", "anchors": ["guessit/rules/processors.py: RemoveAmbiguous"]}
{"id": "C31", "title": "Conflicting season/episode numbers: which part wins", "statement": "For season and episode the part containing an SxxExx form wins; otherwise the leftmost part containing the property wins. The documented 'rightmost filepart' is refuted by witness.", "quantifier": "every match set and path", "why_tests_cant": "The inputs are unbounded (any string / any nesting / any history); a test only samples a few.", "anchors": ["guessit/rules/processors.py: RemoveLessSpecificSeasonEpisode"]}
{"id": "C32", "title": "Equal titles with different case", "statement": "_preferred_string returns one of its two arguments and, on arguments equal up to case, never raises. A title-cased value given first wins over a non title-cased one; given second it wins unless it is in capitals and the first is not. A value not in capitals given first wins over one in capitals; given second it wins if no word of the first one is title-cased. Limits (witnesses): the choice depends on the order of the arguments, 'AB C' wins over 'ab c', 'a b' wins over 'A B'.", "quantifier": "every pair of strings", "why_tests_cant": "The inputs are unbounded (any string / any nesting / any history); a test only samples a few.", "anchors": ["guessit/rules/processors.py: _preferred_string, _count_title_words"]}
{"id": "C33", "title": "Year/season derivation", "statement": "SeasonYear adds year values exactly for the seasons that are valid years when no year was found; YearSeason adds season values exactly for the years when no season but an episode was found; nothing else changes. Limit: they ignore excludes, so an excluded 'year' (resp. 'season') can still be output (refuted by witness).", "quantifier": "every match set", "why_tests_cant": "The inputs are unbounded (any string / any nesting / any history); a test only samples a few.", "anchors": ["guessit/rules/processors.py: SeasonYear, YearSeason"]}
{"id": "C34", "title": "Type decision", "statement": "Exactly one type is added: the 'type' option when given, else 'episode' iff there is an episode, season, absolute_episode or episode_details, or (no film and (no year and (a date or a bonus) or (crc32 and an anime release group))), else 'movie'. A given type option is passed through unvalidated.", "quantifier": "every match set and type option", "why_tests_cant": "The inputs are unbounded (any string / any nesting / any history); a test only samples a few.", "anchors": ["guessit/rules/properties/type.py: TypeProcessor, _type"]}
{"id": "C35", "title": "Which year is kept", "statement": "When a path part has several years: if some are in brackets and some not, exactly the first bracketed one is kept; if none is in brackets exactly the second is kept; if all are in brackets all are kept. Path parts with at most one year are untouched.", "quantifier": "every match set", "why_tests_cant": "The inputs are unbounded (any string / any nesting / any history); a test only samples a few.", "anchors": ["guessit/rules/properties/date.py: KeepMarkedYearInFilepart"]}
{"id": "C36", "title": "Episode/season ranges are completed", "statement": "After the range rules, the episode (season) numbers are those of the text and, for two numbers p, x joined by a range separator (matched between them, or being the text between their patterns), all the numbers strictly between them, each once at the place of x; if the numbers of the text grow, the list is strictly increasing. Matched separators are removed and other matches are left. Cap.102_104 gives 2, 3, 4. (Limits: a dash with separators around it between two patterns joins nothing; the length of a range between two patterns is not bounded.)", "quantifier": "every text, every list of numbers, separators and other matches", "why_tests_cant": "The inputs are unbounded (any numbers, any list of matches); a test only samples a few.", "anchors": ["guessit/rules/properties/episodes.py: AbstractSeparatorRange, EpisodeNumberSeparatorRange, SeasonSeparatorRange, SeePatternRange"]}
{"id": "C37", "title": "Episode lists must be ordered", "statement": "A season/episode list is accepted if and only if its distinct numbers are in natural order, and, unless a strong discrete separator is just before one of its numbers, any two neighbour numbers with a weak separator just before the second grow by at most max_range_gap+1. A chain never holds two neighbour numbers more than the maximum range apart, and holds all its parts when there are none. (Limit: a number may come back after a greater one.)", "quantifier": "every list of numbers and separators, every list of chain parts", "why_tests_cant": "The inputs are unbounded; a test only samples a few lists.", "anchors": ["guessit/rules/properties/episodes.py: ordering_validator, is_consecutive, episodes_season_chain_breaker"]}
{"id": "C38", "title": "Screen size values", "statement": "A screen size with only a height becomes height+scan type ('p' by default); with width and height it becomes that form iff the height is standard and the aspect ratio is strictly within limits, else 'WxH'; an aspect ratio is added iff both are known and it is not excluded; after ScreenSizeOnlyOne a path part with several different values keeps only the last. The computation fails exactly when a size has a zero height and a width.", "quantifier": "every match set, width, height and configuration", "why_tests_cant": "The inputs are unbounded (any string / any nesting / any history); a test only samples a few.", "anchors": ["guessit/rules/properties/screen_size.py: PostProcessScreenSize, ScreenSizeOnlyOne"]}
{"id": "C39", "title": "Proper count", "statement": "proper_count is the sum, over the Proper matches with distinct cleaned text, of their explicit count, or 2 for 'real' ones, or 1; none is added without Proper match. Limit: its start offset is not always the smallest one: a Proper starting at offset 0 is forgotten (refuted by witness).", "quantifier": "every match set", "why_tests_cant": "The inputs are unbounded (any string / any nesting / any history); a test only samples a few.", "anchors": ["guessit/rules/properties/other.py: ProperCountRule"]}
{"id": "C40", "title": "Neighbour validation", "statement": "ValidateHasNeighbor removes every tagged match without neighbour that precedes the first tagged match having one. The documented 'every tagged match is validated' is refuted: validation stops at the first valid match.", "quantifier": "every match set", "why_tests_cant": "The inputs are unbounded (any string / any nesting / any history); a test only samples a few.", "anchors": ["guessit/rules/properties/other.py: ValidateHasNeighbor, ValidateHasNeighborBefore, ValidateHasNeighborAfter"]}
{"id": "C41", "title": "Bit rate classification", "statement": "After BitRateTypeRule no disabled bit-rate property is left; a bit rate is renamed to video_bit_rate iff it directly follows a source/screen size/video codec and is not a small one directly followed by an audio codec. Limit: excluding audio_bit_rate also removes what would be video_bit_rate (refuted by witness).", "quantifier": "every match set and includes/excludes", "why_tests_cant": "The inputs are unbounded (any string / any nesting / any history); a test only samples a few.", "anchors": ["guessit/rules/properties/bit_rate.py: BitRateTypeRule"]}
{"id": "C42", "title": "Country spans", "statement": "Each country match is a non-common word recognised as an allowed country, and when the input has no leading whitespace its span is exactly where this word is in the input. With leading whitespace the span is shifted (refuted by witness). A synonym configured for a code babelfish does not know makes the search fail (witness).", "quantifier": "every input string, every country database", "why_tests_cant": "The inputs are unbounded (any string / any nesting / any history); a test only samples a few.", "anchors": ["guessit/rules/properties/country.py: CountryFinder.find"]}
{"id": "C43", "title": "Undetermined and multiple languages", "statement": "Language detection reports regular languages always; 'und' matches of a property only if it has no regular one; 'mul' matches only if the property has a regular match or no undetermined one; nothing else is reported, and only allowed languages are. A language is found at the word, joined words or affixed word that spells it (prefixes and suffixes marking subtitles included).", "quantifier": "every list of candidate words and every language database", "why_tests_cant": "The inputs are unbounded (any string / any nesting / any history); a test only samples a few.", "anchors": ["guessit/rules/properties/language.py: LanguageFinder.find, parse_language, to_rebulk_match"]}
{"id": "C44", "title": "Result dictionary", "statement": "The result has exactly the names of the public matches as keys, in order of first occurrence; a name with one distinct value maps to it, with several to the list of distinct values in order; single_value keeps the first only; enforce_list always gives a list; input_string is added iff requested.", "quantifier": "every match set", "why_tests_cant": "The inputs are unbounded (any string / any nesting / any history); a test only samples a few.", "anchors": ["guessit/api.py: GuessItApi.guessit"]}
{"id": "C45", "title": "Suggested expected titles", "statement": "suggested_expected returns, in order, exactly the given titles whose guess does not consist of a title plus exactly one other property.", "quantifier": "every list of titles, every guess function", "why_tests_cant": "The inputs are unbounded (any string / any nesting / any history); a test only samples a few.", "anchors": ["guessit/api.py: GuessItApi.suggested_expected"]}
{"id": "C46", "title": "Command line: every filename is guessed once", "statement": "main guesses every non-empty filename given on the command line then every non-blank stripped line of the input file (LF, CR or CR LF), once each, in order, each from the state the previous guess left, and stops at the first that raises; what is printed for each depends only on show_property, json and yaml in that order of precedence; yaml is ignored with a warning when the library is missing; help is printed iff nothing else was asked (no version, properties, values or filename). Limit: a name of spaces only is guessed as an argument but skipped as a line.", "quantifier": "every options value and input file content", "why_tests_cant": "The inputs are unbounded (any string / any nesting / any history); a test only samples a few.", "anchors": ["guessit/__main__.py: main, guess_filename"]}
{"id": "C47", "title": "Byte input gives byte output", "statement": "For a bytes input that is ASCII, guessit guesses the decoded string and every string value of the result becomes the ASCII bytes of that value, other values unchanged (the input_string entry, when requested, stays text); a non-ASCII byte input never yields a result; any internal failure is reported as GuessitException carrying the input and options, the only other exception being argparse's SystemExit.", "quantifier": "every input, every engine behaviour", "why_tests_cant": "The inputs are unbounded (any string / any nesting / any history); a test only samples a few.", "anchors": ["guessit/api.py: GuessItApi.guessit, GuessitException"]}
{"id": "C48", "title": "properties() listing", "statement": "properties() returns the property names sorted by code points, each with its values sorted by their text, 'count' left out, then season_count and episode_count, both with the values of 'count', at the end. It raises KeyError exactly when the enabled patterns have no 'count'. Limit: because the counts come last the names as a whole are not in order (refuted by witness).", "quantifier": "every introspection result", "why_tests_cant": "The inputs are unbounded (any string / any nesting / any history); a test only samples a few.", "anchors": ["guessit/api.py: GuessItApi.properties", "guessit/rules/__init__.py: rebulk_builder.customize_properties"]}
{"id": "C49", "title": "Bracket groups equal to a path part are not cropped (limit)", "statement": "When at most one bracket group covers a whole path part, title detection crops holes by exactly the other groups. With two consecutive such groups the second is still used (refuted by witness: list modified while iterated).", "quantifier": "every marker set", "why_tests_cant": "The inputs are unbounded (any string / any nesting / any history); a test only samples a few.", "anchors": ["guessit/rules/properties/title.py: TitleBaseRule.holes_process"]}
{"id": "C50", "title": "Episode titles of movies", "statement": "After RenameEpisodeTitleWhenMovieType, if some episode_title is not alternative-replaced and no 'type' is episode, no episode_title is left and each became an alternative_title with same span and value; otherwise nothing changes. Consequence: excluding 'type' renames the episode title of an episode (refuted 'independence').", "quantifier": "every match set", "why_tests_cant": "The inputs are unbounded (any string / any nesting / any history); a test only samples a few.", "anchors": ["guessit/rules/properties/episode_title.py: RenameEpisodeTitleWhenMovieType"]}
{"id": "C51", "title": "Trimming a match", "statement": "match_processors.strip shrinks the match to its text without leading/trailing separators when the match contains a non-separator; StripSeparators moves each raw bound inwards by at most two, only over separators, keeps a non-empty text, and leaves on each side either no separator or one kept because the third character is a separator too. Limits: an all-separator match reaching the end of the input, resp. a raw text of one or two separators (exactly these), raises IndexError.", "quantifier": "every input string and span", "why_tests_cant": "The inputs are unbounded (any string / any nesting / any history); a test only samples a few.", "anchors": ["guessit/rules/match_processors.py: strip", "guessit/rules/processors.py: StripSeparators"]}
{"id": "C52", "title": "Validator combinators", "statement": "and_/or_ of validators is their conjunction/disjunction, evaluated left to right and stopping at the first decisive one; and_() accepts everything, or_() nothing.", "quantifier": "every list of validators", "why_tests_cant": "The inputs are unbounded (any string / any nesting / any history); a test only samples a few.", "anchors": ["guessit/rules/common/validators.py: and_, or_"]}
{"id": "C53", "title": "Independent options stay independent unless objects are shared", "statement": "When no list or dict object is reachable twice from the layers, merging the objects gives exactly the merge of their contents (or the same error) in a result that shares nothing, and one more layer leaves the contents of every option it does not mention unchanged. If one list object is the value of two options of the first layer (e.g. YAML anchor/alias in a configuration file), extending one of them in a later layer also extends the other (refuted by witness).", "quantifier": "all object graphs without shared objects, all layers, all nesting depths below the recursion limit", "why_tests_cant": "depends on the sharing between objects, which ranges over all graphs", "anchors": ["guessit/options.py:merge_options", "guessit/options.py:merge_option_value"]}
{"id": "C54", "title": "Matches touching brackets include them", "statement": "EnlargeGroupMatches extends every match starting just after the opening (resp. ending just before the closing) bracket of a group over this bracket, on that side only, keeping its raw text, name, value and tags; all other matches are unchanged and none is lost or added.", "quantifier": "for every list of distinct matches and every list of group markers with distinct starts and ends", "why_tests_cant": "depends on all combinations of matches and groups, including matches touching both brackets", "anchors": ["guessit/rules/processors.py:EnlargeGroupMatches"]}
{"id": "C55", "title": "Validation of 'other' values", "statement": "A screener is dropped iff it does not directly follow (separators only) a match made by a source; a mux iff the closest match before is not made by a source; hardcoded subtitles iff no subtitle language is adjacent to them; a value tagged 'at-end' iff unrecognised text or a match that is neither 'other' nor 'container' follows it in its path part; 'real' iff nothing is recognised before it in its path part. Everything else is kept in order, and the internal name 'another' never survives.", "quantifier": "every input string, marker set and match set", "why_tests_cant": "The inputs are unbounded (any string, any set of matches); a test only samples a few.", "anchors": ["guessit/rules/properties/other.py: ValidateScreenerRule, ValidateMuxRule, ValidateHardcodedSubs, ValidateAtEnd, ValidateReal, RenameAnotherToOther"]}
{"id": "C56", "title": "Rules on languages and subtitle languages", "statement": "After the languages are found: a language announced by a subtitle prefix (directly before it, directly before its bracket group, or before it in its group), or directly followed by a subtitle suffix, or directly before the extension of a subtitle file, is reported as subtitle_language and not as language; prefixes and suffixes that announce nothing are dropped; a language that is a common word is dropped unless its group holds only languages; an undetermined language next to a language is dropped; with language excluded no language is left. Nothing else changes, apart from the matches overlapping a converted language.", "quantifier": "all inputs, all sets of matches and bracket groups meeting the stated disjointness hypotheses, all lists of common words", "why_tests_cant": "The rules depend on the neighbourhood of every match: the space of layouts of prefixes, groups and languages is unbounded.", "anchors": ["guessit/rules/properties/language.py: SubtitlePrefixLanguageRule", "guessit/rules/properties/language.py: SubtitleSuffixLanguageRule", "guessit/rules/properties/language.py: SubtitleExtensionRule", "guessit/rules/properties/language.py: RemoveLanguage", "guessit/rules/properties/language.py: RemoveInvalidLanguages", "guessit/rules/properties/language.py: RemoveUndeterminedLanguages"]}
{"id": "C57", "title": "Which text becomes a title", "statement": "After the position-based title rule: the matches of the input are kept, except some languages, countries and episode details that turn out to be words of a title; every new match is a title, alternative_title or (only below a season directory) episode_title, lies in one path part, has as value the non-empty cleaned-up text of its span, overlaps a bracket group only when that group fills a path part, and overlaps no kept match except a partly covered episode detail when the type is episode or a weak match when a directory is a season. If no title is expected and some path part has uncovered text outside brackets there is a title afterwards, and every path part with a year and such text gives one. Titles come from path parts with a year or from the best path part with free text. Titles are split at every title separator but a dash inside a word. When matches are disjoint, nested in markers and hold text, the rule never fails and every significant character of a dropped match is in a title.", "quantifier": "every input text, every set of matches and markers inside it (pairwise distinct, non-empty), every context", "why_tests_cant": "ranges over all arrangements of matches, holes, groups and path parts; tests only sample file names", "anchors": ["guessit/rules/properties/title.py:TitleBaseRule", "guessit/rules/properties/title.py:TitleFromPosition"]}
{"id": "C58", "title": "Titles next to a year are preferred", "statement": "When some title lies in a path part that has a year, titles whose value differs from all of those are dropped (only titles in parts whose first year is in brackets count, if there are any); the preferred titles are tagged equivalent-ignore and nothing else changes.", "quantifier": "every input text, every set of matches and markers with disjoint path parts and disjoint years", "why_tests_cant": "ranges over all placements of titles, years and groups", "anchors": ["guessit/rules/properties/title.py:PreferTitleWithYear"]}
{"id": "C59", "title": "Which text becomes an episode title", "statement": "When titles of different values were found, exactly those right after an episode number become episode_title. If there is no episode_title, text of a path part that has a title, right after a number, date, title or year (or anywhere if the name has a checksum), outside brackets and matches, becomes an episode_title with its cleaned-up text as value; existing matches are kept but languages and countries that turn out to be words of it. If there is still none, the first alternative_title becomes the episode_title iff it follows a title (only separators between) that itself follows a number, date, title or year or the name has a checksum.", "quantifier": "every input text, every set of matches and markers inside it, every context", "why_tests_cant": "ranges over all arrangements of matches and text", "anchors": ["guessit/rules/properties/episode_title.py:TitleToEpisodeTitle", "guessit/rules/properties/episode_title.py:EpisodeTitleFromPosition", "guessit/rules/properties/episode_title.py:AlternativeTitleReplace"]}
{"id": "C60", "title": "Titles taken from the folders of an episode", "statement": "When the file name has an episode number, its folder (or, for the two-level rule, the folder or the file name) a season number and no folder title was found, the first stretch of available text of the series folder (free of matches but weak episodes and possible words, cut at - + / \\ |) is added, cleaned, as a title; in every other case nothing changes. Limit (proved): both rules may add a title for one name.", "quantifier": "every input string, every set of matches and markers inside it, every number of folders", "why_tests_cant": "any folder structure and any set of matches; tests sample a few paths", "anchors": ["guessit/rules/properties/episode_title.py: Filepart3EpisodeTitle, Filepart2EpisodeTitle"]}
{"id": "C61", "title": "Film and bonus titles", "statement": "With a film (bonus) number at most one film_title (bonus_title) is added; it is the cleaned text of the first stretch without matches between the start of the file part and the film number (between the bonus number and the end of the file part); text right at the start (right after the number) is always found; without a number nothing changes. Limit (proved): below a folder a film title after another match at the start of the file part is lost.", "quantifier": "every input string, every set of matches and markers inside it", "why_tests_cant": "any string and any set of matches", "anchors": ["guessit/rules/properties/film.py: FilmTitleRule", "guessit/rules/properties/bonus.py: BonusTitleRule"]}
{"id": "C62", "title": "Years and parts that are words of an episode title are not properties", "statement": "A part or year match is removed exactly when, in its file part, the last public match before it is an episode, season, date, title or year (or a count of them), the first public match after it is a technical property, and there is free text beside it in the same brackets (after it, for a part). Everything else is kept.", "quantifier": "every input string, every set of matches and markers inside it", "why_tests_cant": "any string and any set of matches", "anchors": ["guessit/rules/properties/episode_title.py: RemoveConflictsWithEpisodeTitle"]}
{"id": "C63", "title": "Weak episode numbers give way to better evidence, and only then", "statement": "A number taken for an episode only because it looks like one (a weak episode) is dropped from a path component exactly when: a public SxxExx match lies in the same component (unless the number is of the weak pattern and starts the component); or the first weak number of the component directly follows a technical match (codec, screen size, source, streaming service, audio profile or channels, video profile) with nothing but separators or other matches between; or, unless the type is given as episode, some component holds a year, and the number neither belongs to a match with several episodes or next to the year nor is marked as anime (what overlaps the year goes too). No other match is removed by these rules, and a technical word that is also an episode word turns the number into a public episode starting at that word.", "quantifier": "every input text, every store of matches with distinct non-empty matches inside the text, every set of path markers", "why_tests_cant": "the outcome depends on all the other matches of the component, on their order and on ties; tests only sample a few names", "anchors": ["guessit/rules/properties/episodes.py:RemoveWeakIfSxxExx", "guessit/rules/properties/episodes.py:RemoveWeak", "guessit/rules/properties/episodes.py:RemoveWeakIfMovie"]}
{"id": "C64", "title": "Details, versions and single digits are kept only in context", "statement": "An episode detail stays exactly when separators (or the ends of the text) surround it or the match just before or just after it is a season or an episode; a version stays exactly when an episode is just before it or separators surround its whole pattern; an episode of a single character stays unless it lies in a bracketed group that holds no title. Nothing else is removed by these rules.", "quantifier": "every input text, store of matches and markers", "why_tests_cant": "neighbourhood depends on the whole store of matches", "anchors": ["guessit/rules/properties/episodes.py:EpisodeDetailValidator", "guessit/rules/properties/episodes.py:VersionValidator", "guessit/rules/properties/episodes.py:EpisodeSingleDigitValidator"]}
{"id": "C65", "title": "A count is named after what it counts", "statement": "A count whose just-preceding match is an episode (season) is reported as episode_count (season_count) with the same span and value; any other count disappears; no other match changes.", "quantifier": "every store of distinct non-empty matches where no count was renamed yet and no season and episode end at the same place", "why_tests_cant": "must hold whatever the other matches are", "anchors": ["guessit/rules/properties/episodes.py:CountValidator"]}
{"id": "C66", "title": "Of duplicate weak numbers the last one stays, and a small number apart from a range goes", "statement": "In each path component, of the weak-duplicate matches with the same name and pattern exactly the last one in the text is kept. Of the public weak episode numbers, the least one is removed (with its parents) exactly when it is under 10, it is not the only value, and its successor is not among the values; otherwise nothing is removed.", "quantifier": "every input text, store of distinct matches, path markers, pattern assignment and parent structure", "why_tests_cant": "depends on all the numbers found, their order and repetitions", "anchors": ["guessit/rules/properties/episodes.py:RemoveWeakDuplicate", "guessit/rules/properties/episodes.py:RemoveDetachedEpisodeNumber"]}
{"id": "C67", "title": "A number with a d marker is a disc", "statement": "Every episode found in a pattern whose episode marker is the letter d (either case) is reported as disc, its marker as (private) discMarker, and nothing else changes; when disc is excluded, those markers and everything of their patterns disappear instead, and nothing else.", "quantifier": "every store of distinct matches, every parent/children structure whose children are the matches of the store, every option set", "why_tests_cant": "must hold whatever the number of markers, of numbers per pattern, and whichever were removed before", "anchors": ["guessit/rules/properties/episodes.py:RenameToDiscMatch"]}
{"id": "C68", "title": "After a marked season or episode, inconsistent ones are dropped with their whole pattern", "statement": "In a path component whose first public SxxExx season belongs to a pattern with an episode, every later public season that is not SxxExx or whose pattern has no episode is removed together with its pattern; after the first public SxxExx episode, every later public episode whose prefix (the marker or separator just before it) differs from the prefix of the first one, both being present, is removed with its pattern. Nothing else is removed.", "quantifier": "every input text, store of matches, markers and parent/children structure", "why_tests_cant": "depends on all seasons, episodes and prefixes of the component", "anchors": ["guessit/rules/properties/episodes.py:RemoveInvalidSeason", "guessit/rules/properties/episodes.py:RemoveInvalidEpisode"]}
{"id": "C69", "title": "Conflicts between a number and another match are decided by their kinds", "statement": "When a season or episode overlaps another match of another name, the number is discarded exactly when the other is a codec, a container, a date, a year (for an episode), non-weak channels (if the number has no marker), a screen size that is not a bare number, or a number of another pattern, not both weak, and this one is weak or its pattern contains an x; the other is discarded exactly in the symmetric weak case; otherwise the default (longest) rule decides. If only one of a season and an episode is weak, that one is discarded whichever is examined first (but when both are, the one examined first is: refuted in general).", "quantifier": "every pair of matches, input text and parent structure", "why_tests_cant": "the decision must not depend on the order in which conflicts are met, which tests do not vary", "anchors": ["guessit/rules/properties/episodes.py:season_episode_conflict_solver"]}
{"id": "C70", "title": "Three-digit numbers are read as an absolute number in an anime and split otherwise", "statement": "An anime is recognised exactly by a version or crc32 match, a group with a screen size, or a group without any match at the start of a component. In an anime, in each component with a three-digit number, the readings split into season and episode are removed and the other episodes are tagged anime. Otherwise, in each component with a split reading, the three-digit readings are removed unless one of them is in a range or the component has a SxxExx match; those in a range are kept, cleared of their tags, and the split readings of this component and of the following components with a split reading are removed. When the type is movie nothing changes.", "quantifier": "every input text, store of matches, markers and parent/children structure", "why_tests_cant": "the rule carries a state from one path component to the next, so all sequences of components matter", "anchors": ["guessit/rules/properties/episodes.py:WeakConflictSolver"]}
{"id": "C71", "title": "Absolute episode numbers are told from relative ones", "statement": "When exactly two patterns have several episodes, with as many episodes left each and nothing but separators or matches between them, exactly the episodes of the one with the greater first number become absolute_episode; if a condition fails or the first numbers are equal nothing changes. When there are not exactly two such patterns, a three-digit number that starts a path component having an episode that ends after its first character is removed if such an episode is SxxExx, and becomes absolute_episode otherwise (so a lone number at the start is renamed too).", "quantifier": "every input text, store of matches, markers and parent/children structure", "why_tests_cant": "depends on the number of patterns and on all the episodes", "anchors": ["guessit/rules/properties/episodes.py:RenameToAbsoluteEpisode"]}
{"id": "C72", "title": "An audio property stays only where another audio property or a separator bounds it", "statement": "After validation an audio codec, profile or channels match is kept exactly if on each side there is a separator (or the end of the name) or a match of an audio property. A profile of a codec is kept exactly if that codec overlaps it or is the closest match before or after it; a profile that is kept removes the matches that overlap it. An 'other' match at the span of a 'High Quality' audio profile is removed. Weak channels stay only just after an audio codec. Nothing else is removed, and excluding the property switches each rule off. In a conflict the codec gives way to neither: the profile or the channels are always the ones dropped, in whichever order the two matches come.", "quantifier": "every input text, store of distinct non-empty matches and exclusion options", "why_tests_cant": "depends on all the matches around each audio match", "anchors": ["guessit/rules/properties/audio_codec.py:AudioValidatorRule", "AudioProfileRule", "HqConflictRule", "AudioChannelsValidatorRule", "audio_codec_priority"]}
{"id": "C73", "title": "A video codec stays only between separators or declared neighbours, a video profile only next to a codec", "statement": "A video_codec match is kept exactly if each side is a separator or is covered by a match tagged as codec prefix (the character before it) or codec suffix (the second character after it: the suffix that really touches the codec is not seen, a proved limit). A ruled video_profile is kept exactly if a video_codec overlaps it or is the closest match before or after. Nothing else is removed, and excluding the property switches each rule off.", "quantifier": "every input text, store of distinct matches and exclusion options", "why_tests_cant": "depends on all the matches around each codec", "anchors": ["guessit/rules/properties/video_codec.py:ValidateVideoCodec", "VideoProfileRule"]}
{"id": "C74", "title": "A streaming service is reported only next to a matching technical property", "statement": "A streaming_service match is kept exactly if its pattern has an 'other' part, or a match tagged as service suffix is the closest one after it with nothing but separators or matches between and a separator before the service, or the symmetric condition with a prefix. A Criterion edition is removed exactly when a valid Comedy Central service is found. An 'other' match of the kind that goes with services is removed, with its whole pattern, exactly when it touches text on a side where no service it is made for is adjacent. Nothing else is removed.", "quantifier": "every input text, store of distinct non-empty matches and parent/children structure", "why_tests_cant": "depends on the closest matches on both sides and on the text between", "anchors": ["guessit/rules/properties/streaming_service.py:ValidateStreamingService", "guessit/rules/properties/other.py:ValidateStreamingServiceNeighbor"]}
{"id": "C75", "title": "A source stays only between separators or declared neighbours; a weak WEB gives way; Ultra HD Blu-ray is recognised", "statement": "A source pattern is kept exactly if, in every path component it is in, each side is a separator or a declared neighbour (a prefix that starts at least three characters before the source; shorter touching prefixes are not seen, a proved limit). A weak source is removed exactly if another source ends after it in its component and there is text before it in the component. Nothing else is removed. A Blu-ray source that is the only one of the name becomes Ultra HD Blu-ray exactly if the closest Ultra HD match before it, or the closest one after it, in its component is separated from it by nothing but separators, screen sizes, colour depths and declared neighbours, or if the component has a 2160p; the Ultra HD match is then not reported any more (even when it is far and 2160p decided, a proved limit). Whatever the sources, the rule does nothing but turn Blu-ray sources into Ultra HD ones and hide Ultra HD matches.", "quantifier": "every input text, store of matches, markers and parent/children structure", "why_tests_cant": "depends on all the matches around each source", "anchors": ["guessit/rules/properties/source.py:ValidateSourcePrefixSuffix", "ValidateWeakSource", "UltraHdBlurayRule"]}
{"id": "C76", "title": "A text counts as a whole number exactly if it is digits, possibly signed, grouped by single underscores, with spaces around", "statement": "The text tests used all over the rules (is this a number?) accept a text exactly if it is, up to surrounding white space, an optional sign followed by groups of ASCII digits joined by single underscores; the value is the decimal value of the digits with the sign, and is unique. A season or episode numeral is accepted exactly if its text is such a number or it stands between separators (a roman numeral or a number word glued to other text is refused).", "quantifier": "every ASCII text, every match", "why_tests_cant": "ranges over all texts", "anchors": ["guessit/rules/common/validators.py:int_coercable", "guessit/rules/properties/episodes.py:validate_roman"]}
{"id": "C77", "title": "Without a known release group, the first free brackets of each path component give one", "statement": "When no release group is known, exactly the first brackets of each path component that contain some text, which is not a number, and no match but weak languages become a release group (at the place of the brackets, with the text between them as value); the weak languages in them are removed; nothing else changes. When a release group is known nothing changes.", "quantifier": "every input text, store of matches and markers", "why_tests_cant": "depends on all the matches and on all the brackets", "anchors": ["guessit/rules/properties/release_group.py:AnimeReleaseGroup"]}
{"id": "C78", "title": "Scene release groups", "statement": "After the titles are found, in each path component without a release group the text of the last uncovered stretch that holds something (the character after the component included, titles of the component other than the first counted as uncovered) becomes a release group if the closest match before it, only separators apart, is a technical word or is tagged as introducing groups, and the cleaned text is not a number; it takes the span inside the brackets it is in when both clean to the same text. Only titles other than the first of the component that it overlaps go; nothing else changes.", "quantifier": "every text, set of matches and markers inside it, every name formatter that maps the empty text to itself", "why_tests_cant": "it relates all matches, holes and brackets of arbitrary names", "anchors": ["guessit/rules/properties/release_group.py: SceneReleaseGroup.when, is_previous_match"]}
{"id": "C79", "title": "Dash-separated release groups", "statement": "When no release group is known, the first path component with a dash-separated one gives it: at the end of the component (its container aside) either the match that ends there (visible, without dash or outer space) when just a dash separates it from the visible match before, or a dash and a word that nothing covers right after such a match, provided that going back from match to match two of them are separated by just a dot and that no other visible match shares brackets with it; failing that, at the start, an uncovered word of two characters or more, not in brackets, followed by an uncovered text with one dash, a dot and no space. The matches that cover the ends of a zone at the end go; nothing else changes, and nothing at all when a release group is already known.", "quantifier": "every text, set of matches and markers inside it, every name formatter", "why_tests_cant": "it relates all the matches, holes and brackets of arbitrary names, through an unbounded walk back over the matches", "anchors": ["guessit/rules/properties/release_group.py: DashSeparatedReleaseGroup.is_valid, detect, when"]}
{"id": "C80", "title": "Websites give way to titles, prefixes need a website", "statement": "A website is dropped exactly if it starts with no known subdomain or prefix, one of the matches that come next is a season, an episode or a year, and it touches no brackets. A word that announces a website is kept exactly if one of the matches that come next is a website and only separators and matches lie between. Nothing else changes.", "quantifier": "every text and every set of matches and markers", "why_tests_cant": "arbitrary neighbouring matches and holes", "anchors": ["guessit/rules/properties/website.py: PreferTitleOverWebsite, ValidateWebsitePrefix"]}
{"id": "C81", "title": "Equivalent values", "statement": "The equivalence step changes nothing but the case of text values (never of a match marked to be ignored), and the case it gives is one that was written in the name or was the value of a match; after the matches it only adds equivalent matches, each for a maximal unmatched stretch of a path component whose clean text is, ignoring case, the value of a match, and with the first property that has this value. No such stretch is missed. (The equivalents need not agree in case with each other: C81_limit.)", "quantifier": "every input, every path components, every list of matches inside the input without empty text values, every order of the property names", "why_tests_cant": "values are rewritten while the gaps are visited, so what a gap gets depends on the order of the components, names and gaps; the frame property ranges over all of them", "anchors": ["guessit/rules/processors.py:EquivalentHoles", "guessit/rules/processors.py:_preferred_string"]}
{"id": "C82", "title": "Every match is a non-empty zone of the input", "statement": "Whatever rules take place, in whatever order and however often, every match they leave lies inside the input and is not empty: its start is before its end and its end is at most the length of the input. Only the type, the mimetype (placed at the end) and private separators may have no length. Parts of matches (children) have a length and are inside the input too.", "quantifier": "every input, context (includes, excludes, type), markers, matches from the patterns, and every sequence of the ~75 rules with any configuration arguments", "why_tests_cant": "the bounds must survive every interleaving of the rules on every input; a test runs one order on one name", "anchors": ["guessit/rules/__init__.py", "guessit/rules/processors.py", "guessit/rules/properties/*.py (all rules)"]}
{"id": "C83", "title": "Excluded properties do not come back through rules", "statement": "Every property name in the result was given by a pattern, or belongs to a property that the options do not disable, or is one of a fixed list of names the rules do not check: episode_count, season_count, absolute_episode, year, season; title and alternative_title when episode_title is enabled, episode_title when title is enabled, bonus_title when bonus is enabled, proper_count when other is enabled, episode when a pattern gave a weak episode. Each of the listed leaks was shown to be possible (C83_limit) apart from absolute_episode and episode.", "quantifier": "every input, includes and excludes, markers, matches, and every sequence of rules", "why_tests_cant": "needs all the rules to be considered on all matches for all options", "anchors": ["guessit/rules/common/pattern.py:is_disabled", "guessit/rules/properties/*.py (all rules)", "guessit/rules/processors.py"]}
{"id": "C84", "title": "Years and checksums: exactly the lone ones", "statement": "Before conflicts are solved, a year is found at a position exactly when four ASCII digits whose value is 1920 to 2029 are written there between separators (or ends of the input), and its value is that number; a crc32 is found exactly when eight hexadecimal characters are written between separators, and its value is that text. Nothing earlier in the input can hide one.", "quantifier": "every input text and every position", "why_tests_cant": "ranges over all texts; an earlier overlapping occurrence could hide a later one in a left-to-right scan", "anchors": ["guessit/rules/properties/date.py:date", "guessit/rules/properties/crc.py:crc", "guessit/rules/common/validators.py:seps_surround"]}
{"id": "C85", "title": "Films, bonuses and weeks: exactly the written ones", "statement": "A film (bonus) is found exactly when f and one or two digits (x and any digits), in either case, are written between separators; its value is the number and its span the digits. A week is found exactly when the word, one separator that is not a slash, and one or two digits followed by a separator or the end are written, with a value 1 to 52; the word itself need not follow a separator.", "quantifier": "every input text, every position, every alphabetic week word", "why_tests_cant": "ranges over all texts, including all the ways earlier partial occurrences interleave", "anchors": ["guessit/rules/properties/film.py:film", "guessit/rules/properties/bonus.py:bonus", "guessit/rules/properties/date.py:date", "guessit/config/options.json"]}
{"id": "C86", "title": "Sizes and bit rates: exactly the lone amounts", "statement": "A size (bit rate) is found with a span and a value exactly when that span holds, between separators, a number with or without a decimal part, at most one separator that is not a slash, and a unit mb/gb/tb (kbps, mbit, gbits, ...) in any case; its value is the exact decimal amount with the unit in canonical case (12.5 and GB; 320 and Kbps). No other value is ever given for that span, and nothing else in the text can hide it before conflicts are solved. A decimal amount also yields the amount after the dot.", "quantifier": "every input text, every span, every amount of any length", "why_tests_cant": "ranges over all texts and over unbounded numbers", "anchors": ["guessit/rules/properties/size.py:size", "guessit/rules/properties/bit_rate.py:bit_rate", "guessit/rules/common/quantity.py:Quantity.fromstring", "guessit/config/options.json"]}
{"id": "C87", "title": "S01E02 is recognised wherever it stands, and nothing else is", "statement": "With any configuration whose season, episode and disc markers are letters (no season marker starting like an episode marker) and whose separators are single characters or separator-free words, wherever a text marker, number, optional separator, marker, optional separator, number (S01E02, s1 EP 2) stands between separators or the ends of the input, the S01E02 patterns report the season and the episode at the exact place and with the value of their digits, whatever is before and after. Conversely each season or episode they report lies inside a text between separators that opens this way, is a plain number with that value, and is written either in such an opening or just after a marker or separator.", "quantifier": "every input text, position, configuration, choice of markers, case, separators and digits", "why_tests_cant": "the search restarts after each chain and drops parts that break it; a text before could swallow or hide the pair for some inputs only", "anchors": ["guessit/rules/properties/episodes.py:167-181", "guessit/rules/properties/episodes.py:40-57", "guessit/rules/properties/episodes.py:86-127"]}
{"id": "C88", "title": "S01 alone and 1x02 are recognised", "statement": "A season written marker then number (S01) between separators is reported with its place and value by the season patterns, whatever is around. A season and an episode written number, optional separator, x, optional separator, number, between separators, are reported by the 1x02 patterns with their places and values, unless the text just before is number, x and a separator (3x 1x02), and for the pattern that accepts lists also unless a list of episodes ends just before the separator (5x3-1x2); both exceptions are real.", "quantifier": "every input text, position, configuration with letter markers, digits, separators", "why_tests_cant": "depends on the whole text before; repetition and backtracking are unbounded", "anchors": ["guessit/rules/properties/episodes.py:183-219"]}
{"id": "C89", "title": "Disc numbers: what is recognised, exactly", "statement": "The patterns for discs report a disc cd exactly where cd, an optional separator and a number from 1 to 99 not followed by another digit is written, in any case and whatever is before, with the value of its digits, unless it is followed by of and a count that is not from 1 to 99; they report a cd_count exactly for the count after such a disc and for a number from 1 to 99 (with no digit before) in front of cd. A bad count hides the disc before it (cd1 of 100).", "quantifier": "every input text, position, digits, case and separators", "why_tests_cant": "exactness in both directions over every text: search restarts, greedy digits and optional parts may hide or invent a match for some inputs only", "anchors": ["guessit/rules/properties/cd.py:cd"]}
{"id": "C90", "title": "Configured keywords standing alone are recognised, and nothing else is", "statement": "For every name and every keyword entry (a text or a regular expression without unbounded repetition, with its value, tags, validator and children options) registered for audio_codec, audio_profile, audio_channels, streaming_service, other, edition, video_codec, video_profile, color_depth and source: wherever one of the texts of the entry stands between separators (or at an end of the name), in any case, a match of that property with that exact place and with the value of the entry is reported; everything reported is one of the texts of the entry, at its place, with the name and value of the entry, and between separators when the entry asks for it. For the configuration guessit comes with this holds of every entry except an explicit list, where it holds if no longer or earlier text of the same entry reaches it. A source that may be followed by Rip yields the source and the Rip, each at its place.", "quantifier": "every name, every place in it, every keyword entry of the syntax, every entry of the default configuration", "why_tests_cant": "There are several hundred keywords, each with optional parts and separators, at any place of any name; the regular expression engine takes the first alternative from the left and resumes after it, so an entry can hide its own other texts.", "anchors": ["guessit/config/options.json", "guessit/config/__init__.py:load_config_patterns", "guessit/rules/properties/source.py", "guessit/rules/properties/video_codec.py", "guessit/rules/properties/other.py", "guessit/rules/properties/edition.py", "guessit/rules/properties/streaming_service.py", "guessit/rules/properties/audio_codec.py", "guessit/rules/common/validators.py"]}
{"id": "C91", "title": "Screen sizes and frame rates are recognised wherever they stand alone, whatever the order of the configured sets", "statement": "With the default heights and frame rates, whatever order Python iterates the sets in, the same screen sizes and frame rates are matched. A text made of an optional width (3-4 digits and x or *), a configured height and a suffix (i or p with an optional frame rate, hd, phd, x, px or nothing), standing between separators, is matched as a screen_size from its first to its last character with exactly its width, height, scan type and frame rate as parts - unless the separator before or after it is the '*' of a width or the decimal point of a frame rate that goes on. WxH resolutions with 3-4 digit numbers and 4k are matched the same way (unless a cross precedes). A frame rate followed by p or fps is reported if and only if it stands alone, with its numeric value in fps. Nothing else is reported as screen_size or frame_rate, the parts are named once and are numbers (what the notation of C38 needs). Texts of which one starts another in the configured sets make the result depend on the order.", "quantifier": "every input text, position, every order of the sets of heights and frame rates", "why_tests_cant": "set iteration order depends on the hash seed of the process and the text is unbounded; a test sees one order and a few texts", "anchors": ["guessit/rules/properties/screen_size.py:screen_size", "guessit/reutils.py:build_or_pattern", "guessit/config/options.json:screen_size"]}
{"id": "C92", "title": "Parts: exactly the spellings that are recognised", "statement": "For every input, guessit's part pattern reports a part from x to b with a value n exactly when, somewhere just before x, `pt` or `part` (any case) stands, followed by at most one separator other than a slash and then the text x..b, the whole standing between separators or ends of input; the text is a number n from 1 to 99 written with at most four digits, as the canonical Roman numeral of n (any case), or as one of the listed English or French words; and unless it is in digits it is apart from the prefix. In particular words that begin with a shorter listed word or with a letter of a Roman numeral (fourteen, une, deux, cinq, dix...) are never read.", "quantifier": "every input string, every position and every number", "why_tests_cant": "the pattern backtracks over digits, Roman numerals and 63 words; which texts are read depends on alternation order and on everything before the prefix, for unboundedly many inputs", "anchors": ["guessit/rules/properties/part.py:part", "guessit/rules/common/numeral.py:numeral", "guessit/rules/common/numeral.py:parse_numeral"]}
{"id": "C93", "title": "Episodes and seasons written with words", "statement": "An episode number written after one of the words episode, episodes, eps, ep, episodio, episodios, capitulo, capitulos (at most one separator between, any case), optionally followed by a version (v2) and by a count (of 12, sur 12), the whole standing between separators, is reported with the value written, together with the version and the count, and nothing else is reported by that pattern. When the type is set to episode the number may also be a Roman numeral or a number word standing alone (at most four digits otherwise); then Episodio N is never read, and capitulo N is missed right after another of those words. A season number followed by xE, Ex, E or x and All is reported as that season with other = Complete, and only then.", "quantifier": "all texts, all positions, all numbers of any length, any text before and after", "why_tests_cant": "the interplay of optional parts, alternatives sharing prefixes (ep/eps/episode) and non-overlapping scanning must hold for every surrounding text, not the examples listed", "anchors": ["guessit/rules/properties/episodes.py: rebulk.regex of episode_words, count words and all_words (lines 248-267)", "guessit/rules/common/numeral.py: numeral", "guessit/rules/common/validators.py: seps_surround", "guessit/config/options.json: episodes"]}
{"id": "C94", "title": "Names of languages and countries", "statement": "A language name, in any case, means the code it is listed under in the configured synonyms (the last one if several; 'por_BR' is a language with a country), otherwise what the first babelfish lookup that accepts it says; the synonyms are rejected exactly if a code has two underscores; if no text is under two codes their order does not matter (otherwise it does: witness); lookups raise nothing if every code denotes a language (otherwise ValueError escapes: witness). A country written by guessit is read back if UK is a synonym of GB and no synonym is another country's code (without it: witness); country synonyms of several words, such as 'latin america' of the default configuration, are never used.", "quantifier": "every synonym configuration, every name, every babelfish database", "why_tests_cant": "The configurations, databases and names are unbounded, and the claims compare different orders of the same configuration.", "anchors": ["guessit/rules/properties/language.py: GuessitConverter", "guessit/rules/properties/country.py: GuessitCountryConverter, CountryFinder.find"]}
{"id": "C95", "title": "Objects named in a configuration", "statement": "A configured validator, formatter or conflict solver text names: the attribute path of a module ('import:pkg.mod:path', split at the last colon), a name of the default module ('import:name' without dot), the evaluation of a text ('eval:...', 'lambda ...'), or itself; and it names the same object, or fails with the same exception, whatever texts were resolved before in the process (the import cache is transparent), as long as module and attribute names have no colon. Limits: a top-level module can not be named, and 'import:name' is a TypeError where there is no default module (conflict solvers, callables).", "quantifier": "every text, every history of resolutions, every set of modules", "why_tests_cant": "Needs every history of a process-wide cache.", "anchors": ["guessit/config/__init__.py: _import, _eval, _process_option_executable, _default_module_names"]}
{"id": "C96", "title": "Bare numbers, e112, ep 112 and cap 112 are read as episodes", "statement": "A number of two digits (12), one to two digits after a zero (012), three or four digits (112) or one digit (1) that stands between separators is reported as an episode with that number at its exact place, whatever the rest of the text is; 102 and 0102 are also reported as season 1 episode 02, e112 and 1e18 as an episode with an optional season, ep 112 as an episode, cap 112 as season 1 episode 12; a version written after it (12v2) is reported as well. The only exception is a number that follows a digit and a hyphen (the end of an interval). Conversely whatever these patterns report is a number written in the text, at its place, inside such a text that stands between separators, either in its first part or after a v, x, e, ep or hyphen.", "quantifier": "every text, every position, every configuration of separators, each of the eight patterns", "why_tests_cant": "the text around is arbitrary: an earlier partial match can swallow or shift the number, and repeated parts have no bound", "anchors": ["guessit/rules/properties/episodes.py:268-343"]}
{"id": "C97", "title": "Overlapping matches", "statement": "Of the matches found, a match is removed only if another one that shares a character with it is preferred to it; a match that overlaps no other public match stays, and so does every private one until the end, when all are dropped. When a shorter match meets a longer one the conflict solver of the longer speaks first, then that of the shorter, then the longer whole pattern is kept; two matches overlapping only each other end exactly so. Of two overlapping matches of which either is preferred not both stay; what a removed match lost to leads, through what that lost to, to a match that stays; without solvers the longest of those it overlaps stays. The extension of the file wins over the sources, video codecs and container names it overlaps. Limit: a match can be removed for one that is removed in its turn, so that nothing that stays overlaps it (witness).", "quantifier": "every list of matches (equal ones included), every assignment of conflict solvers", "why_tests_cant": "which matches overlap, their lengths, their order in the store and the solvers combine without bound", "anchors": ["guessit/rules/__init__.py:rebulk_builder", "guessit/rules/properties/container.py:container", "guessit/rules/properties/date.py:date", "rebulk/processors.py:ConflictSolver"]}
{"id": "C98", "title": "No silent loss: the rules lose a found value only for one of a few reasons", "statement": "Whatever the input, the configuration and the order in which the rules run, a match found by the patterns is still in the result with the same name, the same value (up to the case of a text), the same privacy and a span that covers its own, unless at some moment of the run one of these holds for it: its property is one of those the rules validate (episodes, seasons, titles, source, other, codecs, languages, year, ...); it is a part of a match or a match with parts; it carries a tag that asks for a validation; it overlaps a year, a language or an audio profile; there is another value for the same property, or the same one with another privacy; or it overlaps what comes last after a dash while there is no release group. In particular a crc32, uuid, size, date, container, film, bonus or cd that stands alone in a name without dashes is never lost.", "quantifier": "all inputs, all lists of matches inside the input, all markers, all contexts, all sequences of rules in any order and number", "why_tests_cant": "A test shows that one name keeps its values; the property is about every rule, every set of matches and every order of the rules.", "anchors": ["guessit/rules/processors.py", "guessit/rules/properties/*.py (all rules)", "guessit/rules/properties/release_group.py:DashSeparatedReleaseGroup"]}
{"id": "C99", "title": "No invention: a value in the result was found by a pattern", "statement": "Whatever post-processing rules run and in whatever order, a match left at the end either belongs to one of the few properties whose values the rules make (titles, release group, type, mimetype, proper count, aspect ratio, frame rate, screen size, source, and the episode, season, year, absolute episode, disc numbers obtained by completing a range or converting a number), or it carries the value of a match that a pattern found, under the same property name or under the one documented name that takes its values (language to subtitle language, audio to video bit rate, count to episode or season count, another to other). In particular a property that no pattern found, and that rules neither make nor take from another, never appears; years and seasons only come from years and seasons, and a source only from a source.", "quantifier": "every input text, every list of pattern matches and markers lying in it, every context, every sequence of the 74 modelled rules of any length and order, every match of the result", "why_tests_cant": "A test shows that given names yield no bogus value; the claim ranges over all names and all rule sequences.", "anchors": ["guessit/rules/processors.py", "guessit/rules/properties/*.py: every CustomRule / Rule consequence"]}
{"id": "C100", "title": "From the patterns to the dictionary: what is shown was found, and what was found is shown unless something took it", "statement": "Let the patterns find any matches in a name. Whatever rules run, in whatever order, with the conflicts solved among them and private matches removed: (a) every value the resulting dictionary shows for a property was found by a pattern for that property, or for the one it is documented to take values from, up to the case of a text, except for the properties whose values rules make; (b) every found value is shown (up to the case of a text and Python equality), or at some moment of the process there was one of a short list of reasons to lose it: it was private, a preferred match overlapped it, or one of the reasons of C98; (c) when conflicts are solved first, a public value alone with its property, overlapped by nothing, in a name without dashes, years, seasons, languages or audio profiles, for a property that no rule is about, is the exact value of its key in the dictionary (in a list if enforce_list).", "quantifier": "every name, every list of pattern matches and markers lying in it, every options dictionary, every conflict solvers, every sequence of rules, every way of showing values", "why_tests_cant": "It composes all stages of guessit over every possible list of matches and every order of the rules.", "anchors": ["guessit/api.py:208-223", "guessit/rules/__init__.py:46-99", "guessit/rules/processors.py", "guessit/rules/properties/*.py"]}
{"id": "C101", "title": "Counts without a word: 3 of 12; a version alone: v2", "statement": "An episode number followed by of or sur (at most one separator on each side, any case) and a second number, the whole standing between separators and perhaps followed by one of the words episode, eps, ep, capitulo, is reported as that episode and that count, unless the first number is itself the count of another; nothing else is reported by that pattern. A count followed by episodes, episodio, episodios or capitulos is not reported. A version is reported alone exactly where v and digits stand between separators.", "quantifier": "every input text and every configuration of the episode separators", "why_tests_cant": "the pattern is a regular expression with optional parts, whose match is trimmed and then validated; what it accepts in every text follows from which alternative is taken first at every position", "anchors": ["guessit/rules/properties/episodes.py:episodes", "guessit/rules/match_processors.py:strip"]}
{"id": "C102", "title": "Complete seasons in words", "statement": "The word complete standing with a season word (season, seasons, serie, series) before or after it, one separator between, perhaps with The in front, the whole between separators and in any case, is reported as other: Complete over exactly that text, provided no such phrase begun earlier reaches it and none from the same place is longer; nothing else is reported by that pattern, and in particular not the word complete alone or The Complete.", "quantifier": "every input text, with the configured season words and articles", "why_tests_cant": "the expression has three optional parts and alternatives; that no text is accepted or rejected wrongly at any position is not a finite check", "anchors": ["guessit/rules/properties/other.py:complete_words", "guessit/config/options.json:_complete_words"]}
{"id": "C103", "title": "The JSON output is valid JSON and says exactly what the guess holds", "statement": "For every guess (texts with any characters, integers, finite floats, lists, nested dictionaries, matches of the advanced form, languages, countries, sizes, dates), the text printed by `guessit -j` and by the default output is a JSON text in the sense of RFC 8259, and the only thing it says is the guess: the same properties in the same order, each text with exactly its characters, each integer with its value, a language or country as its name, any other object as its str(), a match as its value, its raw text when not empty, its start and its end. The -j form is a single line without control characters.", "quantifier": "every guess, every text and every integer in it, both forms of output, any depth", "why_tests_cant": "Escaping has to be right for every character and every nesting; tests only print a few ASCII guesses, and no test shows that two different guesses cannot print the same text.", "anchors": ["guessit/jsonutils.py: GuessitEncoder.default", "guessit/monkeypatch.py: match_advanced", "guessit/__main__.py: guess_filename"]}
{"id": "C104", "title": "Command line options set exactly the options they are documented to set", "statement": "For every argument list made of documented options in any order (long or short form, value in the next argument, after = or joined to the letter, switches put together after one dash, options repeated) with the names together anywhere among them, parse_options returns a dictionary in which `filename` is the list of names, every switch is True if given and None otherwise (False for output_input_string), every single option has its last value or None, every repeatable option the list of its values in order or None, and there is no other key. A name may also be a negative number (-1, -2.5), or begin with a dash and no option's letter and hold a space; after `--` every word is a name whatever it begins with. A long option that no documented option begins with is refused wherever it stands, and so is a dash with no option's letter that is neither; names on both sides of an option are refused too. A long option may be shortened as long as no other long option begins so: the command line then means what it means with the name in full; a beginning of several long options that is none of them is refused.", "quantifier": "every list of documented options, every value and every name, in every order", "why_tests_cant": "Tests parse a handful of option lists; the combinations of forms, orders, repetitions and values are unbounded.", "anchors": ["guessit/options.py: build_argument_parser", "guessit/options.py: parse_options"]}
{"id": "C105", "title": "Options given as one text mean the same as the list of their words", "statement": "For every text that writes a list of words separated by blanks, each word made of bare characters, backslash escapes, simple or double quotations, parse_options(text) equals parse_options(words) and hence sets the options as in C104; every list of words can be written so; a quotation that is not closed is refused with ValueError.", "quantifier": "every text and every list of words", "why_tests_cant": "Quoting has to be right for every word and every character.", "anchors": ["guessit/options.py: parse_options", "guessit/api.py: GuessItApi.guessit"]}
{"id": "C106", "title": "A configuration in JSON is read for what it says, in a file or in place of its name", "statement": "For every text: as a configuration it is read exactly when it is a JSON text (RFC 8259, or with Python's NaN, Infinity and half surrogate pairs) whose integers have at most 4300 digits, and it is then read as what it says: strings with their escapes and surrogate pairs, lists in order, and objects as dictionaries where the last member of a name counts. A file whose name ends in .json is read as its contents, whatever its line ends are; a JSON text given where a file name is expected is never mistaken for a file and is read itself, so a configuration file can be replaced by its contents anywhere among the configurations without changing the options; anything else, and a YAML file without PyYAML, is a ConfigurationException, and what guessit prints as JSON is read back as the same data.", "quantifier": "all texts, file systems, lists of configurations and printed guesses", "why_tests_cant": "the texts of a configuration are infinitely many and nest without bound; tests read a few files", "anchors": ["guessit/options.py:load_config_file", "guessit/options.py:load_config", "guessit/jsonutils.py:GuessitEncoder"]}
{"id": "C107", "title": "Dates written with numbers are read as their writer meant them", "statement": "A name whose only date is written with numbers gives this date: yyyy-m-d (the first separator may be x) is year, month, day; d-m-yyyy is day, month, year unless date_day_first is false or only date_year_first is true, and a number over 12 is never taken for a month; yy.m.d with date_year_first and d.m.yy without it use the nearest year with these two digits; eight digits between separators are yyyymmdd, six are yymmdd with date_year_first and ddmmyy with date_day_first. A date returned exists in the calendar, has its year in 1920..2029 and is made of the three numbers written, each used once. A name with no other digits has one date only. The date is reported exactly when separators surround it, as yyyy-mm-dd.", "quantifier": "all strings, all places of the date in them, all numbers, all values of the two options, all current years", "why_tests_cant": "There are unboundedly many names around the numbers, seven expressions compete for the text, and the options and the calendar multiply the cases.", "anchors": ["guessit/rules/common/date.py:search_date", "guessit/rules/common/date.py:date_regexps", "guessit/rules/common/date.py:_guess_day_first_parameter", "guessit/rules/properties/date.py:date"]}
{"id": "C108", "title": "Seasons written with a word", "statement": "In any text, a season word of the default configuration (season, seasons, saison, saisons, seizoen, tem, temp, temporada, temporadas, stagione, in any case), perhaps a separator, and a number (one to four digits, a Roman numeral or a number in letters), with a separator or an end of the text on both sides, is reported as a season with that number and exactly the place of the number; 'of' or 'sur' and a number glued to the season number also give the count; a range separator ('-', '~', 'to', 'a', perhaps with separators around) and a second number that is not smaller, and not more than 100 greater, give the second season as well. Nothing else is reported by this reader: every season or count it reports belongs to such a text, surrounded by separators. A hyphen glued to the first number with a blank after it, or a blank before 'of', loses the second number.", "quantifier": "every input string, every position in it, every number and every separator", "why_tests_cant": "the words overlap (tem, temp, temporada), the expression backtracks, a chain of parts may start anywhere and what was read before decides where the next search begins: only a proof over all texts shows that an earlier match never swallows the season", "anchors": ["guessit/rules/properties/episodes.py:223-246 chain of season words", "guessit/rules/properties/episodes.py:129-140 validate_roman", "guessit/rules/properties/episodes.py:86-127 ordering_validator", "guessit/rules/common/numeral.py parse_numeral"]}
{"id": "C109", "title": "Rules run in a fixed, dependency-respecting order", "statement": "Whatever properties are excluded, a guess never stops on a circular rule dependency: every rule of every builder that is not switched off runs exactly once, rules of a higher priority before those of a lower one, and every rule after all the rules in play that it declares as a dependency. For any set of rules the order is completely determined by priorities, length of the chain of dependencies and load order, does not depend on the iteration order of Python sets, and an error is raised exactly when some rules all wait for one another. In particular overlapping matches are settled before any other rule, private matches are removed and the type is told after the rules that look for something, and titles, episode titles, release groups, sources and codecs are looked for in the told order.", "quantifier": "every list of rules with any classes, priorities and dependencies; every set of excluded properties; every iteration order of sets", "why_tests_cant": "there are thousands of combinations of excluded builders, and hash order varies between runs; a test run sees one of each", "anchors": ["guessit/rules/__init__.py:rebulk_builder", "guessit/rules/properties/*.py: priority, dependency, rebulk.rules(...)", "guessit/rules/processors.py:processors", "guessit/rules/common/pattern.py:is_disabled"]}
{"id": "C110", "title": "The YAML output says exactly what the guess holds", "statement": "With --yaml, for a file name of 1 to 122 characters on one line and a guess that holds at least one property, the lines printed are a YAML document with that file name as its (complex) key and, under it, the properties of the guess in their order, each with its value or values in their order, languages, countries, sizes and rates as their text; such lines have no other reading. Printing fails exactly when a value has no representer (a match, with --advanced). A longer file name is printed after a second question mark and without its last character, and a guess that holds nothing as a bracket that is never closed.", "quantifier": "every file name, every guess (any properties and values), every way the YAML library writes scalars, including folded over several lines", "why_tests_cant": "the transformation of the first two lines is only right if the layout of the dump is the expected one, for every name and every value; the tests never look at the YAML output", "anchors": ["guessit/__main__.py:guess_filename (yaml branch)", "guessit/yamlutils.py:CustomDumper, default_representer, ordered_dict_representer"]}
{"id": "C111", "title": "Websites: what is found is written as one, and what is written as one is found", "statement": "Every reported website is a text bounded by the ends of the input or by characters that are neither letters nor digits, and reads as one of three forms: configured sub-domains (www), labels and a registered domain; any number of sub-domains, one label and a sure domain; any number of sub-domains, one label, sure words and a registered domain (each followed by a dot, in any case of letters). Conversely a text of one of these forms that stands apart (no character of a host name in the two places before it nor just after it) is reported whole and with itself as its value. The registered domains are the lines of the data file but its first one and those holding two hyphens; since the file ends with a newline the empty text is one of them, so that www.anything. is a website. Two websites with a single character between them: the second is lost.", "quantifier": "all inputs, all positions in them, all lists of sub-domains, sure domains, sure words and registered domains made of letters and digits, all contents of the data file", "why_tests_cant": "The set of texts matched by three nested repetitions with ordered alternatives and consumed boundaries is infinite; which reading the backtracking matcher prefers depends on all the others.", "anchors": ["guessit/rules/properties/website.py:website", "guessit/data/tlds-alpha-by-domain.txt", "guessit/config/options.json:advanced_config.website"]}
{"id": "C112", "title": "Which of two overlapping properties is kept", "statement": "Every conflict solver guessit gives to a pattern, in the code or in options.json, says of another match exactly what a short table says: that the other goes, or that its own goes, or nothing (then the longer is kept). A match that claims every one it overlaps, or to which they all concede, while none of them claims it, is kept, and they all go, whatever else is found, in whatever order. Hence: an expected title or group is kept against all it overlaps (but bit rates, width x height sizes and other expected ones); a date against seasons, episodes and checksums; a year against the episodes and shorter seasons; anything without a solver against countries, except languages against US and GB, which lose; sources, codecs and extensions against words that name containers.", "quantifier": "every list of distinct matches, of any kinds, places and lengths, in any order", "why_tests_cant": "the outcome depends on all the matches that overlap and on the order they are met in; tests have two or three", "anchors": ["guessit/rules/properties/date.py: date", "guessit/rules/properties/container.py: container", "guessit/rules/properties/crc.py: crc", "guessit/rules/properties/country.py: country", "guessit/rules/properties/title.py: title", "guessit/rules/properties/release_group.py: release_group", "guessit/rules/properties/screen_size.py: screen_size", "guessit/rules/properties/source.py: source", "guessit/rules/properties/audio_codec.py: audio_codec", "guessit/rules/properties/episodes.py: episodes", "guessit/config/options.json: advanced_config"]}
{"id": "C113", "title": "A date written with the name of a month is read as that day, and a day or a word that does not exist makes no date", "statement": "When the name of a file holds a day number of one or two digits (with or without st, nd, rd or th), one of - / space or dot, the name or the three-letter abbreviation of a month (or sept) in any letter case, again one of these characters and a year of four digits, and nothing else in the name looks like a date, then the date that is found is exactly that day, whatever the options date_year_first and date_day_first say; it is shown as yyyy-mm-dd, only when it stands between separators, and only there. A year that guessit finds implausible, or a day that the month does not have that year, makes no date, and neither does a word that is not the name of a month. When the name has no digit but those of the day and the year, nothing else looks like a date.", "quantifier": "every name, every position in it, every day, year, month name and letter case, every pair of separators, every value of the two date options and every current year", "why_tests_cant": "The result depends on a regular expression searched at every position of the name and then on a date parser that tries several orders of the three values; a test fixes one name and one order.", "anchors": ["guessit/rules/common/date.py:date_regexps", "guessit/rules/common/date.py:search_date", "guessit/rules/properties/date.py:date"]}
{"id": "C114", "title": "Repack and Rerip with a count, and LAME with a version, are found exactly where they are written", "statement": "The words Repack and Rerip, in any case and followed by any number of digits (none included), standing between separators or the ends of the name, are each found once, everywhere they are written and nowhere else, as the value Proper of other; the digits written are the count of that Proper (one when there is none). LAME followed by two numbers with one separator that is not a slash between them, or by one number of two digits or more, is found wherever it is written, whatever stands before it, as the audio codec MP3, up to its last digit; LAME followed by a single digit alone is not found by that expression.", "quantifier": "every input name; every number of digits, every letter case, every position", "why_tests_cant": "The names, the counts and what stands around them are unbounded; the expressions repeat without a bound, so what is found depends on backtracking over runs of digits of every length.", "anchors": ["guessit/config/options.json:_repack_with_count", "guessit/config/options.json:audio_codec", "guessit/rules/properties/other.py:other", "guessit/rules/properties/other.py:ProperCountRule", "guessit/rules/properties/audio_codec.py:audio_codec"]}
{"id": "C115", "title": "Codecs, audio channels, sources and editions are kept", "statement": "A video codec, an audio codec, audio channels, a source, an edition or any other value whose property has no rule of its own stays in the result, at the same place and with the same privacy, until there is a cause the documentation gives: it does not stand free between separators (codecs, channels and sources), another value of the same property is found, a year, a language or an audio profile overlaps it, it is tagged as weak or is a part of another match, it ends the name after a dash where the release group is, it is a source that is only WEB followed by another source or a Blu-ray beside Ultra HD or 2160p, or a Criterion edition with Comedy Central. In a name without dash, year, season, language and audio profile, a value of such a property that rules neither make nor rewrite, alone with its property and overlapped by nothing, is shown in the dictionary exactly as it was read, and no other value is shown for the property.", "quantifier": "all names, all bracket groups and path markers, all sets of placed matches, all runs of the modelled rules in any order and number, with or without the conflict solver and the private remover, all option dictionaries without single_value", "why_tests_cant": "Whether a value survives depends on about seventy rules acting in turn on all the matches; tests only see some names, never that no rule removes the value for some other reason.", "anchors": ["guessit/rules/properties/source.py:ValidateSourcePrefixSuffix", "guessit/rules/properties/source.py:ValidateWeakSource", "guessit/rules/properties/source.py:UltraHdBlurayRule", "guessit/rules/properties/video_codec.py:ValidateVideoCodec", "guessit/rules/properties/audio_codec.py:AudioValidatorRule", "guessit/rules/properties/streaming_service.py:ValidateStreamingService", "guessit/rules/processors.py:EnlargeGroupMatches", "guessit/rules/processors.py:EquivalentHoles", "guessit/rules/processors.py:RemoveAmbiguous", "guessit/rules/properties/release_group.py:DashSeparatedReleaseGroup"]}
{"id": "C116", "title": "In a plain file name every codec, source, edition, date, size or checksum found is shown", "statement": "In a name without directories, every value a pattern found for video_codec, audio_codec, audio_channels, source, edition, container, size, crc32, date, film, bonus, cd, week or any other property that no rule makes and that has no rule of its own beyond standing free between separators, is in the dictionary (but for a Criterion edition, a Blu-ray, which may become an Ultra HD one, and sources when one of them is tagged as weak), up to the case of a text, however many values the property has, provided the match stands by itself (public, not a part of another, its property not tagged as weak or hidden anywhere), no other public match overlaps it, no dash comes before its end, no bracket begins or ends with it and (for sources, codecs and audio channels) it stands free between separators. It can only be missing if at some moment of the process a year, a language or an audio profile overlapped it; and never when the name has no year, season, language or audio profile.", "quantifier": "all names and groups of brackets, all sets of placed matches, all conflict solvers, all runs of the rules in any order and number with private matches removed at any moment, all option dictionaries without single_value", "why_tests_cant": "It is a statement about everything seventy rules can do to any set of matches in any name; a test can only show one name in which nothing was lost.", "anchors": ["guessit/api.py:guessit", "guessit/rules/processors.py:RemoveAmbiguous", "guessit/rules/processors.py:EquivalentHoles", "guessit/rules/properties/release_group.py:DashSeparatedReleaseGroup", "guessit/rules/properties/video_codec.py:ValidateVideoCodec", "guessit/rules/properties/episodes.py:RemoveWeakIfMovie"]}
