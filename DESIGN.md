# Formal model of guessit 3.8.0 in Rocq (Coq 8.16.1)

## What this is

A shallow, executable Gallina model of guessit, written function by function from the Python source in
`/repo/guessit`, together with machine-checked theorems about it. Exceptions are values (`res A := Ok a | Err e`),
mutable objects are threaded as values or, where aliasing *is* the property (C05, C53), kept in an explicit store.

Layout of `rocq/theories` (flat):

* model files (`Options.v`, `Rebulk.v`, `Title.v`, `Patterns.v`, `Chain.v`, `Keyword.v`, …): definitions, each with the
  file and lines of `/repo` it models and the simplification made, if any;
* `*Spec.v` and the "Specification" section at the head of each `*Props.v`: small independent vocabulary in which
  the theorems are stated (texts written at a place, a match shown with a name and a value, …);
* `*Facts.v`, `*Proofs.v`: lemmas;
* `*Props.v`, `KeywordTable.v`, `TitleMore.v`: the property theorems `Cnn_…`, each followed by `Print Assumptions`,
  and `Example`s showing that the hypotheses are met by a concrete, non-trivial case.

Theorems named `…_limit` or `…_refuted` state that the stronger property one would expect is false of the (faithful)
model, with a concrete witness: these are findings about the code. Theorems named `…_partial` prove less than the property says.

## Trusted base

1. Coq 8.16.1's kernel, including its VM (`vm_compute`, `vm_cast_no_check` are checked by the kernel's VM conversion).
2. `Print Assumptions` prints "Closed under the global context" after every property theorem: no axiom of our own, and no
   axiom of the standard library is used. (`coqchk` lists the axioms of the loaded library files, e.g. `Coq.ssr.ssrunder`,
   which come with the standard library and which no theorem here uses.)
3. The faithfulness of the model, i.e. our reading of the Python source. The code is never run here.
4. Libraries that are *not* in `/repo`, transcribed from their documentation and from knowledge of their source:
   * rebulk 3.2.0: `Match`/`Matches` queries (`Rebulk.v`), `StringPattern`, `RePattern` with children, validators and
     formatters (`Patterns.v`), chains (`Chain.v`), the rule executor and its consequences (`Pipeline.v`), `to_dict`;
   * the `re` module: a backtracking matcher with captures, alternatives, bounded and unbounded repetition, look-around at one
     character, `finditer` (`Regex.v`), proved sound and complete for a relational semantics and searched leftmost-first;
   * `argparse` as used by this parser (`Args.v`), `shlex.split` (`OptionText.v`), `json.dumps` (`Json.v`), `json.loads` (`JsonRead.v`), read from the source of Python 3.11;
   * dateutil 2.x: the parsing of dates written with numbers only (`DateParse.v`) and of a day, the name of a month and a year (`MonthDate.v`);
   * `int()`, `str` methods, `dict`/`list`/`set` operations on ASCII texts (`Py.v`, `Text.v`).
   Others (babelfish, dates dateutil completes from the current day, yaml, the file system, the introspection of rebulk) are universally quantified
   parameters of the theorems.

Common simplifications:

* a string is a list of code points (`N`); `lower`/`upper`/`isdigit`/`isalpha`/`\d`/`\W` are the ASCII ones;
* `int` is `Z`; `float` is exact rational arithmetic or an opaque text;
* a `set` is a list in any order (theorems quantify over the order where it can matter: C91, C43).

## What is modelled, what is not

Modelled: `options.py` (parsing, shortened long options, merging, layers, files), `jsonutils.py`, `yamlutils.py` (the representers and the dump of a
guess), `monkeypatch.py`, `api.py` (whole life cycle, wrapping of errors, byte strings), `__main__.py`, `reutils.py`,
`rules/__init__.py` (order of the rules as a relation, and the schedule rebulk makes of their priorities and dependencies), all of `rules/common/*`
(dates written with numbers or with the name of a month, numerals, words, quantities, validators, formatters, comparators), `rules/markers/*`,
`rules/processors.py`, `rules/match_processors.py`, every rule class of `rules/properties/*.py`, the conflict solvers of all the patterns, the configured
keywords of `config/options.json` (as an expression language with its parser: `Keyword.v`, `DefaultConfig.v`), and the patterns of year, date,
crc, uuid, size, bit rate, film, bonus, week, cd, part, screen size, frame rate, websites, languages and countries, seasons and episodes
(`SxxExx`, `Sxx`, `1x02`, words, numerals in words and Roman, weak numbers), details and counts, repacks and versions of LAME.

Not modelled: `OrderedDictYAMLLoader` of `yamlutils.py` (used by the tests only), logging, the text of --help, `repr` of a float, the operating
system; dateutil's weekdays, hours and time zones; rebulk's own introspection.

## Testing the theorems against wrong programs

`seeded/LOG.jsonl` has one line per edited model definition: the edit, the English claim it breaks, the theorems that stopped
compiling, and those tightened because the edit survived.

## Per property

| id | property | model files | theorems in | proved by | status and what is missing |
|---|---|---|---|---|---|
| C01 | Option layering: the last defined value wins | `Options.v` | `OptionsProps.v` | induction over the layer list; per-key projection lemma, spec = fold over the values the key takes in the layers | proved |
| C02 | Option layering: lists accumulate without duplicates | `Options.v` | `OptionsProps.v` | induction over the appended list; result characterised by prefix + dedup spec | proved |
| C03 | Option layering: dicts merge recursively | `Options.v` | `OptionsProps.v` | unfolding lemma for the dict branch at every depth, structural induction on values | proved |
| C04 | pristine discards exactly what it names | `Options.v` | `OptionsProps.v` | case analysis on the value of pristine; per-key statement | proved |
| C05 | Merging never modifies the caller's objects | `Heap.v`, `Options.v` | `HeapProps.v` | frame invariant by induction on fuel: every cell allocated before the call is unchanged, also on error | proved |
| C06 | Merging type-compatible layers never raises | `Options.v` | `OptionsProps.v` | progress theorem under a kind-compatibility predicate; converse characterisation of each error | proved |
| C07 | Configuration layering order | `Options.v` | `OptionsProps.v` | equational characterisation against a spec list of layers | proved |
| C08 | User option file locations | `Options.v` | `OptionsProps.v` | equation against a nested enumeration spec | proved |
| C09 | guessit() does not depend on call history | `Api.v`, `Options.v`, `ToDict.v` | `ApiProps.v` | invariant on reachable states (induction over operations), refinement to a stateless spec | proved: premise: no call failed after its configuration files were loaded; a custom rules_builder is lost at the next reconfiguration (refuted witness) |
| C10 | A failed reconfiguration does not leak into later calls (limits) | `Api.v`, `Options.v`, `ToDict.v` | `ApiProps.v` | state equality on load failure; concrete witness for the builder failure | proved: limits as witnesses |
| C11 | Rules are rebuilt exactly when needed | `Api.v`, `Options.v`, `ToDict.v` | `ApiProps.v` | iff on the builder call log | proved |
| C12 | Byte strings in options are decoded everywhere | `Options.v` | `OptionsProps.v` | structural induction on values | proved |
| C13 | API instances share language/country synonyms | `Api.v`, `Options.v`, `ToDict.v` | `ApiProps.v` | invariant for one object, witness for two | proved |
| C14 | includes/excludes decide which properties are enabled | `Common.v`, `Formatters.v` | `CommonProps.v` | iff | proved |
| C15 | Path parts partition the input | `Markers.v` | `MarkersProps.v` | induction on the separator positions; partition of the string | proved: find_all of rebulk is modelled, not in /repo |
| C16 | Bracket groups are the balanced bracket pairs | `Markers.v` | `MarkersProps.v` | soundness/completeness against an inductive Dyck predicate | proved: opening and closing brackets disjoint (true of the bundled configuration) |
| C17 | Word splitting is exact | `Words.v` | `WordsProps.v` | induction on the string; spec = maximal runs | proved |
| C18 | cleanup only touches separators | `Formatters.v` | `FormattersProps.v` | list lemmas on filter/strip/replace, loop invariant of the single-letter restoring loop | proved: ASCII case mapping |
| C19 | reorder_title moves a trailing article to the front | `Formatters.v` | `FormattersProps.v` | case analysis with a suffix spec, witness for non-idempotence | proved: ASCII case mapping; articles non-empty |
| C20 | Roman numerals | `Numeral.v` | `NumeralProps.v` | finite sweep 1..4999 lifted by forallb_forall; inverse direction by decomposition of the four digit groups | proved: a final newline is tolerated by the pattern |
| C21 | Numeral parsing priority | `Numeral.v` | `NumeralProps.v` | priority spec; witness 'dix' | proved: ASCII digits and case mapping, default flags |
| C22 | Quantities round-trip through their text | `Quantity.v` | `QuantityProps.v` | decimal printing/parsing round-trip by induction; witness | proved: integer magnitudes round-trip when a unit is present; the two limits are formal counterexamples; float repr not modelled |
| C23 | Dates found are plausible and located | `Date.v`, `Numeral.v` | `DateProps.v` | induction over the pattern list; forall oracles | proved: regexes modelled concretely (ASCII digits/letters); dateutil is an arbitrary function |
| C24 | UUID detection | `Crc.v` | `CrcProps.v` | scanner lemma of maximal runs; arithmetic form of the ratio test | proved: float ratio compared exactly |
| C25 | Alternation patterns | `Common.v`, `Formatters.v` | `CommonProps.v` | string equation; balance counter invariant | proved: parentheses inside character classes are counted like the others |
| C26 | Configured patterns are registered faithfully | `PatternConf.v` | `PatternConfProps.v` | induction over entries; spec = concat map | proved: importing/evaluating executables is a parameter; when an exception is raised the events before it are not described |
| C27 | Expected titles/groups are located | `Expected.v`, `Formatters.v` | `ExpectedProps.v` | induction on search fuel bounded by length; soundness + completeness of non-overlapping occurrences | proved: user regexes are an arbitrary function |
| C28 | Release group cleaning | `GroupName.v` | `GroupNameProps.v` | subsequence invariant; witness | proved |
| C29 | Most valuable path part first | `Common.v`, `Date.v`, `Processors.v`, `Words.v` | `ProcessorsProps.v` | generic insertion sort + total order; permutation; uniqueness | proved: the sorted list is the only arrangement ordered by the specification; matches counted characterised |
| C30 | Conflicting values across path parts are resolved | `Common.v`, `Date.v`, `Processors.v`, `Words.v` | `ProcessorsProps.v` | loop invariant over markers; per-match iff spec | proved: matches pairwise distinct (key), spans inside the input; on the rebulk transcription |
| C31 | Conflicting season/episode numbers: which part wins | `Common.v`, `Date.v`, `Processors.v`, `Words.v` | `ProcessorsProps.v` | corollary with preference predicate; witness | proved: leftmost part wins; documented rightmost refuted |
| C32 | Equal titles with different case | `Common.v`, `Date.v`, `Processors.v`, `Words.v` | `ProcessorsProps.v` | case analysis; witness | proved: ASCII case |
| C33 | Year/season derivation | `Common.v`, `Date.v`, `Processors.v`, `Words.v` | `ProcessorsProps.v` | exact result list; witness | proved: integer season/year values |
| C34 | Type decision | `Common.v`, `SmallRules.v` | `SmallRulesProps.v` | iff against boolean spec | proved: SmallRules.v |
| C35 | Which year is kept | `Common.v`, `SmallRules.v` | `SmallRulesProps.v` | case analysis on partition of years | proved |
| C36 | Episode/season ranges are completed | `EpisodeTitle.v`, `Episodes.v`, `Formatters.v`, `HolesMore.v`, `Title.v`, `TitleMore.v` | `EpisodesProps.v` | induction over separators; enumeration spec | proved: Numbers found = numbers of the text plus those strictly inside a range, in order; separators removed; Cap.102_104 pattern; limits: ' - ' does not join, ranges between two patterns are unbounded. |
| C37 | Episode lists must be ordered | `EpisodeTitle.v`, `Episodes.v`, `Formatters.v`, `HolesMore.v`, `Title.v`, `TitleMore.v` | `OrderingProps.v` | loop invariant ⇒ Sorted + gap spec | proved: Exact acceptance condition of a list; a chain keeps neighbours within the maximum; limit: a number may come back after a greater one. |
| C38 | Screen size values | `Common.v`, `Numeral.v`, `Quantity.v`, `ScreenSize.v` | `ScreenSizeProps.v` | case equation; last-of-part spec | proved: finding: a zero height raises ZeroDivisionError |
| C39 | Proper count | `Common.v`, `Formatters.v`, `Numeral.v`, `Other.v` | `OtherProps.v` | fold invariant; witness | proved |
| C40 | Neighbour validation | `Common.v`, `Formatters.v`, `Numeral.v`, `Other.v` | `OtherProps.v` | prefix-takeWhile spec; witness | proved |
| C41 | Bit rate classification | `Common.v`, `SmallRules.v` | `SmallRulesProps.v` | per-match classification; witness | proved |
| C42 | Country spans | `Country.v`, `Words.v` | `CountryProps.v` | scanner composition; witness | proved: babelfish database is a parameter |
| C43 | Undetermined and multiple languages | `Language.v`, `Quantity.v`, `Words.v` | `LanguageProps.v` | membership iff | proved: LanguageFinder over any babelfish database (a parameter). Which languages found are given; soundness (allowed, text, place, affix); completeness for words, joined words, and unambiguous affixes. A suffix on the first word of the text is not seen (ex_lang3). |
| C44 | Result dictionary | `Api.v`, `Options.v`, `ToDict.v` | `ApiProps.v` | fold invariant against group-by spec | proved: match values are not lists (guessit produces none) |
| C45 | Suggested expected titles | `Api.v`, `Options.v`, `ToDict.v` | `ApiProps.v` | filter equation | proved |
| C46 | Command line: every filename is guessed once | `CommandLine.v` | `CommandLineProps.v` | trace equation | proved: the whole of __main__.py from the merged options; argparse, JSON/YAML printing and logging are parameters or events |
| C47 | Byte input gives byte output | `Api.v`, `Options.v`, `ToDict.v` | `ApiProps.v` | case equation, map over values | proved: values textual and ASCII; argparse SystemExit is not wrapped; input_string stays text |
| C48 | properties() listing | `CommandLine.v` | `CommandLineProps.v` | sorted+permutation; witness | proved: from the introspection result (a parameter); listing order, KeyError without count |
| C49 | Bracket groups equal to a path part are not cropped (limit) | `Formatters.v`, `Processors.v`, `Title.v` | `TitleProps.v` | index-loop invariant; witness | proved: Groups equal to a path part do not cut titles; limit: the second of two consecutive ones still cuts (list modified while iterated). |
| C50 | Episode titles of movies | `EpisodeTitle.v`, `Formatters.v`, `Processors.v`, `Title.v`, `TitleMore.v` | `EpisodeTitleProps.v` | case equation; witness | proved: C50_limit: without a type match (type excluded) the episode title of an episode is renamed. |
| C51 | Trimming a match | `Common.v`, `Date.v`, `Formatters.v`, `Processors.v`, `Words.v` | `CommonProps.v`, `ProcessorsProps.v` | while-loop invariants; witness | proved: both trimming functions |
| C52 | Validator combinators | `Common.v`, `Formatters.v` | `CommonProps.v` | induction on the list of validators with call trace | proved |
| C53 | Independent options stay independent unless objects are shared | `Heap.v`, `HeapOwn.v`, `HeapRefine.v`, `Options.v` | `HeapProps.v`, `HeapShareProps.v` | store model refined to the value model: separated footprints counted with multiplicity, induction on the recursion limit; witness of sharing | proved: the sharing case is refuted by a witness; the no-sharing case is a refinement of the heap model to the value model |
| C54 | Matches touching brackets include them | `Common.v`, `Date.v`, `Processors.v`, `Words.v` | `ProcessorsProps.v` | loop invariant over the matches of a marker; exact new bounds | proved: raw bounds unset before; no two matches become equal when extended |
| C55 | Validation of 'other' values | `Common.v`, `Formatters.v`, `Numeral.v`, `Other.v` | `OtherProps.v` | prefix characterisation of the neighbours examined; iff per rule | proved: ValidateStreamingServiceNeighbor is in C74 |
| C56 | Rules on languages and subtitle languages | `Common.v`, `Language.v` | `LanguageRulesProps.v` | exact condition per rule, by induction over the matches in order; witness of the failure | proved: The six rules of language.py; two overlapping languages after a prefix make the prefix rule raise (C56_prefix_limit). |
| C57 | Which text becomes a title | `Formatters.v`, `Processors.v`, `Title.v` | `TitleMore.v`, `TitleProps.v` | holes characterised as maximal free zones; title = the chosen hole, by case analysis on its neighbours | proved: C57_limit: the rule raises ValueError when an ignored match crosses the start of a hole. |
| C58 | Titles next to a year are preferred | `Formatters.v`, `Processors.v`, `Title.v` | `TitleMore.v` | uniqueness of the year's neighbour among disjoint parts | proved: Under disjoint path parts and years. |
| C59 | Which text becomes an episode title | `EpisodeTitle.v`, `Formatters.v`, `Processors.v`, `Title.v`, `TitleMore.v` | `EpisodeTitleProps.v` | same hole vocabulary as C57; iff per rule | proved |
| C60 | Titles taken from the folders of an episode | `EpisodeTitle.v`, `Formatters.v`, `HolesMore.v`, `Processors.v`, `Title.v`, `TitleMore.v` | `FolderTitleProps.v` | equational characterisation of both rules; witness | proved: exact behaviour of both rules; every match is assumed to have a name |
| C61 | Film and bonus titles | `EpisodeTitle.v`, `Formatters.v`, `HolesMore.v`, `Processors.v`, `Title.v`, `TitleMore.v` | `NumberTitleProps.v` | hole between the number and the next match; soundness and existence; witness | proved: sound, found, and the limit for film titles below a folder |
| C62 | Years and parts that are words of an episode title are not properties | `EpisodeTitle.v`, `Formatters.v`, `HolesMore.v`, `Processors.v`, `Title.v`, `TitleMore.v` | `TitleConflictProps.v` | iff on the matches removed, ordered by position | proved: exact but for ties in position, where both directions are stated |
| C63 | Weak episode numbers give way to better evidence, and only then | `Common.v`, `EpisodeRules.v`, `EpisodeTitle.v`, `Episodes.v`, `Formatters.v`, `HolesMore.v`, `Title.v`, `TitleMore.v` | `EpisodeRulesProps.v`, `EpisodeWeakProps.v` | iff conditions, by induction over the parts of the path | proved: exact conditions for each of the three rules |
| C64 | Details, versions and single digits are kept only in context | `Common.v`, `EpisodeRules.v`, `EpisodeTitle.v`, `Episodes.v`, `Formatters.v`, `HolesMore.v`, `Title.v`, `TitleMore.v` | `EpisodeRulesProps.v` | iff conditions on the surviving matches | proved: exact; the digit rule for matches of one character with groups apart |
| C65 | A count is named after what it counts | `Common.v`, `EpisodeRules.v`, `EpisodeTitle.v`, `Episodes.v`, `Formatters.v`, `HolesMore.v`, `Title.v`, `TitleMore.v` | `EpisodeRulesProps.v` | iff on the renamed matches | proved: exact |
| C66 | Of duplicate weak numbers the last one stays, and a small number apart from a range goes | `Common.v`, `EpisodeRules.v`, `EpisodeTitle.v`, `Episodes.v`, `Formatters.v`, `HolesMore.v`, `Title.v`, `TitleMore.v` | `EpisodeWeakProps.v` | last-of-name characterisation; gap condition between consecutive numbers | proved: exact; ties of span for the same name and pattern excluded |
| C67 | A number with a d marker is a disc | `Common.v`, `EpisodeRules.v`, `EpisodeTitle.v`, `Episodes.v`, `Formatters.v`, `HolesMore.v`, `Title.v`, `TitleMore.v` | `EpisodeMoreProps.v` | iff on the renamed matches | proved: exact |
| C68 | After a marked season or episode, inconsistent ones are dropped with their whole pattern | `Common.v`, `EpisodeRules.v`, `EpisodeTitle.v`, `Episodes.v`, `Formatters.v`, `HolesMore.v`, `Title.v`, `TitleMore.v` | `EpisodeMoreProps.v` | fold invariant over the marked matches: kept iff consistent | proved: exact; one number per place |
| C69 | Conflicts between a number and another match are decided by their kinds | `Common.v`, `EpisodeRules.v`, `EpisodeTitle.v`, `Episodes.v`, `Formatters.v`, `HolesMore.v`, `Title.v`, `TitleMore.v` | `EpisodeSolverProps.v` | decision table of the solver as an iff; witness of order dependence | proved: exact; order independence refuted when both give way |
| C70 | Three-digit numbers are read as an absolute number in an anime and split otherwise | `Common.v`, `EpisodeRules.v`, `EpisodeTitle.v`, `Episodes.v`, `Formatters.v`, `HolesMore.v`, `Title.v`, `TitleMore.v` | `EpisodeSolverProps.v` | exact split of the numbers; witness of the leaking accumulator | proved: exact; C70_limit shows the state leaks to later components |
| C71 | Absolute episode numbers are told from relative ones | `Common.v`, `EpisodeRules.v`, `EpisodeTitle.v`, `Episodes.v`, `Formatters.v`, `HolesMore.v`, `Title.v`, `TitleMore.v` | `AbsoluteProps.v` | exact condition by comparison of the sorted values; witness | proved: exact |
| C72 | An audio property stays only where another audio property or a separator bounds it | `Common.v`, `EpisodeRules.v`, `EpisodeTitle.v`, `Episodes.v`, `Technical.v`, `Title.v` | `TechnicalProps.v` | iff on neighbours or separators | proved: audio_codec.py rules |
| C73 | A video codec stays only between separators or declared neighbours, a video profile only next to a codec | `Common.v`, `EpisodeRules.v`, `EpisodeTitle.v`, `Episodes.v`, `Technical.v`, `Title.v` | `TechnicalProps.v` | iff; witness of the off-by-one | proved: video_codec.py rules; C73_limit: the suffix is looked for one character too far |
| C74 | A streaming service is reported only next to a matching technical property | `Common.v`, `EpisodeRules.v`, `EpisodeTitle.v`, `Episodes.v`, `Language.v`, `Technical.v`, `Title.v` | `SourceProps.v` | iff on neighbouring technical properties | proved: streaming_service.py and other.py:ValidateStreamingServiceNeighbor |
| C75 | A source stays only between separators or declared neighbours; a weak WEB gives way; Ultra HD Blu-ray is recognised | `Common.v`, `EpisodeRules.v`, `EpisodeTitle.v`, `Episodes.v`, `HolesMore.v`, `Language.v`, `Technical.v`, `Title.v` | `SourceProps.v`, `UltraProps.v` | iff; witnesses | proved: source.py rules; C75_limit: touching prefixes of one or two characters are not seen |
| C76 | A text counts as a whole number exactly if it is digits, possibly signed, grouped by single underscores, with spaces around | `EpisodeRules.v`, `Title.v` | `IntProps.v` | scanner against the grammar of Python integers | proved: int() on ASCII texts |
| C77 | Without a known release group, the first free brackets of each path component give one | `Common.v`, `EpisodeRules.v`, `EpisodeTitle.v`, `Episodes.v`, `Processors.v`, `ReleaseGroup.v`, `Technical.v`, `Title.v` | `AnimeGroupProps.v` | first-free-bracket characterisation, per component | proved: AnimeReleaseGroup |
| C78 | Scene release groups | `Common.v`, `EpisodeRules.v`, `EpisodeTitle.v`, `Episodes.v`, `Formatters.v`, `GroupName.v`, `HolesMore.v`, `Processors.v`, `ReleaseGroup.v`, `Technical.v`, `Title.v` | `SceneGroupProps.v` | exact for one component; bounds for several | proved: C78_one is exact for a name of one path component; C78_only bounds what happens for any number of components |
| C79 | Dash-separated release groups | `Common.v`, `EpisodeRules.v`, `EpisodeTitle.v`, `Episodes.v`, `Formatters.v`, `GroupName.v`, `HolesCut.v`, `HolesMore.v`, `Processors.v`, `ReleaseGroup.v`, `Technical.v`, `Title.v` | `DashGroupProps.v` | exact for any number of components, induction over them; witness | proved: exact for every number of components; C79_limit shows a separator before the dash hides the group |
| C80 | Websites give way to titles, prefixes need a website | `Common.v`, `EpisodeRules.v`, `EpisodeTitle.v`, `Episodes.v`, `Formatters.v`, `HolesCut.v`, `HolesMore.v`, `Language.v`, `Processors.v`, `ReleaseGroup.v`, `Technical.v`, `Title.v` | `WebsiteProps.v` | iff on matches removed; witness | proved: C80_limit: another prefix counts as a website |
| C81 | Equivalent values | `Common.v`, `EpisodeRules.v`, `EpisodeTitle.v`, `Episodes.v`, `Equivalent.v`, `Formatters.v`, `HolesCut.v`, `HolesMore.v`, `Language.v`, `Processors.v`, `ReleaseGroup.v`, `Technical.v`, `Title.v` | `EquivalentProps.v` | soundness, completeness and frame of the equivalents; witness | proved: EquivalentHoles: sound, complete and framed; the disagreement of equivalents is shown |
| C82 | Every match is a non-empty zone of the input | `Common.v`, `EpisodeRules.v`, `EpisodeTitle.v`, `Episodes.v`, `Equivalent.v`, `Formatters.v`, `GroupName.v`, `HolesCut.v`, `HolesMore.v`, `Language.v`, `Other.v`, `Pipeline.v`, `Processors.v`, `ReleaseGroup.v`, `ScreenSize.v`, `SmallRules.v`, `Technical.v`, `Title.v` | `PipelineProps.v` | invariant of a relation with one constructor per rule, for every sequence of rules | proved: The rules are one relation (step) with a constructor per rule; runs_rules is any sequence of them. Premises on a step: children are inside their initiator, range separators are not empty texts, and for EquivalentHoles no match has an empty text (C82_text_limit shows a release group can be empty). The matches the patterns give, and the markers, are assumed to be placed. |
| C83 | Excluded properties do not come back through rules | `Common.v`, `EpisodeRules.v`, `EpisodeTitle.v`, `Episodes.v`, `Equivalent.v`, `Formatters.v`, `GroupName.v`, `HolesCut.v`, `HolesMore.v`, `Language.v`, `Other.v`, `Pipeline.v`, `Processors.v`, `ReleaseGroup.v`, `ScreenSize.v`, `SmallRules.v`, `Technical.v`, `Title.v` | `PipelineProps.v` | invariant on the names produced by each rule; witnesses | proved: The names the patterns give are those of the start list; C83_limit shows nine properties that come back although excluded. |
| C84 | Years and checksums: exactly the lone ones | `Date.v`, `Episodes.v`, `Numeral.v`, `Patterns.v`, `Quantity.v` | `PatternsProps.v` | matcher semantics (sound and complete) plus greedy lemmas: iff | proved: exact characterisation of the pattern matches; rebulk's RePattern is transcribed |
| C85 | Films, bonuses and weeks: exactly the written ones | `Date.v`, `Episodes.v`, `Numeral.v`, `Patterns.v`, `Quantity.v` | `PatternsProps.v` | same | proved: exact characterisation of the public matches |
| C86 | Sizes and bit rates: exactly the lone amounts | `Date.v`, `Episodes.v`, `Numeral.v`, `Patterns.v`, `Quantity.v` | `PatternsProps.v` | same; leftmost-longest argument for the decimals | proved: exact characterisation of spans and values |
| C87 | S01E02 is recognised wherever it stands, and nothing else is | `Chain.v`, `Date.v`, `EpisodeChains.v`, `Episodes.v`, `Numeral.v`, `Patterns.v`, `Quantity.v` | `SxxProps.v` | induction over the repetitions of the chain; the chain loop of rebulk unfolded at each repeat | proved: model of rebulk chains (Chain.v) transcribed; ASCII digits and case |
| C88 | S01 alone and 1x02 are recognised | `Chain.v`, `Date.v`, `EpisodeChains.v`, `Episodes.v`, `Numeral.v`, `Patterns.v`, `Quantity.v` | `XxProps.v` | same as C87; exceptions characterised exactly | proved: model of rebulk chains (Chain.v) transcribed; the two exceptions are exhibited in C88_limit |
| C89 | Disc numbers: what is recognised, exactly | `Chain.v`, `Date.v`, `EpisodeChains.v`, `Episodes.v`, `Numeral.v`, `Patterns.v`, `Quantity.v` | `DiscProps.v` | same as C84 | proved: iff characterisation of the cd and cd_count patterns before conflict solving |
| C90 | Configured keywords standing alone are recognised, and nothing else is | `DefaultConfig.v`, `Episodes.v`, `Keyword.v`, `PatternConf.v`, `Patterns.v` | `KeywordProps.v`, `KeywordTable.v` | expressions expanded to finitely many alternatives, overlap checks decided by computation, proved sound for every text | proved: Theorems in KeywordProps.v (any entry) and KeywordTable.v (default configuration, written out in DefaultConfig.v by a script). LAME with a version and Repack/Rerip with a count: see C114; not read: three editions with two values. C90_limit: 4k.remaster hides remaster. |
| C91 | Screen sizes and frame rates are recognised wherever they stand alone, whatever the order of the configured sets | `Episodes.v`, `Keyword.v`, `KeywordTable.v`, `Patterns.v`, `Quantity.v`, `ScreenFound.v`, `ScreenPatterns.v`, `ScreenSize.v` | `ScreenFoundProps.v`, `ScreenPatternsProps.v` | same as C90, plus permutation invariance of alternatives that are apart, and a finer greedy check | proved: the four size patterns, 4k, WxH and frame rate patterns with the default configuration in any set order; conflict solving between them is C69 |
| C92 | Parts: exactly the spellings that are recognised | `Date.v`, `EpisodeRules.v`, `Episodes.v`, `Numeral.v`, `NumeralRe.v`, `Patterns.v`, `RegexOuts.v` | `PartProps.v` | all outcomes of the expression as a list, first outcome computed; canonical Roman numerals = greedy digits; isolation: no numeral reads a separator before a p | proved: exact: sound and complete for every input; default prefixes pt, part; ASCII case folding |
| C93 | Episodes and seasons written with words | `Chain.v`, `Date.v`, `EpisodeChains.v`, `EpisodeNumerals.v`, `EpisodeRules.v`, `EpisodeWords.v`, `Episodes.v`, `Numeral.v`, `NumeralRe.v`, `Patterns.v`, `RegexOuts.v` | `EpisodeAll.v`, `EpisodeNumerals.v`, `EpisodeWordsProps.v` | first outcome of the regular expressions computed exactly (RegexOuts), longest-run determinism, isolation at separators | proved: digits and whole seasons: exact; numerals: sound, and complete except capitulo right after another episode word (a limit of the code, shown by C93_limit_ex) |
| C94 | Names of languages and countries | `Country.v`, `Language.v`, `Names.v`, `Words.v` | `NamesProps.v` | dictionary semantics (last writer wins) over the configured lists; permutation argument for the order; words contain no separator | proved: babelfish constructors are parameters; ASCII case mapping |
| C95 | Objects named in a configuration | `Names.v`, `PatternConf.v`, `Resolve.v` | `ResolveProps.v` | invariant of the import cache (every entry is what a direct look-up gives), unique decomposition of a cache key at its last colon | proved: modules, attributes and eval are parameters |
| C96 | Bare numbers, e112, ep 112 and cap 112 are read as episodes | `Chain.v`, `Date.v`, `EpisodeChains.v`, `Episodes.v`, `Numeral.v`, `Patterns.v`, `Quantity.v` | `WeakProps.v` | the eight chains of bare numbers as in C87; each text is read in one way (opens_fun), the expression is greedy up to the separator, no earlier part of a chain can cross the separator before it unless a digit and a hyphen come before (C96_found, C96_version), and soundness by the structure of the chain (C96_sound) | proved: Rocq model of the eight chains over rebulk's Chain (Chain.v, EpisodeChains.v); conflicts with other patterns are not part of the model |
| C97 | Overlapping matches | `Conflicts.v` | `ConflictsProps.v` | Conflicts.v transcribes the solver loop with object identities; invariant: whatever is removed was beaten by something not yet removed. | proved: rebulk's ConflictSolver and PrivateRemover are transcribed from memory of rebulk 3.2.0 (not in /repo), as Rebulk.v is; C97_settled and C97_extension assume no two equal matches. |
| C98 | No silent loss: the rules lose a found value only for one of a few reasons | `Common.v`, `EpisodeRules.v`, `EpisodeTitle.v`, `Episodes.v`, `Equivalent.v`, `Formatters.v`, `Language.v`, `Other.v`, `Pipeline.v`, `Processors.v`, `ReleaseGroup.v`, `ScreenSize.v`, `SmallRules.v`, `Technical.v`, `Title.v` | `InventProps.v`, `SurviveProps.v` | for each of the 74 rules a lemma that says what it removes and replaces, then induction on the run with the bounds of C82 | proved: For every rule of the model (Pipeline.step) and every run; C98_limit shows that a checksum after a last dash is really lost. The initiator, children and ancestors of matches are arguments constrained by family/lineage (parent names); simplification stated in Pipeline.v. |
| C99 | No invention: a value in the result was found by a pattern | `Common.v`, `EpisodeRules.v`, `EpisodeTitle.v`, `Episodes.v`, `Equivalent.v`, `Formatters.v`, `Language.v`, `Other.v`, `Pipeline.v`, `Processors.v`, `ReleaseGroup.v`, `ScreenSize.v`, `SmallRules.v`, `Technical.v`, `Title.v` | `InventProps.v` | a backward simulation over the 74 rules (every rule's output match is either of a made property or a copy, rename or respelling of an input match), lifted to runs by induction | proved: Over Pipeline.v's step relation (74 rules), any number of them in any order. Premises: markers lie in the text and have no parent, matches lie in the text. C99_limit shows the list of made properties is needed (S01E02-04 yields episode 3). |
| C100 | From the patterns to the dictionary: what is shown was found, and what was found is shown unless something took it | `Common.v`, `Conflicts.v`, `Guess.v`, `Pipeline.v`, `ToDict.v` | `GuessProps.v` | composition of C97 (conflicts), C98/C99 (simulations forwards and backwards over the rules) and C44 (dictionary), by induction over the process | proved: Guess.v composes Conflicts.v, Pipeline.v (74 rules) and ToDict.v. Premises: markers and matches lie in the text, markers have no parent; shown values are not lists. The patterns' matches are an arbitrary list. |
| C101 | Counts without a word: 3 of 12; a version alone: v2 | `Chain.v`, `Common.v`, `Date.v`, `EpisodeChains.v`, `EpisodeCounts.v`, `EpisodeRules.v`, `EpisodeWords.v`, `Episodes.v`, `Numeral.v`, `NumeralRe.v`, `Patterns.v`, `RegexOuts.v` | `EpisodeCountsProps.v` | the alternatives of the expression in the order they are tried (RegexOuts), the trimming of the match (C51) and the leftmost search | proved: exact up to a number that is itself a count of an earlier match (1 of 2 of 3: the second pair is not seen); sound without condition |
| C102 | Complete seasons in words | `Common.v`, `CompleteWords.v`, `Keyword.v`, `PatternConf.v`, `Patterns.v` | `CompleteWordsProps.v` | the expression built by build_or_pattern is read by the reader of Keyword.v; its texts by structural recursion, its captures by inversion | proved: for the season words and articles of options.json |
| C103 | The JSON output is valid JSON and says exactly what the guess holds | `Json.v`, `Numeral.v`, `Quantity.v` | `JsonProps.v` | an independent RFC 8259 grammar (says); a reader proved complete for it gives unambiguity; induction on the printed value | proved: JSON output; float repr is a parameter (finite floats); C103_limit: an object and a text of the same name print alike |
| C104 | Command line options set exactly the options they are documented to set | `Args.v` | `ArgsProps.v`, `ArgsShort.v` | an independent table of the options and an inductive description of command lines; simulation of the argparse loop group by group | proved: argparse (Python 3.11) transcribed for this parser; C104_short and C104_ambiguous are about shortened long options |
| C105 | Options given as one text mean the same as the list of their words | `Api.v`, `Args.v`, `OptionText.v` | `OptionTextProps.v` | an inductive description of quoting; simulation of the shlex automaton piece by piece | proved: shlex.split transcribed (posix, no comments) |
| C106 | A configuration in JSON is read for what it says, in a file or in place of its name | `Json.v`, `JsonRead.v`, `Numeral.v`, `Options.v` | `JsonReadProps.v` | soundness and completeness of the transcribed JSON decoder against a grammar (mutual induction on the grammar one way, on fuel the other), ends of lines by a rewriting argument on the grammar, then load_config_file and load_config | proved: json.loads is transcribed (decoder and scanner); floats are what a function makes of their text; the limit on the depth of nesting and yaml.load are not modelled |
| C107 | Dates written with numbers are read as their writer meant them | `Date.v`, `DateParse.v`, `Numeral.v`, `Patterns.v`, `Quantity.v` | `DateParseProps.v` | `DateParse.v`, `DateParseProps.v`: search_date with dateutil's numeric parser. When a name has one date only, every expression that finds something finds this place with these numbers (soundness of the expressions and uniqueness of digit runs), the expression of this shape does find it (completeness of matching), and the first order tried gives the date; the calendar is specified by divisibility. | proved: dateutil's numeric parsing is transcribed in DateParse.v; dates written with the name of a month are a parameter here and are given by C113. C107_shifted_refuted records a misreading. |
| C108 | Seasons written with a word | `Chain.v`, `Date.v`, `EpisodeChains.v`, `EpisodeNumerals.v`, `EpisodeRules.v`, `EpisodeWords.v`, `Episodes.v`, `Numeral.v`, `NumeralRe.v`, `Patterns.v`, `RegexOuts.v`, `SeasonWords.v` | `SeasonWordsProps.v` | what each part of the chain reads exactly (backtracking included), that no chain begun before can swallow the word, and that the validator of the order accepts two seasons with a range separator (SeasonWordsProps.v) | proved: model in SeasonWords.v (chain of parts of rebulk in Chain.v); the separators of C108_range are range separators; lists with discrete separators are only in C108_sound |
| C109 | Rules run in a fixed, dependency-respecting order | `Schedule.v` | `ScheduleProps.v` | Schedule.v transcribes the scheduler and the rule table; levels of toposort are shown to be the longest chains of waits (induction on rounds), the whole order strongly sorted by priority, depth, load index; cycles by a knot invariant; guessit by a rank on the table checked by computation and a lemma on effective_rules for every exclusion | proved: Schedule.v: the rule table of guessit and rebulk's scheduler (rebulk itself is not in /repo: Rules.execute_all_rules, toposort_rules, effective_rules transcribed from memory). C109_limit: excluding properties can swap two unrelated rules. |
| C110 | The YAML output says exactly what the guess holds | `CommandLine.v`, `Json.v`, `Yaml.v` | `YamlProps.v` | Yaml.v models representers, the emitter layout of block mappings and the printed lines; the document grammar is a separate relation, proved to hold of the output and to be unambiguous (spans of continuation lines, keys without colon); failures and the two broken cases exactly | proved: Yaml.v: representers, block layout of PyYAML's emitter (transcribed), the lines printed; the writing of one scalar is a parameter with the hypothesis that it can be read back. The loader OrderedDictYAMLLoader (used by the test suite only) is not modelled. |
| C111 | Websites: what is found is written as one, and what is written as one is found | `Date.v`, `Episodes.v`, `Patterns.v`, `RegexOuts.v`, `Sites.v` | `SitesProps.v` | languages of the three expressions; the first success of a starred part cannot be lengthened (lemma on the backtracking matcher), cuts of a text at its dots, isolation from earlier matches; data file by induction on lines | proved: Sites.v: the three expressions of website.py and the reading of the list of domains; rebulk's RePattern and the re module as in the other patterns (ASCII case). The rules on websites are C80. |
| C112 | Which of two overlapping properties is kept | `Conflicts.v`, `EpisodeRules.v`, `Solvers.v` | `SolversProps.v` | the table of the solvers as two relations on matches; from C97_reason and C97_settled by cases on who speaks first | proved: the kind of the pattern each match comes from is a parameter; rebulk's ConflictSolver as in C97; matches distinct by span, value, name |
| C113 | A date written with the name of a month is read as that day, and a day or a word that does not exist makes no date | `Date.v`, `DateParse.v`, `MonthDate.v`, `Numeral.v`, `Patterns.v`, `Quantity.v` | `MonthDateProps.v` | the lexer and the parser of dateutil are run by cases on the two separators and on the dots; then by the search theorems of C107 | proved: dateutil is not part of the repository: its lexer and the part of its parser that these dates reach are transcribed from memory (MonthDate.v). Words that make it complete the date from the current day (weekdays, hours, utc, and) are left to a parameter. C113_limit: a year written 0012 is read as 2012 after a space and refused after two equal separators. |
| C114 | Repack and Rerip with a count, and LAME with a version, are found exactly where they are written | `Counted.v`, `Date.v`, `Episodes.v`, `Numeral.v`, `Patterns.v`, `RegexOuts.v` | `CountedProps.v` | backtracking of the star (star_back: the longest run after which the rest matches); uniqueness of what is written between separators | proved: Exact both ways: what is found is what is written. ASCII digits. C114_counts uses the same specification of the count as C39. |
| C115 | Codecs, audio channels, sources and editions are kept | `Common.v`, `Conflicts.v`, `EpisodeRules.v`, `EpisodeTitle.v`, `Episodes.v`, `Equivalent.v`, `Formatters.v`, `Guess.v`, `Language.v`, `Other.v`, `Pipeline.v`, `Processors.v`, `ReleaseGroup.v`, `ScreenSize.v`, `SmallRules.v`, `Technical.v`, `Title.v`, `ToDict.v` | `SpareGuess.v`, `SpareProps.v` | rule by rule, as C98, with sharper causes for the technical properties and exact spans; C115_run by induction on the run; C115_alone puts it together with the conflict solver (C97), no invention (C99) and to_dict | proved: SpareProps.v, SpareGuess.v: the causes are written with the separators, the values and the places only; C115_alone goes from the matches of the patterns to the dictionary; C115_limit shows that a glued codec does go |
| C116 | In a plain file name every codec, source, edition, date, size or checksum found is shown | `Common.v`, `Conflicts.v`, `Guess.v`, `Pipeline.v`, `ToDict.v` | `SpareGuess.v` | C115 at every moment of the process, no invention (C99) for the privacy and the tags of the values, RemoveAmbiguous taking nothing when the path has one part, and to_dict | proved: SpareGuess.v: from the matches of the patterns to the dictionary; C116_shown_ex has a year, two codecs and a group after a dash |

## Findings

Each is a theorem (name in parentheses) or a remark of the property's note.

* The first layer's `pristine` is copied as an option; byte and text keys of one name clash; the merged result shares nested
  objects with the layers and a shared list leaks from one option to another (C05, C53).
* A failed build or a failed advanced merge leaves stale configuration behind; two API instances interfere; a custom builder is
  lost on the next configuration (C09, C10 and following).
* "(a]" is a bracket group (markers); `reorder_title` is not idempotent; "dix" reads as 509 (numerals).
* 1GB == 1.0GB but their hashes differ (quantities); a size without unit cannot be parsed back.
* The guessed `day_first` leaks into later dates; excludes given as a text mean a substring; `build_or_pattern([])` is ")".
* Stripping a match made of separators only raises; `StripSeparators` may raise IndexError.
* `load_config_patterns` changes the configuration it is given; expected regular expressions see a modified input and an empty
  expected text diverges.
* A screen size of zero height raises ZeroDivisionError (C38); `ProperCount` forgets matches at position 0 (C39);
  `ValidateHasNeighbor` stops at the first valid match (C40).
* Country spans are shifted when the input starts with blanks, an unknown synonym raises (C42); a language suffix is not seen on the
  first word (C43); overlapping languages after a prefix raise (C56_prefix_limit).
* `holes_process` removes from the list it iterates (C49_limit); excluding `type` renames episode titles (C50_limit); a title rule
  raises when an ignored match crosses the start of a hole (C57_limit); both folder rules can add a title (C60_limit); a film title
  below a folder is lost (C61_film_limit).
* " - " between two patterns does not join them (C36_spaced_limit), ranges between patterns are unbounded (C36_unbounded), a number may
  come back after a greater one (C37_limit), the conflict solver depends on the order (C69_limit), weak-conflict state leaks to later
  components (C70_limit), a lone three-digit number at the start becomes an absolute episode (C71_limit).
* A blank command-line name is guessed, a blank line of a file is not (C46_limit); `properties()` is unsorted and fails without count (C48).
* The suffix of a video codec is looked for one character too far (C73_limit); the prefix range of a source is reversed (C75_limit),
  a far "Ultra HD" is hidden (C75_ultra_limit).
* A separator before the dash hides a dash release group (C79_limit); another website prefix counts as a website (C80_limit);
  equivalent values can disagree in case (C81_limit); "[rip]" gives an empty release group (C82_text_limit).
* Nine properties come back although excluded (C83_limit).
* "12.50 GB" also yields "50 GB" (C86); "3x 1x2" hides 1x2 (C88_limit); "cd1 of 100" hides cd 1, "abcd07" gives cd 7 (C89);
  "4k.remaster" hides "remaster" (C90_limit); "720x 1920x800" hides 1920x800 and sets of heights or rates of which one starts another make
  the result depend on the hash seed (C91_limit, C91_order_limit).
* "part deux", "part cinq", "part dix", "part fourteen", "part une" are never read although `parse_numeral` understands them; "partII" is not
  a part while "part2" is (C92_limit).
* With `type: episode`, "Episodio 3" is never read ("ep" is tried first and "i" taken as Roman one), and "capitulo 3" is missed right after
  another episode word, whose Roman C it starts with (C93_limit_ex).
- C94: country synonyms of several words (`latin america` in the default configuration) are never found, because countries are looked for word by word; a synonym listed for an unknown language code makes the guess fail with ValueError.
- C95: `import:module:name` cannot name a top-level module (no dot: the whole text is looked up in the default module); `import:name` is a TypeError for conflict solvers and callables.
- C96: in "1234-56" the number 56 stands alone but is lost with the chain it belongs to, which starts with an impossible head (C96_limit).
- Excluding `alternative_title` alone disables every title rule of title.py; `output_input_string` of a configuration file is overridden by the parser default; `--advanced --yaml` raises RepresenterError; "Season 1 of 3" gets no season count.
- C97: a match can be removed in favour of one that is removed itself, so a text may end with no property although a match of it was found (C97_limit).
- C98: whatever comes last in a dotted name after a dash (a crc32, an episode number, a codec) is removed and becomes the release group when no release group was found (release_group.py:157-200; C98_limit).
- C101: "3 of 12 episodes" (also episodio, episodios, capitulos, or a title word such as Epilogue) gives no episode and no count: the alternation stops at `episode`/`ep` and the match is then not between separators; "3 of 12 episode" is understood (C101_limit).
- C104: names on both sides of an option (`guessit a.avi -j b.avi`) are refused by argparse with "unrecognized arguments" (C104_split).
- C105: in a text of options an apostrophe opens a quotation: `guessit(name, "-T Ocean's")` raises (C105_open).
- C103: a language and a text of the same name print alike, and JSON prints names where YAML prints codes (C103_limit).
- C102: the second phrase of "complete season complete" is not seen; "Bathe complete season" is hidden by the article inside the word.
- C106: a configuration file starting with a byte order mark is refused (ValueError), like any error in a .json file it is not turned into a ConfigurationException, while the same text given in place of a name is; NaN and Infinity are accepted.
- C107: "Show.2002.04.22.10bit" is read as 22 April 2010 (the expression for three short numbers is tried before the one for a four-digit year and finds 04.22.10).
- C108: "Season 2 of 5" gives no count (only "Season 2of5" and "Season 2of 5" do: the separator before "of" is not accepted); "Season 1- 5" loses the 5 (the hyphen is taken as the optional separator and the blank becomes a weak separator) though "Season 1-5" and "Season 1 - 5" are read.
- Two rules without a dependency between them keep their relative order only while the same builders are on: excluding `film`, `language` and `subtitle_language` makes TitleFromPosition run before DashSeparatedReleaseGroup instead of after it (C109_limit). rebulk compares rules by class when it collects them, so (as transcribed) the second `RemoveLessSpecificSeasonEpisode('episode')` of processors.py is never run.
- `--yaml`: a file name of more than 122 characters (PyYAML then writes an explicit key itself) is printed as `? ? name` without its last character, and an empty guess as `? name: {` — neither is the YAML of the guess (C110_long, C110_nothing).
* websites (C111): `tlds-alpha-by-domain.txt` ends with a newline and `text.split('\n')` keeps the empty text after it, so the empty text is a registered domain: `www.title. 2010` yields the website `www.title.`; the expressions consume the character on each side, so of two websites separated by one character the second is lost (`foo.com bar.org`).
* dates with the name of a month (C113): "13 May 0012" is read as 13 May 2012 but "13-May-0012" is refused (dateutil gives the year 12 when the same separator is on both sides, and guesses the century otherwise). With a weekday, "and", or an hour word instead of a month, dateutil completes the date from the current day; that is outside the model.
