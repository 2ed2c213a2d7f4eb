-Q theories Verif
theories/Py.v
theories/PyFacts.v
theories/Options.v
theories/OptionsSpec.v
theories/OptionsProofs.v
theories/OptionsProps.v
theories/Heap.v
theories/HeapProofs.v
theories/HeapProps.v
theories/ToDict.v
theories/Api.v
theories/ApiProofs.v
theories/ToDictProofs.v
theories/ApiProps.v
theories/Sort.v
theories/Text.v
theories/TextFacts.v
theories/Markers.v
theories/MarkersProps.v
theories/Words.v
theories/WordsProofs.v
theories/WordsProps.v
theories/Formatters.v
theories/FormattersProofs.v
theories/FormattersProps.v
theories/Numeral.v
theories/NumeralProofs.v
theories/NumeralProps.v
theories/Quantity.v
theories/QuantityProofs.v
theories/QuantityProps.v
theories/Regex.v
theories/Crc.v
theories/CrcProofs.v
theories/CrcProps.v
theories/Date.v
theories/DateProofs.v
theories/DateProps.v
theories/Common.v
theories/CommonProofs.v
theories/CommonProps.v
theories/PatternConf.v
theories/PatternConfProofs.v
theories/PatternConfProps.v
theories/Expected.v
theories/ExpectedProofs.v
theories/ExpectedProps.v
theories/GroupName.v
theories/GroupNameProofs.v
theories/GroupNameProps.v
theories/Rebulk.v
theories/RebulkFacts.v
theories/Processors.v
theories/ProcessorsProofs.v
theories/ProcessorsSpec.v
theories/ProcessorsProps.v
theories/SmallRules.v
theories/RuleSpec.v
theories/SmallRulesProps.v
theories/ScreenSize.v
theories/ScreenSizeProps.v
theories/Other.v
theories/OtherProps.v
theories/Country.v
theories/CountryProps.v
theories/Language.v
theories/LanguageProps.v
theories/LanguageRulesProps.v
theories/Title.v
theories/TitleProofs.v
theories/TitleProps.v
theories/TitleMore.v
theories/EpisodeTitle.v
theories/EpisodeTitleProps.v
theories/HolesMore.v
theories/NumberTitleProps.v
theories/FolderTitleProps.v
theories/TitleConflictProps.v
theories/Episodes.v
theories/EpisodesProofs.v
theories/EpisodesProps.v
theories/OrderingProps.v
theories/EpisodeRules.v
theories/EpisodeRulesProps.v
theories/EpisodeWeakProps.v
theories/EpisodeMoreProps.v
theories/EpisodeSolverProps.v
theories/AbsoluteProps.v
theories/CommandLine.v
theories/CommandLineProps.v
theories/Technical.v
theories/TechnicalProps.v
theories/SourceProps.v
theories/UltraProps.v
theories/IntProps.v
theories/ReleaseGroup.v
theories/AnimeGroupProps.v
theories/SceneGroupProps.v
theories/HolesCut.v
theories/DashGroupProps.v
theories/WebsiteProps.v
theories/Equivalent.v
theories/EquivalentProps.v
theories/Pipeline.v
theories/PipelineProps.v
theories/RegexFacts.v
theories/Patterns.v
theories/PatternsProps.v
theories/Chain.v
theories/ChainProofs.v
theories/EpisodeChains.v
theories/SxxProps.v
theories/XxProps.v
theories/DiscProps.v
theories/Keyword.v
theories/KeywordProofs.v
theories/KeywordProps.v
theories/DefaultConfig.v
theories/KeywordTable.v
theories/ScreenPatterns.v
theories/ScreenPatternsProps.v
theories/ScreenFound.v
theories/ScreenFoundProps.v
theories/HeapOwn.v
theories/HeapRefine.v
theories/HeapShareProps.v
theories/RegexOuts.v
theories/NumeralRe.v
theories/NumeralReProofs.v
theories/PartProps.v
theories/EpisodeWords.v
theories/EpisodeWordsProofs.v
theories/EpisodeWordsProps.v
theories/EpisodeNumerals.v
theories/EpisodeAll.v
theories/Names.v
theories/NamesProps.v
theories/Resolve.v
theories/ResolveProps.v
theories/WeakProps.v
theories/Conflicts.v
theories/ConflictsProps.v
theories/SurviveProps.v
theories/InventProps.v
theories/Guess.v
theories/GuessProps.v
theories/EpisodeCounts.v
theories/EpisodeCountsProps.v
theories/CompleteWords.v
theories/CompleteWordsProps.v
theories/Json.v
theories/JsonProps.v
theories/Args.v
theories/ArgsProps.v
theories/OptionText.v
theories/OptionTextProps.v
theories/JsonRead.v
theories/JsonReadProps.v
theories/DateParse.v
theories/DateParseProps.v
theories/SeasonWords.v
theories/SeasonWordsProps.v
theories/Schedule.v
theories/ScheduleProofs.v
theories/ScheduleProps.v
theories/Yaml.v
theories/YamlProps.v
theories/Sites.v
theories/SitesProps.v
theories/Solvers.v
theories/SolversProps.v
theories/MonthDate.v
theories/MonthDateProps.v
theories/ArgsShort.v
theories/Counted.v
theories/CountedProps.v
theories/SpareProps.v
theories/SpareGuess.v
