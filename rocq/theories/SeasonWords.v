(** Model of the chain of guessit/rules/properties/episodes.py:223-246: [Season 2 of 5], [Saison II], [Temporada 1-3].
    Simplifications: [\d] and case are ASCII; the words of a list are tried as texts ([build_or_pattern], property C15).
    Of rebulk/chain.py, not in /repo: a part is looked for by its expression alone; a part whose group is refused by its
    validator still moves the chain forward, but gives no match. The validator of the parts is asked about a group that is
    never at the beginning of the text given to it, so that what is before the part does not matter. *)
From Verif Require Import Py Text Regex Numeral Date Rebulk Episodes EpisodeRules Patterns Chain EpisodeChains NumeralRe EpisodeWords.
From Coq Require Import Arith.
Local Open Scope nat_scope.

(** options.json, episodes, season_words *)
Definition season_words : list str := map lit ["season"; "saison"; "seizoen"; "seasons"; "saisons"; "tem"; "temp"; "temporada"; "temporadas"; "stagione"]%string.
(** lines 159-164: the abbreviation of these patterns is [@] (rules/common/__init__.py:15 [alt_dash]), so that the hyphen of a word stays
    a hyphen; lines 233-236: numbers are read by [parse_numeral] *)
Definition hyphen_char : re := RChr (fun c => N.eqb c 45).
Definition sw_value (name t : str) : mval := if smem name [lit "season"; lit "count"] then numeral_of_text t else MvStr t.
(** lines 129-140 and 237: [validator={'season': validate_roman, 'count': validate_roman}] *)
Definition sw_child_valid (s : str) (m : mt) : bool := if smem (m_name m) [lit "season"; lit "count"] then validate_roman s m else true.
Definition sw_rx (r : re) (names : list (nat * str)) : rx := mk_rx r names [] [] true true true sw_value always sw_child_valid.
(** line 239: [(?P<seasonMarker>season|...)@?(?P<season>numeral)] *)
Definition sw_head : part :=
  mk_part (sw_rx (RSeq (RGrp 1 (rwords season_words)) (RSeq dash_opt (RGrp 2 (numeral_re hyphen_char)))) [(1, lit "seasonMarker"); (2, lit "season")]) (Some 1).
(** line 240: [(?:of|sur)@?(?P<count>numeral)], once at most *)
Definition sw_count : part := mk_part (sw_rx (RSeq (rwords of_words) (RSeq dash_opt (RGrp 1 (numeral_re hyphen_char)))) [(1, lit "count")]) (Some 1).
(** lines 241-243: [@?(?P<seasonSeparator>...|@)@?(?P<season>\d+)], any number of times *)
Definition sw_sep_re (cfg : epcfg) : re := RAlt (rwords (range_separators cfg ++ all_discrete cfg)) dash.
Definition sw_next (cfg : epcfg) : part :=
  mk_part (sw_rx (RSeq dash_opt (RSeq (RGrp 1 (sw_sep_re cfg)) (RSeq dash_opt (RGrp 2 digits1)))) [(1, lit "seasonSeparator"); (2, lit "season")]) None.
Definition sw_chain (cfg : epcfg) : chain := ep_chain cfg sw_head [sw_count; sw_next cfg] [] [].
(** a part whose groups are valid *)
Definition part_ok (s : str) (g : grp) : bool :=
  let '(p, (a, b, c)) := g in forallb (fun k => rx_child_valid (pt_rx p) s (rx_child (pt_rx p) a b k)) (rx_kids (pt_rx p) s c).
Definition season_matches (cfg : epcfg) (s : str) : list mt :=
  flat_map (fun l => chain_one (sw_chain cfg) s (filter (part_ok s) l)) (chain_loop (sw_chain cfg) s (S (List.length s)) 0).
Definition seen_seasons (s : str) := map (fun m => (m_start m, m_end m, m_name m, m_value m)) (filter (fun m => negb (m_private m)) (season_matches default_cfg s)).
Example seasons_1 : seen_seasons (lit "Show Season 2of 5 Saison.IV temporadas three Tem1 - 3&7 seasonix stagione-0042") =
  [(12, 13, lit "season", MvInt 2); (16, 17, lit "count", MvInt 5); (25, 27, lit "season", MvInt 4); (39, 44, lit "season", MvInt 3); (48, 49, lit "season", MvInt 1); (52, 53, lit "season", MvInt 3); (54, 55, lit "season", MvInt 7);
   (74, 78, lit "season", MvInt 42)].
Proof. vm_compute. reflexivity. Qed.
Example seasons_2 : seen_seasons (lit "Season 1- 5") = [(7, 8, lit "season", MvInt 1)] /\ seen_seasons (lit "Season 1 - 5") = [(7, 8, lit "season", MvInt 1); (11, 12, lit "season", MvInt 5)] /\
  seen_seasons (lit "Season 2 of 5") = [(7, 8, lit "season", MvInt 2)] /\ seen_seasons (lit "Season 1-3 5 9") = [(7, 8, lit "season", MvInt 1); (9, 10, lit "season", MvInt 3); (11, 12, lit "season", MvInt 5)].
Proof. vm_compute. repeat split; reflexivity. Qed.
