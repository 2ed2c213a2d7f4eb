(** Model of the patterns of guessit/rules/properties/episodes.py:250-267: [Episode 4 of 12], [Episode IV], [S01xAll].
    Simplifications: [\d] and case are ASCII; the words of a list are tried as texts ([build_or_pattern], property C15). *)
From Verif Require Import Py Text Regex Numeral Date Rebulk Episodes EpisodeRules Patterns Chain EpisodeChains NumeralRe.
From Coq Require Import Arith.
Local Open Scope nat_scope.

(** options.json, episodes *)
Definition episode_words : list str := map lit ["episode"; "episodes"; "eps"; "ep"; "episodio"; "episodios"; "capitulo"; "capitulos"]%string.
Definition of_words : list str := map lit ["of"; "sur"]%string.
Definition all_words : list str := [lit "all"].

(** the groups of a match, as matches *)
Definition kid_matches (m : mt) : list mt :=
  map (fun k => mk_mt (c_start k) (c_end k) (c_name k) (c_value k) (m_tags m) false (c_start k) (c_end k) (Some (mk_p (m_start m) (m_end m) (m_name m) (m_tags m))) []) (m_children m).
(** episodes.py:225-230: the validator of the whole match *)
Definition ep_parent_valid (cfg : epcfg) (s : str) (m : mt) : bool := ep_valid cfg s m (kid_matches m).
(** lines 251-252 and 257-258: [(?:v(?P<version>\d+))?(?:-?(?:of|sur)-?(?P<count>\d+))?] *)
Definition version_re : re := RSeq (one_of (lit "v")) (RGrp 3 digits1).
Definition of_re (ofs : list str) : re := RSeq dash_opt (RSeq (rwords ofs) (RSeq dash_opt (RGrp 4 digits1))).
Definition tail_re (ofs : list str) : re := RSeq (ropt version_re 1) (ropt (of_re ofs) 1).
Definition word_ep_re (words ofs : list str) (number : re) : re :=
  RSeq (RGrp 1 (rwords words)) (RSeq dash_opt (RSeq (RGrp 2 number) (tail_re ofs))).
Definition word_names : list (nat * str) := [(1, lit "episodeMarker"); (2, lit "episode"); (3, lit "version"); (4, lit "count")].
(** lines 250-253, for any type but [episode] *)
Definition digit_episode_rx (cfg : epcfg) : rx :=
  mk_rx (word_ep_re episode_words of_words digits1) word_names [] [] true true true ep_value (ep_parent_valid cfg) always.
(** lines 255-260, for the type [episode] *)
Definition numeral_episode_rx (cfg : epcfg) : rx :=
  mk_rx (word_ep_re episode_words of_words (numeral_re dash)) word_names [] [] true true true
        (fun name t => if str_eqb name (lit "episode") then numeral_of_text t else ep_value name t)
        (ep_parent_valid cfg) (fun s m => if has_name (lit "episode") m then validate_roman s m else true).
(** [private_names] *)
Definition word_matches (p : rx) (s : str) : list mt := map (hide private_names) (rx_matches p s).

(** lines 262-265: [S?(?P<season>\d+)-?(?:xE|Ex|E|x)-?(?P<other>All)] *)
Definition all_re : re :=
  RSeq (ropt (one_of (lit "s")) 1) (RSeq (RGrp 1 digits1) (RSeq dash_opt (RSeq (rwords (map lit ["xe"; "ex"; "e"; "x"]%string)) (RSeq dash_opt (RGrp 2 (rwords all_words)))))).
Definition all_rx (cfg : epcfg) : rx :=
  mk_rx all_re [(1, lit "season"); (2, lit "other")] [] [lit "SxxExx"] true true true
        (fun name t => if str_eqb name (lit "other") then MvStr (lit "Complete") else ep_value name t) (ep_parent_valid cfg) always.
Definition seen_rx (p : rx) (s : str) := map (fun m => (m_start m, m_end m, m_name m, m_value m)) (filter (fun m => negb (m_private m)) (word_matches p s)).
Example words_1 : seen_rx (digit_episode_rx default_cfg) (lit "Show Episode 4 of 12 eps.05v2 Episodio-6sur7 episode IV") =
  [(13, 14, lit "episode", MvInt 4); (18, 20, lit "count", MvInt 12); (25, 27, lit "episode", MvInt 5); (28, 29, lit "version", MvInt 2); (39, 40, lit "episode", MvInt 6); (43, 44, lit "count", MvInt 7)].
Proof. vm_compute. reflexivity. Qed.
Example words_2 : seen_rx (numeral_episode_rx default_cfg) (lit "Show Episode IV of 12 eps.05v2 Episodio-6 episode six") =
  [(13, 15, lit "episode", MvInt 4); (19, 21, lit "count", MvInt 12); (26, 28, lit "episode", MvInt 5); (29, 30, lit "version", MvInt 2); (50, 53, lit "episode", MvInt 6)].
Proof. vm_compute. reflexivity. Qed.
Example words_3 : seen_rx (all_rx default_cfg) (lit "Show S2.xE.All 3xALL") = [(6, 7, lit "season", MvInt 2); (11, 14, lit "other", MvStr (lit "Complete")); (15, 16, lit "season", MvInt 3); (17, 20, lit "other", MvStr (lit "Complete"))].
Proof. vm_compute. reflexivity. Qed.
