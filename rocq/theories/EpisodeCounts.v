(** Model of the last patterns of guessit/rules/properties/episodes.py:333-346: a version alone, [v2], and a count
    without a word before it, [3 of 12]. Same simplifications as EpisodeWords.v. *)
From Verif Require Import Py Text Regex Numeral Date Common Rebulk Episodes EpisodeRules Patterns Chain EpisodeChains NumeralRe EpisodeWords.
From Coq Require Import Arith ZArith.
Local Open Scope nat_scope.

(** lines 333-335: [v(?P<version>\d+)] *)
Definition version_rx (cfg : epcfg) : rx :=
  mk_rx (RSeq (one_of (lit "v")) (RGrp 1 digits1)) [(1, lit "version")] [] [] true true true (fun _ => int_of_text) (ep_parent_valid cfg) always.
(** line 337: the marker names are no longer private; no pattern below has them *)
Definition later_private_names : list str := [lit "episodeSeparator"; lit "seasonSeparator"].
(** lines 340-346: [(?P<episode>\d+)-?(?:of|sur)-?(?P<count>\d+)-?(?:episode|...)?] *)
Definition counted_re (words ofs : list str) : re :=
  RSeq (RGrp 1 digits1) (RSeq (of_re ofs) (RSeq dash_opt (ropt (rwords words) 1))).
Definition counted_rx (cfg : epcfg) : rx :=
  mk_rx (counted_re episode_words of_words) [(1, lit "episode"); (4, lit "count")] [] [] true true true (fun _ => int_of_text) (ep_parent_valid cfg) always.
(** [pre_match_processor=match_processors.strip]: the whole match loses the separators at its ends, before anything else;
    the groups are digits. [strip] cannot fail here (see [stripped_ok]). *)
Definition stripped (s : str) (f : nat * nat * caps) : nat * nat * caps :=
  let '(a, b, c) := f in
  match mp_strip is_sep s (Z.of_nat a) (Z.of_nat b) with
  | Ok (x, y, _) => (Z.to_nat x, Z.to_nat y, c)
  | Err _ => f
  end.
Definition stripped_matches (p : rx) (s : str) : list mt :=
  map (hide later_private_names) (flat_map (fun f => rx_one p s (stripped s f)) (finditer s (rx_re p))).
Definition version_matches (cfg : epcfg) (s : str) : list mt := word_matches (version_rx cfg) s.
Definition counted_matches (cfg : epcfg) (s : str) : list mt := stripped_matches (counted_rx cfg) s.
Definition seen_in (ms : list mt) := map (fun m => (m_start m, m_end m, m_name m, m_value m)) (filter (fun m => negb (m_private m)) ms).
Example counts_1 : seen_in (counted_matches default_cfg (lit "Show 3 of 12 title 4sur5.ep 1 of 2 of 3")) =
  [(5, 6, lit "episode", MvInt 3); (10, 12, lit "count", MvInt 12); (19, 20, lit "episode", MvInt 4); (23, 24, lit "count", MvInt 5); (28, 29, lit "episode", MvInt 1); (33, 34, lit "count", MvInt 2)].
Proof. vm_compute. reflexivity. Qed.
Example counts_2 : seen_in (counted_matches default_cfg (lit "Show 3 of 12 episodes")) = [] /\ seen_in (counted_matches default_cfg (lit "Show 3 of 12 Epilogue")) = [] /\ seen_in (counted_matches default_cfg (lit "Show 3 of 12 episode ")) <> [].
Proof. vm_compute. repeat split; discriminate. Qed.
