(** The chains of guessit/rules/properties/episodes.py:167-213 and 263-333. A part has no validator of its own (the chains at
    lines 263-333 say [validator=None] for their parts; those at lines 167-213 come before the validator becomes a default).
    Simplifications: [\d] and case are ASCII; the words of a list are tried as texts ([build_or_pattern], property C15). *)
From Verif Require Import Py Text Regex Date Rebulk Episodes Patterns Chain.
From Coq Require Import Arith.
Local Open Scope nat_scope.

(** options.json, episodes *)
Record epcfg := mk_epcfg {
  season_markers : list str;
  season_ep_markers : list str;
  disc_markers : list str;
  episode_markers : list str;
  range_separators : list str;
  discrete_separators : list str;
  episode_max_range : Z;
  season_max_range : Z;
  max_range_gap : Z
}.
Definition default_cfg : epcfg :=
  mk_epcfg [lit "s"] [lit "x"] [lit "d"] [lit "xe"; lit "ex"; lit "ep"; lit "e"; lit "x"] [lit "-"; lit "~"; lit "to"; lit "a"] [lit "+"; lit "&"; lit "and"; lit "et"] 100 100 1.

(** episodes.py:158-159: names that stay private, and numbers *)
Definition private_names : list str := [lit "episodeSeparator"; lit "seasonSeparator"; lit "episodeMarker"; lit "seasonMarker"].
Definition numbered : list str := [lit "season"; lit "episode"; lit "version"; lit "count"].
Definition ep_value (name t : str) : mval := if smem name numbered then int_of_text t else MvStr t.
Definition ep_rx (r : re) (names : list (nat * str)) (name : str) (tags : list str) : rx := mk_rx r names name tags true true false ep_value always always.

Section Chains.
  Context (cfg : epcfg).
  Definition weak_separators : list str := weak_discrete (range_separators cfg).
  (** episodes.py:150 [discrete_separators] *)
  Definition all_discrete : list str := discrete_separators cfg ++ weak_separators.
  (** lines 40-57, 86-127, 170 *)
  Definition ep_breaker : list mt -> bool := chain_breaker (episode_max_range cfg) (season_max_range cfg).
  Definition ep_valid (s : str) (p : mt) (kids : list mt) : bool :=
    seps_surround s p && ordering_validator s (range_separators cfg) weak_separators (discrete_separators cfg) (max_range_gap cfg) kids.
  Definition ep_chain (head : part) (tails : list part) (name : str) (tags : list str) : chain := mk_chain head tails name tags private_names ep_breaker ep_valid.

  (** lines 167-181: S01E02 *)
  Definition markers : list str := episode_markers cfg ++ disc_markers cfg.
  Definition sxx_head_re : re :=
    RSeq (RGrp 1 (rwords (season_markers cfg))) (RSeq (RGrp 2 digits1) (RSeq dash_opt (RSeq (RGrp 3 (rwords markers)) (RSeq dash_opt (RGrp 4 digits1))))).
  Definition sxx_tail_words : list str := markers ++ all_discrete ++ range_separators cfg.
  Definition after_re (words : list str) : re := RSeq (RGrp 1 (rwords words)) (RGrp 2 digits1).
  Definition sxx_head : part := mk_part (ep_rx sxx_head_re [(1, lit "seasonMarker"); (2, lit "season"); (3, lit "episodeMarker"); (4, lit "episode")] [] [lit "SxxExx"]) None.
  Definition sxx_tail : part := mk_part (ep_rx (after_re sxx_tail_words) [(1, lit "episodeSeparator"); (2, lit "episode")] [] [lit "SxxExx"]) None.
  Definition sxx_chain : chain := ep_chain sxx_head [sxx_tail] [] [lit "SxxExx"].
  (** lines 183-190: 01x02, any number of times *)
  Definition xx_re : re := RSeq (RGrp 1 digits1) (RSeq dash_opt (RSeq (RGrp 2 (rwords (season_ep_markers cfg))) (RSeq dash_opt (RGrp 3 digits1)))).
  Definition xx_rx : rx := ep_rx xx_re [(1, lit "season"); (2, lit "episodeMarker"); (3, lit "episode")] [] [lit "SxxExx"].
  Definition xx_chain : chain := ep_chain (mk_part xx_rx None) [] [] [lit "SxxExx"].
  (** lines 192-203: 01x02x03 *)
  Definition xx_tail : part := mk_part (ep_rx (after_re (season_ep_markers cfg ++ all_discrete ++ range_separators cfg)) [(1, lit "episodeSeparator"); (2, lit "episode")] [] [lit "SxxExx"]) None.
  Definition xxx_chain : chain := ep_chain (mk_part xx_rx (Some 1)) [xx_tail] [] [lit "SxxExx"].
  (** lines 205-219: S01, S01S02, S01-03, S01Extras *)
  Definition season_head : part := mk_part (ep_rx (RSeq (RGrp 1 (rwords (season_markers cfg))) (RGrp 2 digits1)) [(1, lit "seasonMarker"); (2, lit "season")] [] [lit "SxxExx"]) (Some 1).
  Definition extras : part := mk_part (mk_rx (RGrp 1 (rlit (lit "extras"))) [(1, lit "other")] (lit "other") [lit "no-release-group-prefix"] true true false (fun _ _ => MvStr (lit "Extras")) always always) (Some 1).
  Definition season_tail : part := mk_part (ep_rx (after_re (season_markers cfg ++ all_discrete ++ range_separators cfg)) [(1, lit "seasonSeparator"); (2, lit "season")] [] [lit "SxxExx"]) None.
  Definition season_chain : chain := ep_chain season_head [extras; season_tail] [] [lit "SxxExx"].

  (** lines 275-333; [v(?P<version>\d+)] and [(?P<episodeSeparator>[x-])(?P<episode>...)] *)
  Definition version_tail (tags : list str) (name : str) : part := mk_part (ep_rx (RSeq (one_of (lit "v")) (RGrp 1 digits1)) [(1, lit "version")] name tags) (Some 1).
  Definition weak_tail (sep number : re) (tags : list str) (name : str) : part := mk_part (ep_rx (RSeq (RGrp 1 sep) number) [(1, lit "episodeSeparator"); (2, lit "episode")] name tags) None.
  Definition x_dash : re := one_of (lit "x-").
  Definition weak_chain (head number : re) (tags : list str) (name : str) : chain :=
    ep_chain (mk_part (ep_rx head [(2, lit "episode")] name tags) (Some 1)) [version_tail tags name; weak_tail x_dash number tags name] name tags.
  Definition weak := [lit "weak-episode"].
  (** lines 276-281, 284-289, 292-298, 301-306: 12, 012, 112, 1 *)
  Definition weak2_chain : chain := weak_chain (RGrp 2 (rrep digit 2)) (RGrp 2 (rrep digit 2)) weak [].
  Definition zero : re := one_of (lit "0").
  Definition weak0_chain : chain := weak_chain (RSeq zero (RGrp 2 (rrange digit 1 2))) (RSeq zero (RGrp 2 (rrange digit 1 2))) weak [].
  Definition weak34_chain : chain := weak_chain (RGrp 2 (rrange digit 3 4)) (RGrp 2 (rrange digit 3 4)) weak (lit "weak_episode").
  Definition weak1_chain : chain := weak_chain (RGrp 2 digit) (RGrp 2 (rrange digit 1 2)) weak [].
  (** lines 309-313: e112, 1e18 *)
  Definition e_head_re : re := RSeq (ropt (RGrp 1 (rrange digit 1 2)) 1) (RSeq (RGrp 2 (one_of (lit "e"))) (RGrp 3 (rrange digit 1 4))).
  Definition e_chain : chain :=
    ep_chain (mk_part (ep_rx e_head_re [(1, lit "season"); (2, lit "episodeMarker"); (3, lit "episode")] [] []) (Some 1))
             [version_tail [] []; weak_tail (one_of (lit "ex-")) (RGrp 2 (rrange digit 1 4)) [] []] [] [].
  (** lines 316-320: ep 112 *)
  Definition ep_head_re : re := RSeq (rlit (lit "ep")) (RSeq dash_opt (RGrp 1 (rrange digit 1 4))).
  Definition ep_chain_ : chain :=
    ep_chain (mk_part (ep_rx ep_head_re [(1, lit "episode")] [] []) (Some 1))
             [version_tail [] []; weak_tail (RAlt (rlit (lit "ep")) (one_of (lit "ex-"))) (RGrp 2 (rrange digit 1 4)) [] []] [] [].
  (** lines 323-327: cap 112, cap 112_114 *)
  Definition see := [lit "see-pattern"].
  Definition cap_head_re : re := RSeq (RGrp 1 (rlit (lit "cap"))) (RSeq dash_opt (RSeq (RGrp 2 (rrange digit 1 2)) (RGrp 3 (rrep digit 2)))).
  Definition cap_tail_re : re := RSeq (RGrp 1 dash) (RSeq (RGrp 2 (rrange digit 1 2)) (RGrp 3 (rrep digit 2))).
  Definition cap_chain : chain :=
    ep_chain (mk_part (ep_rx cap_head_re [(1, lit "seasonMarker"); (2, lit "season"); (3, lit "episode")] [] see) (Some 1))
             [mk_part (ep_rx cap_tail_re [(1, lit "episodeSeparator"); (2, lit "season"); (3, lit "episode")] [] see) (Some 1)] [] see.
  (** lines 330-343: 102, 0102 *)
  Definition duplicate := [lit "weak-episode"; lit "weak-duplicate"].
  Definition dup_head_re : re := RSeq (RGrp 1 (rrange digit 1 2)) (RGrp 2 (rrep digit 2)).
  Definition dup_chain : chain :=
    ep_chain (mk_part (ep_rx dup_head_re [(1, lit "season"); (2, lit "episode")] (lit "weak_duplicate") duplicate) (Some 1))
             [version_tail duplicate (lit "weak_duplicate"); weak_tail x_dash (RGrp 2 (rrep digit 2)) duplicate (lit "weak_duplicate")] (lit "weak_duplicate") duplicate.
End Chains.

(** what a user sees of some chains *)
Definition seen (C : chain) (s : str) := map (fun m => (m_start m, m_end m, m_name m, m_value m)) (filter (fun m => negb (m_private m)) (chain_matches C s)).
Example seen_1 : seen (sxx_chain default_cfg) (lit "show.s1e2-04 S02.EP3.e1 s3e9s3e8s3e7") =
  [(6, 7, lit "season", MvInt 1); (8, 9, lit "episode", MvInt 2); (10, 12, lit "episode", MvInt 4);
   (14, 16, lit "season", MvInt 2); (19, 20, lit "episode", MvInt 3)].
Proof. vm_compute. reflexivity. Qed.
