(** Model of guessit/rules/properties/episode_title.py, film.py and bonus.py *)
From Verif Require Import Py Text Sort Formatters Rebulk Processors Title.
From Coq Require Import Arith.

(** [matches.remove(m); m.name = n; matches.append(m)]: [remove] raises when the match is not there *)
Definition rename_now (n : str) (ms : list mt) (m : mt) : res (list mt) :=
  if mmem m ms then Ok (remove1 m ms ++ [set_name m n]) else Err ValueError.

(** episode_title.py:27-28 *)
Definition previous_names : list str :=
  [lit "episode"; lit "episode_count"; lit "season"; lit "season_count"; lit "date"; lit "title"; lit "year"].

(** episode_title.py:41-91 [RemoveConflictsWithEpisodeTitle] *)
(** lines 51-54 *)
Definition next_names : list str :=
  [lit "streaming_service"; lit "screen_size"; lit "source"; lit "video_codec"; lit "audio_codec"; lit "other"; lit "container"].
Definition affected_names : list str := [lit "part"; lit "year"].
Definition public (m : mt) : bool := negb (m_private m).
(** the first bracket group at a match (line 71) *)
Definition group_at (markers : list mt) (m : mt) : option mt := first (filter (has_name (lit "group")) (at_match m markers)).
Definition group_eqb (a b : option mt) : bool :=
  match a, b with Some x, Some y => mt_eqb x y | None, None => true | _, _ => false end.
(** lines 73-78; a hole is a match without name whose value is its text *)
Definition hole_match (h : span) : mt := simple (fst h) (snd h) [] (MvStr []) [].
Definition value_in_group (s : str) (markers : list mt) (g : option mt) (h : span) : bool :=
  negb (forallb is_sep (raw s h)) && group_eqb g (group_at markers (hole_match h)).
Definition text_holes (s : str) (markers ms : list mt) (g : option mt) (a b : nat) : bool :=
  existsb (value_in_group s markers g) (holes s ms a b never None).
(** lines 60-87, one match of a file part *)
Definition conflict_removed (s : str) (markers ms : list mt) (part m : mt) : bool :=
  match last_o (range s ms (m_start part) (m_start m) public), first (range s ms (m_end m) (m_end part) public) with
  | Some before, Some after =>
      m_truthy before && smem (m_name before) previous_names &&
      m_truthy after && smem (m_name after) next_names &&
      (let g := group_at markers m in
       let holes_before := text_holes s markers ms g (m_end before) (m_start m) in
       let holes_after := text_holes s markers ms g (m_end m) (m_start after) in
       (holes_before || holes_after) && negb (has_name (lit "part") m && negb holes_after))
  | _, _ => false
  end.
(** lines 56-91. Simplification: the parent of a dropped match (line 88) is not dropped; it is private, so it is never part of the result *)
Definition remove_conflicts (s : str) (markers ms : list mt) : list mt :=
  flat_map (fun part => filter (conflict_removed s markers ms part)
    (range s ms (m_start part) (m_end part) (fun m => smem (m_name m) affected_names))) (named (lit "path") markers).
Definition RemoveConflictsWithEpisodeTitle (s : str) (markers ms : list mt) : list mt := remove_all (remove_conflicts s markers ms) ms.

(** episode_title.py:94-121 [TitleToEpisodeTitle] *)
Fixpoint distinct_values (l : list mval) : list mval :=
  match l with [] => [] | v :: r => v :: filter (fun w => negb (mval_eqb v w)) (distinct_values r) end.
Definition to_episode_title (ms : list mt) : list mt :=
  let titles := named (lit "title") ms in
  if List.length (distinct_values (map m_value titles)) <? 2 then []
  else filter (fun t => nonnil (previous t ms (has_name (lit "episode")))) titles.
Definition TitleToEpisodeTitle (ms : list mt) : res (list mt) := foldM (rename_now (lit "episode_title")) (to_episode_title ms) ms.

(** episode_title.py:124-158 [EpisodeTitleFromPosition] *)
Definition episode_hole_filter (ms : list mt) (h : span) : bool :=
  o_truthy (first (previous (hole_match h) ms (fun m => smem (m_name m) previous_names))) || nonnil (named (lit "crc32") ms).
Definition episode_part_filter (s : str) (ms : list mt) (part : mt) : bool :=
  nonnil (range s ms (m_start part) (m_end part) (has_name (lit "title"))).
Definition episode_should_remove (context : dict) (h : span) (m : mt) : bool :=
  if has_name (lit "episode_details") m then false else base_should_remove context h m.
Definition episode_title_rule (s : str) : title_rule :=
  mk_tr (lit "episode_title") [lit "title"] None episode_hole_filter (episode_part_filter s) episode_should_remove.
Definition EpisodeTitleFromPosition (s : str) (context : dict) (markers ms : list mt) : res (list mt) :=
  if nonnil (named (lit "episode_title") ms) then Ok ms
  else title_base (episode_title_rule s) s context markers ms.

(** episode_title.py:161-194 [AlternativeTitleReplace] *)
Definition alternative_found (s : str) (ms : list mt) : option mt :=
  if nonnil (named (lit "episode_title") ms) then None
  else match first (range_all s ms (has_name (lit "alternative_title"))) with
  | Some a =>
      if m_truthy a then
        match first (chain_before s ms (m_start a) (has_tag (lit "title"))) with
        | Some t =>
            if m_truthy t && (o_truthy (first (previous t ms (fun m => smem (m_name m) previous_names))) || nonnil (named (lit "crc32") ms))
            then Some a else None
        | None => None
        end
      else None
  | None => None
  end.
Definition AlternativeTitleReplace (s : str) (ms : list mt) : res (list mt) :=
  match alternative_found s ms with
  | Some a => if mmem a ms then Ok (remove1 a ms ++ [set_tags (set_name a (lit "episode_title")) (m_tags a ++ [lit "alternative-replaced"])]) else Err ValueError
  | None => Ok ms
  end.

(** episode_title.py:197-215 [RenameEpisodeTitleWhenMovieType] *)
Definition RenameEpisodeTitle (ms : list mt) : res (list mt) :=
  if existsb (fun m => negb (has_tag (lit "alternative-replaced") m)) (named (lit "episode_title") ms)
     && negb (existsb (fun m => mval_eqb (m_value m) (MvStr (lit "episode"))) (named (lit "type") ms))
  then foldM (rename_now (lit "alternative_title")) (named (lit "episode_title") ms) ms
  else Ok ms.

(** A hole with the formatter [cleanup] and a value; [cleanup] never fails (C18) *)
Definition clean_text (t : str) : str := match cleanup t with Ok u => u | Err _ => [] end.
Definition clean_hole (s : str) (n : str) (tags : list str) (h : span) : mt := simple (fst h) (snd h) n (MvStr (clean_text (raw s h))) tags.
(** rebulk/rules.py [AppendMatch(name)] of one match without a name: looked for before it is named *)
Definition append_named (n : str) (m : mt) (ms : list mt) : list mt := if mmem m ms then ms else ms ++ [set_name m n].
(** episode_title.py:249-251 and 292-296 *)
Definition folder_hole (s : str) (ms : list mt) (part : mt) : option span :=
  first (filter (fun h => nonnil (clean_text (raw s h)))
    (holes s ms (m_start part) (m_end part) (fun m => has_tag (lit "weak-episode") m || is_ignored s m) (Some title_seps))).
Definition part_has (s : str) (ms : list mt) (n : str) (part : mt) : bool :=
  o_truthy (first (range s ms (m_start part) (m_end part) (has_name n))).
(** The truth value of a match of negative length raises; holes have none. [if hole]: a hole with a value is not empty *)
(** episode_title.py:218-254 [Filepart3EpisodeTitle] *)
Definition Filepart3EpisodeTitle (s : str) (markers ms : list mt) : list mt :=
  if nonnil (tagged (lit "filepart-title") ms) then ms
  else match rev (named (lit "path") markers) with
  | filename :: directory :: subdirectory :: _ =>
      if part_has s ms (lit "episode") filename && part_has s ms (lit "season") directory then
        match folder_hole s ms subdirectory with
        | Some h => append_named (lit "title") (clean_hole s [] [] h) ms
        | None => ms
        end
      else ms
  | _ => ms
  end.
(** episode_title.py:257-300 [Filepart2EpisodeTitle] *)
Definition Filepart2EpisodeTitle (s : str) (markers ms : list mt) : list mt :=
  if nonnil (tagged (lit "filepart-title") ms) then ms
  else match rev (named (lit "path") markers) with
  | filename :: directory :: _ =>
      if part_has s ms (lit "episode") filename && (part_has s ms (lit "season") directory || part_has s ms (lit "season") filename) then
        match folder_hole s ms directory with
        | Some h => append_named (lit "title") (clean_hole s [] [lit "filepart-title"] h) ms
        | None => ms
        end
      else ms
  | _ => ms
  end.

(** film.py:33-51 [FilmTitleRule], bonus.py:33-50 [BonusTitleRule]: the name of the number, the zone and the name of the title *)
Definition number_title (n tn : str) (zone : mt -> mt -> span) (s : str) (markers ms : list mt) : res (list mt) :=
  match first (filter public (named n ms)) with
  | Some b =>
      if m_truthy b then
        match first (filter (has_name (lit "path")) (at_match b markers)) with
        | Some p =>
            match first (holes s ms (fst (zone p b)) (snd (zone p b)) never None) with
            | Some h => if snd h <? fst h then Err ValueError
                        else if (fst h <? snd h) && nonnil (clean_text (raw s h)) then Ok (append_all [clean_hole s tn [] h] ms) else Ok ms
            | None => Ok ms
            end
        | None => Err AttributeError
        end
      else Ok ms
  | None => Ok ms
  end.
Definition FilmTitle : str -> list mt -> list mt -> res (list mt) :=
  number_title (lit "film") (lit "film_title") (fun part b => (m_start part, m_start b + 1)).
Definition BonusTitle : str -> list mt -> list mt -> res (list mt) :=
  number_title (lit "bonus") (lit "bonus_title") (fun part b => (m_end b, m_end part + 1)).
