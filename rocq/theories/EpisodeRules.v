(** Model of guessit/rules/properties/episodes.py: the rules that choose between seasons and episodes, and the solver of conflicts.
    [ini m] is the initiator of [m] (its topmost parent, or itself) and [kids i] are the children of a match; both are attributes
    of the objects and are arguments here, as is [pat m], the pattern a match comes from. *)
From Verif Require Import Py Text Sort Numeral Formatters Common Rebulk Title EpisodeTitle Episodes.
From Coq Require Import Arith.

Definition type_is (context : dict) (t : str) : bool := py_eq (oget (dget context (KS (lit "type")))) (VStr t).
Definition parts_of (markers : list mt) : list mt := named (lit "path") markers.
(** the matches of a part of the path, those of a predicate *)
Definition in_part_of (s : str) (ms : list mt) (part : mt) (p : mt -> bool) : list mt := range s ms (m_start part) (m_end part) p.
Definition sxxexx (m : mt) : bool := has_tag (lit "SxxExx") m.
Definition weak_ep (m : mt) : bool := has_tag (lit "weak-episode") m.

(** Python's [int(text)] for ASCII texts: spaces around, a sign, digits with single underscores between *)
Fixpoint int_digits (acc : Z) (after_digit : bool) (l : str) : option Z :=
  match l with
  | [] => if after_digit then Some acc else None
  | c :: r => if is_digit c then int_digits (10 * acc + (Z.of_N c - 48))%Z true r
              else if N.eqb c 95 && after_digit then int_digits acc false r else None
  end.
Definition py_int (s : str) : option Z :=
  match strip is_space s with
  | 43%N :: r => int_digits 0 false r
  | 45%N :: r => match int_digits 0 false r with Some z => Some (- z)%Z | None => None end
  | r => int_digits 0 false r
  end.
(** rules/common/validators.py:16-27 *)
Definition int_coercable (s : str) : bool := match py_int s with Some _ => true | None => false end.
(** episodes.py:129-138 *)
Definition validate_roman (s : str) (m : mt) : bool := if int_coercable (m_raw s m) then true else chars_surround is_sep s m.

(** ** episodes.py:59-83 [season_episode_conflict_solver]: the match to remove, or the default solver *)
Inductive verdict := VFirst | VSecond | VDefault.
Definition strong_rivals : list str := [lit "video_codec"; lit "audio_codec"; lit "container"; lit "date"].
Definition season_or_episode (m : mt) : bool := smem (m_name m) [lit "season"; lit "episode"].
Definition weak_pattern (i : mt) : bool := smem (m_name i) [lit "weak_episode"; lit "weak_duplicate"].
Definition gives_way (s : str) (ini : mt -> mt) (m : mt) : bool := weak_ep m || cmem 120 (lower (m_raw s (ini m))).
Definition conflict_solver (s : str) (ini : mt -> mt) (kids : mt -> list mt) (m other : mt) : verdict :=
  if str_eqb (m_name m) (m_name other) then VDefault
  else if has_name (lit "episode") m && has_name (lit "year") other then VFirst
  else if season_or_episode m then
    if smem (m_name other) strong_rivals then VFirst
    else if (has_name (lit "audio_channels") other && negb (has_tag (lit "weak-audio_channels") other) && negb (nonnil (named (m_name m ++ lit "Marker") (kids (ini m)))))
            || (has_name (lit "screen_size") other && negb (int_coercable (m_raw s other))) then VFirst
    else if season_or_episode other && negb (mt_eqb (ini m) (ini other)) then
      if weak_pattern (ini m) && weak_pattern (ini other) then VDefault
      else if gives_way s ini m then VFirst
      else if gives_way s ini other then VSecond
      else VDefault
    else VDefault
  else VDefault.

(** ** episodes.py:365-442 [WeakConflictSolver] *)
(** lines 380-401 *)
Definition is_anime (s : str) (markers ms : list mt) : bool :=
  nonnil (named (lit "version") ms) || nonnil (named (lit "crc32") ms) ||
  existsb (fun g => nonnil (range s ms (m_start g) (m_end g) (has_name (lit "screen_size"))) ||
    (existsb (has_name (lit "path")) (starting (m_start g) markers) &&
     match holes s ms (m_start g) (m_end g) never None with
     | h :: _ => (fst h <? snd h) && str_eqb (slice (fst h) (snd h) s) (m_raw s g)
     | [] => false
     end)) (named (lit "group") markers).
Definition add_tag (t : str) (m : mt) : mt := set_tags m (m_tags m ++ [t]).
(** lines 403-442; the state is what is removed and appended so far *)
Definition weak_conflict_part (s : str) (ini : mt -> mt) (kids : mt -> list mt) (anime : bool) (ms : list mt) (st : change) (part : mt) : change :=
  let weak := in_part_of s ms part (fun m => has_name (lit "weak_episode") (ini m)) in
  let dup := in_part_of s ms part (fun m => has_name (lit "weak_duplicate") (ini m)) in
  if anime then
    if nonnil weak then
      let eps := in_part_of s ms part (fun m => has_name (lit "episode") m && negb (has_name (lit "weak_duplicate") (ini m))) in
      (fst st ++ dup ++ eps, snd st ++ map (add_tag (lit "anime")) eps)
    else st
  else if nonnil dup then
    let ranges := in_part_of s ms part (fun m => has_name (lit "episode") m && has_name (lit "weak_episode") (ini m) && nonnil (named (lit "episodeSeparator") (kids (ini m)))) in
    let st' := if negb (nonnil ranges) && negb (nonnil (in_part_of s ms part sxxexx)) then (fst st ++ weak, snd st)
               else (fst st ++ ranges, snd st ++ map (fun m => set_tags m []) ranges) in
    if nonnil (snd st') then (fst st' ++ dup, snd st') else st'
  else st.
Definition weak_conflict (s : str) (ini : mt -> mt) (kids : mt -> list mt) (markers ms : list mt) : change :=
  fold_left (weak_conflict_part s ini kids (is_anime s markers ms) ms) (parts_of markers) ([], []).
Definition WeakConflictSolver (context : dict) (s : str) (ini : mt -> mt) (kids : mt -> list mt) (markers ms : list mt) : list mt :=
  if type_is context (lit "movie") then ms else apply_change (weak_conflict s ini kids markers ms) ms.

(** ** episodes.py:445-470 [CountValidator]: the name the count takes, or nothing *)
Definition counted (ms : list mt) (c : mt) : option str :=
  match first (previous c ms (fun m => smem (m_name m) [lit "episode"; lit "season"])) with
  | Some p => if m_truthy p then Some (m_name p ++ lit "_count") else None
  | None => None
  end.
Definition counts_as (ms : list mt) (o : option str) : list mt :=
  filter (fun c => match counted ms c, o with None, None => true | Some a, Some b => str_eqb a b | _, _ => false end) (named (lit "count") ms).
(** the three lists are made first, then the consequences take place *)
Definition CountValidator (ms : list mt) : list mt :=
  let ec := counts_as ms (Some (lit "episode_count")) in
  let sc := counts_as ms (Some (lit "season_count")) in
  rename_all (lit "season_count") sc (rename_all (lit "episode_count") ec (remove_all (counts_as ms None) ms)).

(** ** episodes.py:573-614 [RenameToAbsoluteEpisode]: the matches to rename and to remove *)
Definition initiators (ini : mt -> mt) (kids : mt -> list mt) (ms : list mt) : list mt :=
  merge_new [] (filter (fun i => 1 <? List.length (named (lit "episode") (kids i))) (map ini (named (lit "episode") ms))).
(** lines 588-603: no two groups *)
Definition absolute_part (s : str) (ini : mt -> mt) (ms : list mt) (part : mt) : list mt * list mt :=
  if nonnil (range s ms (m_start part + 1) (m_end part) (has_name (lit "episode"))) then
    let candidates := filter (fun m => has_name (lit "weak_episode") (ini m)) (starting (m_start part) ms) in
    if nonnil (range s ms (m_start part + 1) (m_end part) (fun m => has_name (lit "episode") m && sxxexx m)) then ([], candidates) else (candidates, [])
  else ([], []).
(** lines 605-614: [a] ends before [b] *)
Definition absolute_groups (s : str) (ini : mt -> mt) (ms : list mt) (a b : mt) : list mt * list mt :=
  if negb (text_between s ms (m_end a) (m_start b)) then
    let r1 := filter (fun m => mt_eqb (ini m) a) (named (lit "episode") ms) in
    let r2 := filter (fun m => mt_eqb (ini m) b) (named (lit "episode") ms) in
    if List.length r1 =? List.length r2 then
      match r1, r2 with
      | x :: _, y :: _ => if (num x <? num y)%Z then (r2, []) else if (num y <? num x)%Z then (r1, []) else ([], [])
      | _, _ => ([], [])
      end
    else ([], [])
  else ([], []).
Definition absolute (s : str) (ini : mt -> mt) (kids : mt -> list mt) (markers ms : list mt) : list mt * list mt :=
  match isort (fun a b => m_end a <=? m_end b) (initiators ini kids ms) with
  | [a; b] => absolute_groups s ini ms a b
  | _ => joins (map (absolute_part s ini ms) (parts_of markers))
  end.
Definition RenameToAbsoluteEpisode (s : str) (ini : mt -> mt) (kids : mt -> list mt) (markers ms : list mt) : list mt :=
  let r := absolute s ini kids markers ms in
  remove_all (snd r) (rename_all (lit "absolute_episode") (fst r) ms).

(** ** episodes.py:640-671 [RemoveWeakIfMovie] *)
Definition part_year (s : str) (ms : list mt) (part : mt) : option mt :=
  match first (in_part_of s ms part (has_name (lit "year"))) with Some y => if m_truthy y then Some y else None | None => None end.
(** lines 654-664: what is spared in a part; the parents of episodes are matches of the part with several episodes *)
Definition spared (s : str) (ini : mt -> mt) (kids : mt -> list mt) (ms : list mt) (part year : mt) : list mt :=
  (match first (range s ms (m_end year) (m_end part) m_private) with
   | Some n => if m_truthy n && negb (text_between s ms (m_end year) (m_start n)) && negb (existsb (has_name (lit "year")) (at_match n ms)) then [ini n] else []
   | None => []
   end) ++ in_part_of s ms part (fun m => 1 <? List.length (named (lit "episode") (kids m))).
Definition movie_removed (s : str) (ini : mt -> mt) (kids : mt -> list mt) (markers ms : list mt) : list mt :=
  let years := filter (fun p => match part_year s ms p with Some _ => true | None => false end) (parts_of markers) in
  let ignore := List.concat (map (fun p => match part_year s ms p with Some y => spared s ini kids ms p y | None => [] end) years) in
  if nonnil years then
    List.concat (map (fun p => match part_year s ms p with Some y => conflicting y ms (fun _ => true) | None => [] end) years) ++
    filter (fun m => negb (mmem (ini m) ignore) && negb (has_tag (lit "anime") m)) (tagged (lit "weak-episode") ms)
  else [].
Definition RemoveWeakIfMovie (context : dict) (s : str) (ini : mt -> mt) (kids : mt -> list mt) (markers ms : list mt) : list mt :=
  if type_is context (lit "episode") then ms else remove_all (movie_removed s ini kids markers ms) ms.

(** ** episodes.py:674-713 [RemoveWeak] *)
Definition technical_names : list str :=
  [lit "audio_codec"; lit "screen_size"; lit "streaming_service"; lit "source"; lit "video_profile"; lit "audio_channels"; lit "audio_profile"].
Definition int_value (v : mval) : option Z := match v with MvInt z => Some z | MvStr t => py_int t | _ => None end.
(** lines 697-705: a public episode from the start of the word. Simplification: a value that is no number nor text is not converted;
    the initiator of the copy is the one of the match *)
Definition worded (prev weak : mt) : option mt :=
  match int_value (m_value weak) with
  | Some z => Some (mk_mt (m_start prev) (m_end weak) (lit "episode") (MvInt z) [] false (m_raw_start weak) (m_raw_end weak) (m_parent weak) (m_children weak))
  | None => None
  end.
Definition remove_weak_part (s : str) (episode_words : list str) (ms : list mt) (part : mt) : change :=
  match in_part_of s ms part weak_ep with
  | [] => ([], [])
  | weak :: rest =>
      match first (previous weak ms (fun m => smem (m_name m) technical_names)) with
      | Some p =>
          if m_truthy p && negb (text_between s ms (m_end p) (m_start weak)) then
            (weak :: rest, if smem (lower (m_raw s p)) episode_words then match worded p weak with Some e => [e] | None => [] end else [])
          else ([], [])
      | None => ([], [])
      end
  end.
Definition RemoveWeak (s : str) (episode_words : list str) (markers ms : list mt) : list mt :=
  apply_change (joins (map (remove_weak_part s episode_words ms) (parts_of markers))) ms.

(** ** episodes.py:716-733 [RemoveWeakIfSxxExx] *)
Definition sxxexx_part (s : str) (ini : mt -> mt) (ms : list mt) (part : mt) : list mt :=
  if nonnil (in_part_of s ms part (fun m => negb (m_private m) && sxxexx m)) then
    filter (fun m => negb (m_start m =? m_start part) || negb (has_name (lit "weak_episode") (ini m))) (in_part_of s ms part weak_ep)
  else [].
Definition RemoveWeakIfSxxExx (s : str) (ini : mt -> mt) (markers ms : list mt) : list mt :=
  remove_all (List.concat (map (sxxexx_part s ini ms) (parts_of markers))) ms.

(** ** episodes.py:736-761 [RemoveInvalidSeason]. An initiator that is empty is not truthy. *)
Definition invalid_season_part (s : str) (ini : mt -> mt) (kids : mt -> list mt) (ms : list mt) (part : mt) : list mt :=
  match first (in_part_of s ms part (fun m => has_name (lit "season") m && negb (m_private m) && sxxexx m)) with
  | Some strong =>
      if m_truthy strong && nonnil (named (lit "episode") (kids (ini strong))) then
        List.concat (map (fun x => if negb (sxxexx x) || negb (nonnil (named (lit "episode") (kids (ini x))))
                                   then (if m_truthy (ini x) then ini x :: kids (ini x) else [x]) else [])
                         (range s ms (m_end strong) (m_end part) (fun m => has_name (lit "season") m && negb (m_private m))))
      else []
  | None => []
  end.
Definition RemoveInvalidSeason (s : str) (ini : mt -> mt) (kids : mt -> list mt) (markers ms : list mt) : list mt :=
  remove_all (List.concat (map (invalid_season_part s ini kids ms) (parts_of markers))) ms.

(** ** episodes.py:764-798 [RemoveInvalidEpisode]. Simplification: markers and separators are texts; [lower] is ASCII *)
Definition episode_prefix (ms : list mt) (m : mt) : option mt :=
  match first (previous m ms (fun x => smem (m_name x) [lit "episodeMarker"; lit "episodeSeparator"])) with
  | Some p => if m_truthy p then Some p else None
  | None => None
  end.
Definition prefix_text (m : mt) : str := match val_text m with Some t => lower t | None => [] end.
Definition invalid_episode_part (s : str) (ini : mt -> mt) (kids : mt -> list mt) (ms : list mt) (part : mt) : list mt :=
  match first (in_part_of s ms part (fun m => has_name (lit "episode") m && negb (m_private m) && sxxexx m)) with
  | Some strong =>
      if m_truthy strong then
        List.concat (map (fun x => match episode_prefix ms strong, episode_prefix ms x with
                                   | Some a, Some b => if str_eqb (prefix_text a) (prefix_text b) then []
                                                       else if m_truthy (ini x) then ini x :: kids (ini x) else [b; x]
                                   | _, _ => []
                                   end)
                         (range s ms (m_end strong) (m_end part) (fun m => has_name (lit "episode") m && negb (m_private m))))
      else []
  | None => []
  end.
Definition RemoveInvalidEpisode (s : str) (ini : mt -> mt) (kids : mt -> list mt) (markers ms : list mt) : list mt :=
  remove_all (List.concat (map (invalid_episode_part s ini kids ms) (parts_of markers))) ms.

(** ** episodes.py:801-818 [RemoveWeakDuplicate]: seen from the end, a match whose name and pattern were already there *)
Fixpoint duplicates (pat : mt -> nat) (l : list mt) (seen : list (str * nat)) : list mt :=
  match l with
  | [] => []
  | m :: r => if existsb (fun q => str_eqb (fst q) (m_name m) && (snd q =? pat m)) seen then m :: duplicates pat r seen
              else duplicates pat r ((m_name m, pat m) :: seen)
  end.
Definition RemoveWeakDuplicate (s : str) (pat : mt -> nat) (markers ms : list mt) : list mt :=
  remove_all (List.concat (map (fun part => duplicates pat (rev (in_part_of s ms part (has_tag (lit "weak-duplicate")))) []) (parts_of markers))) ms.

(** ** episodes.py:821-835 [EpisodeDetailValidator] *)
Definition EpisodeDetailValidator (s : str) (ms : list mt) : list mt :=
  remove_all (filter (fun d => negb (chars_surround is_sep s d) && negb (nonnil (previous d ms season_or_episode)) && negb (nonnil (next d ms season_or_episode)))
    (named (lit "episode_details") ms)) ms.

(** ** episodes.py:838-866 [RemoveDetachedEpisodeNumber]: [ancestors m] are [m], its parent, and so on, while they are not empty *)
Fixpoint first_values (l : list mt) (seen : list Z) : list mt :=
  match l with
  | [] => []
  | m :: r => if existsb (Z.eqb (num m)) seen then first_values r seen else m :: first_values r (num m :: seen)
  end.
Definition by_value (l : list mt) : list mt := isort (fun a b => (num a <=? num b)%Z) l.
Definition detached (ms : list mt) : option mt :=
  match by_value (first_values (filter (fun m => negb (m_private m) && weak_ep m) (named (lit "episode") ms)) []) with
  | a :: b :: _ => if (num a <? 10)%Z && negb (num b - num a =? 1)%Z then Some a else None
  | _ => None
  end.
Definition RemoveDetachedEpisodeNumber (ancestors : mt -> list mt) (ms : list mt) : list mt :=
  match detached ms with Some m => remove_all (ancestors m) ms | None => ms end.

(** ** episodes.py:869-883 [VersionValidator] *)
Definition VersionValidator (s : str) (ini : mt -> mt) (ms : list mt) : list mt :=
  remove_all (filter (fun v => negb (o_truthy (first (previous v ms (has_name (lit "episode"))))) && negb (chars_surround is_sep s (ini v))) (named (lit "version") ms)) ms.

(** ** episodes.py:886-901 [EpisodeSingleDigitValidator] *)
Definition EpisodeSingleDigitValidator (s : str) (ini : mt -> mt) (markers ms : list mt) : list mt :=
  remove_all (filter (fun e => (m_end (ini e) - m_start (ini e) =? 1) &&
    match first (filter (has_name (lit "group")) (at_match e markers)) with
    | Some g => m_truthy g && negb (nonnil (range s ms (m_start g) (m_end g) (has_name (lit "title"))))
    | None => false
    end) (named (lit "episode") ms)) ms.

(** ** episodes.py:904-930 [RenameToDiscMatch] *)
Definition disc_marker (m : mt) : bool := match val_text m with Some t => str_eqb (lower t) (lit "d") | None => false end.
Definition disc_markers (ms : list mt) : list mt := filter disc_marker (named (lit "episodeMarker") ms).
Definition RenameToDiscMatch (context : dict) (ini : mt -> mt) (kids : mt -> list mt) (ms : list mt) : res (list mt) :=
  disabled <- is_disabled context (lit "disc");
  Ok (if (disabled : bool) then remove_all (List.concat (map (fun d => d :: kids (ini d)) (disc_markers ms))) ms
      else rename_all (lit "discMarker") (disc_markers ms)
             (rename_all (lit "disc") (List.concat (map (fun d => by_value (named (lit "episode") (kids (ini d)))) (disc_markers ms))) ms)).
