(** Model of guessit/rules/properties/title.py.
    The queries of rebulk used only here ([crop], [split], [chain_before], [chain_after]) are transcribed
    first; like Rebulk.v they are an assumption of the theorems. *)
From Verif Require Import Py Text Sort Formatters Rebulk Processors.
From Coq Require Import Arith.

(** a zone of the input; [raw] is the text in it *)
Definition span := (nat * nat)%type.

(** ** rebulk *)
(** rebulk/match.py [Match.crop], one crop and one current piece: what is left in place, and what is put at the end *)
Definition crop1 (c cur : span) : option span * option span :=
  let (gs, ge) := c in
  let (cs, ce) := cur in
  if (gs <? cs) && (ce <? ge) then (None, None)
  else if (cs <=? gs) && (ge <=? ce) then (if cs <? gs then Some (cs, gs) else None, if ge <? ce then Some (ge, ce) else None)
  else if (ge <=? ce) && (cs <? ge) then (Some (ge, ce), None)
  else if (cs <=? gs) && (gs <? ce) then (Some (cs, gs), None)
  else (Some cur, None).
Definition olist {A} (o : option A) : list A := match o with Some x => [x] | None => [] end.
Definition crop_step (ret : list span) (c : span) : list span :=
  flat_map (fun cur => olist (fst (crop1 c cur))) ret ++ flat_map (fun cur => olist (snd (crop1 c cur))) ret.
Definition crop (crops : list span) (h : span) : list span := fold_left crop_step crops [h].

(** rebulk/match.py [Match.split]: the maximal runs of characters that are no separators; [i] is the position of the text
    and [cur] the start of the run being read *)
Fixpoint runs (p : char -> bool) (t : str) (i : nat) (cur : option nat) : list span :=
  match t with
  | [] => match cur with Some a => [(a, i)] | None => [] end
  | c :: r => if p c then match cur with Some a => (a, i) :: runs p r (S i) None | None => runs p r (S i) None end
              else runs p r (S i) (Some (match cur with Some a => a | None => i end))
  end.

(** rebulk/match.py [chain_before] from the position [i], [chain_after] from the position [i] for [n] characters.
    Simplification: a position outside the input stops the walk instead of raising an exception. *)
Definition sep_at (s : str) (i : nat) : bool := match nth_error s i with Some c => is_sep c | None => false end.
Fixpoint chain_down (s : str) (ms : list mt) (p : mt -> bool) (i : nat) (acc : list mt) : list mt :=
  match i with
  | O => acc
  | S i' => match filter p (at_index i' ms) with
            | [] => if sep_at s i' then chain_down s ms p i' acc else acc
            | l => chain_down s ms p i' (merge_new acc l)
            end
  end.
Definition chain_before (s : str) (ms : list mt) (pos : nat) (p : mt -> bool) : list mt :=
  chain_down s ms p (Nat.min (max_end s ms) pos) [].
Fixpoint chain_up (s : str) (ms : list mt) (p : mt -> bool) (n i : nat) (acc : list mt) : list mt :=
  match n with
  | O => acc
  | S n' => match filter p (at_index i ms) with
            | [] => if sep_at s i then chain_up s ms p n' (S i) acc else acc
            | l => chain_up s ms p n' (S i) (merge_new acc l)
            end
  end.
Definition chain_after (s : str) (ms : list mt) (pos : nat) (p : mt -> bool) : list mt :=
  chain_up s ms p (max_end s ms - pos) pos [].

(** ** title.py *)
(** common/__init__.py:12 *)
Definition title_seps : str := lit "-+/\|".

(** The value of a hole: [formatters(cleanup, reorder_title)] of its text (title.py:174), with the default articles and
    separators of [reorder_title] (formatters.py:118). [cleanup] never fails (C18). *)
Definition title_text (t : str) : str :=
  match cleanup t with
  | Ok u => reorder_title u [lit "the"] [lit ","; lit ", "]
  | Err _ => []
  end.
Definition raw (s : str) (h : span) : str := slice (fst h) (snd h) s.
Definition hole_value (s : str) (h : span) : str := title_text (raw s h).
Definition m_raw (s : str) (m : mt) : str := slice (m_raw_start m) (m_raw_end m) s.
Definition m_span (m : mt) : span := (m_start m, m_end m).
Definition nonnil {A} (l : list A) : bool := match l with [] => false | _ => true end.

(** what the classes derived from [TitleBaseRule] (title.py:55-59) set or override *)
Record title_rule := mk_tr {
  tr_name : str;
  tr_tags : list str;
  tr_alternative : option str;
  tr_hole_filter : list mt -> span -> bool;
  tr_part_filter : list mt -> mt -> bool;
  tr_should_remove : dict -> span -> mt -> bool
}.

(** title.py:98-99 *)
Definition whole_part (markers : list mt) (g : mt) : bool :=
  match first (filter (has_name (lit "path")) (at_match g markers)) with
  | Some p => m_truthy p && (m_start p =? m_start g) && (m_end p =? m_end g)
  | None => false
  end.
(** title.py:97-100: the list is modified while it is iterated, so the group after a removed one is not looked at *)
Fixpoint kept_groups (markers l : list mt) : list mt :=
  match l with
  | [] => []
  | g :: r => if whole_part markers g then match r with [] => [] | h :: r' => h :: kept_groups markers r' end
              else g :: kept_groups markers r
  end.
Definition crop_groups (markers : list mt) : list span := map m_span (kept_groups markers (named (lit "group") markers)).
(** title.py:85-105 *)
Definition holes_process (markers : list mt) (hs : list span) : list span := flat_map (crop (crop_groups markers)) hs.

(** title.py:107-114 *)
Definition ignored_names : list str := [lit "language"; lit "country"; lit "episode_details"].
Definition is_ignored (s : str) (m : mt) : bool :=
  negb ((3 <? m_end m - m_start m) && isupper (m_raw s m)) && smem (m_name m) ignored_names.

(** language.py NON_SPECIFIC_LANGUAGES *)
Definition non_specific (v : mval) : bool := mval_eqb v (MvObj (lit "mul")) || mval_eqb v (MvObj (lit "und")).
(** title.py:116-151 *)
Definition should_keep (s : str) (ms to_keep : list mt) (part : mt) (hole : span) (start : bool) (m : mt) : bool :=
  if smem (m_name m) [lit "language"; lit "country"] then
    if List.length (hole_value s hole) =? List.length (m_raw s m) then true
    else
      let others := flat_map (fun o => range s ms (fst o) (snd o)
        (fun c => has_name (m_name m) c && negb (mmem c to_keep) && negb (non_specific (m_value c)))) (crop [hole] (m_span part)) in
      negb (nonnil others) && (negb start || (List.length (m_raw s m) <=? 3))
  else false.
(** title.py:153-164 *)
Definition base_should_remove (context : dict) (hole : span) (m : mt) : bool :=
  if (match dget context (KS (lit "type")) with Some (VStr t) => str_eqb t (lit "episode") | _ => false end)
     && has_name (lit "episode_details") m
  then (fst hole <=? m_start m) && (m_end m <=? snd hole)
  else true.

(** title.py:191-205, one ignored match at the end of the hole; the state is the hole and [to_keep] *)
Definition trail_step (s : str) (ms : list mt) (part : mt) (st : span * list mt) (m : mt) : span * list mt :=
  let (hole, to_keep) := st in
  if nonnil (chain_before s ms (snd hole) (mt_eqb m)) && should_keep s ms to_keep part hole false m
  then ((fst hole, m_start m), to_keep ++ [m])
  else st.
(** title.py:207-222, one ignored match at the start of the hole *)
Definition lead_step (s : str) (ms : list mt) (part : mt) (st : span * list mt) (m : mt) : span * list mt :=
  let (hole, to_keep) := st in
  if mmem m to_keep then st
  else if nonnil (chain_after s ms (fst hole) (mt_eqb m)) && should_keep s ms to_keep part hole true m
  then ((m_end m, snd hole), to_keep ++ [m])
  else st.
Definition trim (s : str) (ms : list mt) (part : mt) (hole : span) (ignored : list mt) : span * list mt :=
  fold_left (lead_step s ms part) ignored (fold_left (trail_step s ms part) (rev ignored) (hole, [])).

(** title.py:236-246: the pieces; a single dash inside a word does not split *)
Definition last_sep (t : str) : bool := match last_o t with Some c => is_sep c | None => true end.
Definition first_sep (t : str) : bool := match t with c :: _ => is_sep c | [] => true end.
(** one piece; [acc] has the last title first *)
Definition merge_title (s alternative : str) (acc : list (str * span)) (h : span) : list (str * span) :=
  match acc with
  | (n, p) :: r =>
      if str_eqb (slice (snd p) (fst h) s) (lit "-") && negb (last_sep (raw s p)) && negb (first_sep (raw s h))
      then (n, (fst p, snd h)) :: r
      else (alternative, h) :: acc
  | [] => (alternative, h) :: acc
  end.
Definition split_titles (s name alternative : str) (hole : span) : list (str * span) :=
  match filter (fun h => nonnil (hole_value s h)) (runs (fun c => cmem c title_seps) (raw s hole) (fst hole) None) with
  | [] => []
  | h :: r => rev (fold_left (merge_title s alternative) r [(name, h)])
  end.
Definition to_match (s : str) (tags : list str) (x : str * span) : mt :=
  simple (fst (snd x)) (snd (snd x)) (fst x) (MvStr (hole_value s (snd x))) tags.

(** title.py:181-250, one hole. [None]: go on with the next hole. The truth value of a match of negative length raises *)
Definition hole_titles (r : title_rule) (s : str) (context : dict) (ms : list mt) (part : mt) (hole : span) : res (option (list mt * list mt)) :=
  if negb (fst hole <? snd hole) || negb (tr_hole_filter r ms hole) then Ok None
  else
    let ignored := range s ms (fst hole) (snd hole) (is_ignored s) in
    let (hole', to_keep) := trim s ms part hole ignored in
    let to_remove := remove_all to_keep (filter (tr_should_remove r context hole') ignored) in
    if snd hole' <? fst hole' then Err ValueError
    else if (fst hole' <? snd hole') && nonnil (hole_value s hole') then
      let titles := match tr_alternative r with
                    | Some alternative => split_titles s (tr_name r) alternative hole'
                    | None => [(tr_name r, hole')]
                    end in
      Ok (Some (map (to_match s (tr_tags r)) titles, to_remove))
    else Ok None.
Fixpoint first_titles (r : title_rule) (s : str) (context : dict) (ms : list mt) (part : mt) (hs : list span) : res (option (list mt * list mt)) :=
  match hs with
  | [] => Ok None
  | h :: hs' =>
      o <- hole_titles r s context ms part h;
      match o with
      | Some x => Ok (Some x)
      | None => first_titles r s context ms part hs'
      end
  end.
(** title.py:166-250; [extra] is [additional_ignored] *)
Definition check_titles (r : title_rule) (s : str) (context : dict) (markers ms : list mt) (extra : mt -> bool) (part : mt) : res (option (list mt * list mt)) :=
  let hs := filter (fun h => nonnil (hole_value s h))
    (holes s ms (m_start part) (m_end part + 1) (fun m => is_ignored s m || extra m) None) in
  first_titles r s context ms part (holes_process markers hs).

(** title.py:258-261 *)
Definition season_only (s : str) (ms : list mt) (part : mt) : bool :=
  match filter (fun m => negb (m_private m)) (range s ms (m_start part) (m_end part) (fun _ => true)) with
  | [m] => has_name (lit "season") m &&
      ((m_start m =? m_start part) && (m_end m =? m_end part) ||
       match m_parent m with
       | Some p => (p_start p <? p_end p) && (p_start p =? m_start part) && (p_end p =? m_end part)
       | None => false
       end)
  | _ => false
  end.
(** title.py:252-264 *)
Fixpoint serie_part_from (s : str) (ms : list mt) (parts : list mt) : option mt :=
  match parts with
  | f :: ((g :: _) as r) => if season_only s ms f then Some g else serie_part_from s ms r
  | _ => None
  end.
Definition serie_part (s : str) (ms : list mt) (parts : list mt) : option mt :=
  match parts with [] => None | _ :: r => serie_part_from s ms r end.
(** title.py:267-271 *)
Definition weak (m : mt) : bool := existsb (fun t => str_eqb t (lit "weak") || startswith (lit "weak-") t) (m_tags m).
(** title.py:285-286 *)
Definition with_year (s : str) (ms : list mt) (part : mt) : bool :=
  o_truthy (first (range s ms (m_start part) (m_end part) (has_name (lit "year")))).

(** title.py:310-324; the state is [year_fileparts]. Gives back [year_fileparts] and the titles found *)
Fixpoint main_part (r : title_rule) (s : str) (context : dict) (markers ms : list mt) (parts years : list mt)
  : res (list mt * option (list mt * list mt)) :=
  match parts with
  | [] => Ok (years, None)
  | p :: rest =>
      let years' := remove1 p years in
      o <- check_titles r s context markers ms never p;
      match o with
      | Some x => Ok (years', Some x)
      | None => main_part r s context markers ms rest years'
      end
  end.
(** title.py:318-321 *)
Definition rename_title (serie : option mt) (t : mt) : mt :=
  match serie with
  | Some x => if m_truthy x && negb (mval_eqb (m_value t) (m_value x)) then set_name t (lit "episode_title") else t
  | None => t
  end.
Definition titles_of (o : option (list mt * list mt)) : list mt := match o with Some x => fst x | None => [] end.
Definition removed_of (o : option (list mt * list mt)) : list mt := match o with Some x => snd x | None => [] end.
(** title.py:266-280 *)
Definition serie_titles (r : title_rule) (s : str) (context : dict) (markers ms : list mt) (part : option mt) : res (option (mt * list mt)) :=
  match part with
  | Some p =>
      if m_truthy p then
        o <- check_titles r s context markers ms weak p;
        match o with
        | Some ([t], rm) => Ok (Some (t, rm))
        | _ => Ok None
        end
      else Ok None
  | None => Ok None
  end.
(** title.py:290-337: the matches to append and to remove *)
Definition title_when (r : title_rule) (s : str) (context : dict) (markers ms : list mt) : res (list mt * list mt) :=
  if existsb (has_tag (lit "expected")) (named (tr_name r) ms) then Ok ([], [])
  else
    let parts := filter (tr_part_filter r ms) (marker_sorted s ms comparator_predicate (named (lit "path") markers)) in
    serie <- serie_titles r s context markers ms (serie_part s ms parts);
    x <- main_part r s context markers ms parts (filter (with_year s ms) parts);
    let (years, main) := (x : list mt * option (list mt * list mt)) in
    others <- mapM (check_titles r s context markers ms never) years;
    let serie_match := match serie with Some (t, _) => Some t | None => None end in
    Ok (olist serie_match ++ map (rename_title serie_match) (titles_of main) ++ flat_map titles_of others,
        (match serie with Some (_, rm) => rm | None => [] end) ++ removed_of main ++ flat_map removed_of others).
(** the consequence [AppendMatch, RemoveMatch] *)
Definition title_then (s : str) (ms : list mt) (w : list mt * list mt) : list mt := remove_all (snd w) (append_all (fst w) ms).
Definition title_base (r : title_rule) (s : str) (context : dict) (markers ms : list mt) : res (list mt) :=
  w <- title_when r s context markers ms; Ok (title_then s ms w).

(** title.py:340-352; the rule is enabled when alternative_title is not disabled (see Common.is_disabled) *)
Definition title_from_position : title_rule :=
  mk_tr (lit "title") [lit "title"] (Some (lit "alternative_title")) (fun _ _ => true) (fun _ _ => true) base_should_remove.
Definition TitleFromPosition (s : str) (context : dict) (markers ms : list mt) : res (list mt) :=
  title_base title_from_position s context markers ms.

(** title.py:355-396 [PreferTitleWithYear] *)
(** lines 370-378: [None] no year in the file part of the title, [Some b] a year, in a group or not *)
Definition year_kind (s : str) (markers ms : list mt) (t : mt) : option bool :=
  match first (filter (has_name (lit "path")) (at_match t markers)) with
  | Some part =>
      if m_truthy part then
        match first (range s ms (m_start part) (m_end part) (has_name (lit "year"))) with
        | Some y => if m_truthy y then Some (nonnil (filter (has_name (lit "group")) (at_match y markers))) else None
        | None => None
        end
      else None
  | None => None
  end.
Definition is_some_b (b : bool) (o : option bool) : bool := match o with Some c => Bool.eqb b c | None => false end.
Definition prefer_year (s : str) (markers ms : list mt) : list mt * list mt :=
  let titles := named (lit "title") ms in
  let grouped := filter (fun t => is_some_b true (year_kind s markers ms t)) titles in
  let plain := filter (fun t => is_some_b false (year_kind s markers ms t)) titles in
  let chosen := if nonnil grouped then grouped else plain in
  let values := map m_value (if nonnil chosen then chosen else titles) in
  (filter (fun t => negb (existsb (mval_eqb (m_value t)) values)) titles, chosen).
(** rebulk/rules.py [AppendTags]: the matches that are still there are removed, their tags extended, and they are added at the end *)
Definition append_tags (tags : list str) (l ms : list mt) : list mt :=
  let found := removed l ms in
  append_all (map (fun m => set_tags m (m_tags m ++ tags)) found) (remove_all l ms).
Definition PreferTitleWithYear (s : str) (markers ms : list mt) : list mt :=
  let (to_remove, to_tag) := prefer_year s markers ms in
  append_tags [lit "equivalent-ignore"] to_tag (remove_all to_remove ms).
