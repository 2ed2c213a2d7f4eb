(** Model of guessit/rules/common/comparators.py and of guessit/rules/processors.py. *)
From Verif Require Import Py Text Sort Words Date Rebulk.
From Coq Require Import Arith.

(** comparators.py:10-19 [marker_comparator_predicate] *)
Definition comparator_predicate (m : mt) : bool :=
  negb (m_private m)
  && negb (smem (m_name m) [lit "proper_count"; lit "title"])
  && negb (has_name (lit "container") m && has_tag (lit "extension") m)
  && negb (has_name (lit "other") m && mval_eqb (m_value m) (MvStr (lit "Rip"))).

(** [set(...)]: the distinct texts of a list *)
Fixpoint dedup (l : list str) : list str :=
  match l with
  | [] => []
  | x :: r => if smem x r then dedup r else x :: dedup r
  end.
(** comparators.py:22-30 *)
Definition marker_weight (s : str) (ms : list mt) (p : mt -> bool) (k : mt) : nat :=
  List.length (dedup (map m_name (range s ms (m_start k) (m_end k) p))).
(** [markers.index(k)] *)
Fixpoint index_m (k : mt) (l : list mt) : nat :=
  match l with
  | [] => 0
  | x :: r => if mt_eqb k x then 0 else S (index_m k r)
  end.
(** comparators.py:33-57 *)
Definition marker_cmp (s : str) (ms : list mt) (markers : list mt) (p : mt -> bool) (a b : mt) : Z :=
  let count := (Z.of_nat (marker_weight s ms p b) - Z.of_nat (marker_weight s ms p a))%Z in
  if negb (count =? 0)%Z then count
  else (Z.of_nat (index_m b markers) - Z.of_nat (index_m a markers))%Z.
(** comparators.py:60-73: a stable sort by the comparator *)
Definition marker_sorted (s : str) (ms : list mt) (p : mt -> bool) (markers : list mt) : list mt :=
  isort (fun a b => (marker_cmp s ms markers p a b <=? 0)%Z) markers.

(** ** processors.py:80-117 [RemoveAmbiguous] *)
Definition vals := list (str * mval).
Definition vmem (n : str) (v : mval) (l : vals) : bool := existsb (fun x => str_eqb (fst x) n && mval_eqb (snd x) v) l.
(** lines 104-112, one match of a file part; the state is (values, to_remove). [values] maps a name to a list
    of values; it is kept as a list of pairs. *)
Definition amb_match (previous_names : list str) (st : vals * list mt) (m : mt) : vals * list mt :=
  let (values, to_remove) := st in
  if smem (m_name m) previous_names then
    if vmem (m_name m) (m_value m) values then st else (values, to_remove ++ [m])
  else if vmem (m_name m) (m_value m) values then st else (values ++ [(m_name m, m_value m)], to_remove).
(** lines 100-115 *)
Fixpoint amb_parts (s : str) (ms : list mt) (p : mt -> bool) (parts : list mt) (previous_names : list str) (st : vals * list mt) : list mt :=
  match parts with
  | [] => snd st
  | k :: r =>
      let found := range s ms (m_start k) (m_end k) p in
      amb_parts s ms p r (previous_names ++ map m_name found) (fold_left (amb_match previous_names) found st)
  end.
Definition remove_ambiguous (s : str) (ms : list mt) (p : mt -> bool) (sorted_parts : list mt) : list mt :=
  amb_parts s ms p sorted_parts [] ([], []).
Definition every (m : mt) : bool := true.
(** the rule and its consequence, on the markers named [path] *)
Definition RemoveAmbiguous (s : str) (markers ms : list mt) : list mt :=
  remove_all (remove_ambiguous s ms every (marker_sorted s ms comparator_predicate (named (lit "path") markers))) ms.

(** processors.py:120-130: the order of the file parts and the rule *)
Definition sxxexx (name : str) (m : mt) : bool := has_name name m && has_tag (lit "SxxExx") m.
Definition specific_order (s : str) (ms : list mt) (name : str) (markers : list mt) : list mt :=
  marker_sorted s ms (sxxexx name) (rev markers).
Definition RemoveLessSpecific (name s : str) (markers ms : list mt) : list mt :=
  remove_all (remove_ambiguous s ms (has_name name) (specific_order s ms name (named (lit "path") markers))) ms.

(** ** processors.py:133-171 *)
Definition is_cased (c : char) : bool := is_upper c || is_lower c.
(** [str.isupper], ASCII *)
Definition isupper (s : str) : bool := existsb is_upper s && negb (existsb is_lower s).
(** [str.istitle], ASCII *)
Fixpoint istitle_from (cased seen : bool) (s : str) : bool :=
  match s with
  | [] => seen
  | c :: r => if is_upper c then (if cased then false else istitle_from true true r)
              else if is_lower c then (if cased then istitle_from true true r else false)
              else istitle_from false seen r
  end.
Definition istitle (s : str) : bool := istitle_from false false s.
(** processors.py:159-171 *)
Definition count_title_words (s : str) : nat := List.length (filter (fun w => istitle (w_value w)) (iter_words s)).
(** [s[0].isupper()] *)
Definition first_upper (s : str) : res bool := match s with [] => Err IndexError | c :: _ => Ok (is_upper c) end.
(** processors.py:133-156 *)
Definition preferred_string (v1 v2 : str) : res str :=
  if str_eqb v1 v2 then Ok v1
  else if istitle v1 && negb (istitle v2) then Ok v1
  else if negb (isupper v1) && isupper v2 then Ok v1
  else
    c <- (if negb (isupper v1) then
            a <- first_upper v1;
            if (a : bool) then b <- first_upper v2; Ok (negb b) else Ok false
          else Ok false);
    if (c : bool) then Ok v1
    else if count_title_words v2 <? count_title_words v1 then Ok v1 else Ok v2.

(** ** processors.py:174-189 [SeasonYear] and 192-207 [YearSeason]; the context is not read.
    Simplification: season and year values are integers. *)
Definition valid_year_value (v : mval) : bool := match v with MvInt z => valid_year z | _ => false end.
Definition season_year (context : dict) (ms : list mt) : list mt :=
  match named (lit "year") ms with
  | [] => map (fun m => set_name m (lit "year")) (filter (fun m => valid_year_value (m_value m)) (named (lit "season") ms))
  | _ => []
  end.
Definition SeasonYear (context : dict) (ms : list mt) : list mt := append_all (season_year context ms) ms.
Definition year_season (context : dict) (ms : list mt) : list mt :=
  match named (lit "season") ms, named (lit "episode") ms with
  | [], _ :: _ => map (fun m => set_name m (lit "season")) (named (lit "year") ms)
  | _, _ => []
  end.
Definition YearSeason (context : dict) (ms : list mt) : list mt := append_all (year_season context ms) ms.

(** ** processors.py:225-242 [StripSeparators], on the raw bounds of one match *)
Definition no_group (c : char) : bool := cmem c seps_no_groups.
Definition strip_front (s : str) (ab : nat * nat) : res (nat * nat) :=
  let raw := slice (fst ab) (snd ab) s in
  match raw with
  | [] => Err IndexError
  | c :: _ =>
      if no_group c && match nth_error raw 2 with None => true | Some d => negb (no_group d) end
      then Ok (S (fst ab), snd ab) else Ok ab
  end.
(** [raw[-1]] and [raw[-3]] *)
Definition strip_back (s : str) (ab : nat * nat) : res (nat * nat) :=
  let raw := rev (slice (fst ab) (snd ab) s) in
  match raw with
  | [] => Err IndexError
  | c :: _ =>
      if no_group c && match nth_error raw 2 with None => true | Some d => negb (no_group d) end
      then Ok (fst ab, snd ab - 1) else Ok ab
  end.
(** lines 235-242: two iterations each ([len(match.span)] is 2) *)
Definition strip_raw (s : str) (ab : nat * nat) : res (nat * nat) :=
  x <- strip_front s ab; x <- strip_front s x; x <- strip_back s x; strip_back s x.
Definition set_raw (m : mt) (ab : nat * nat) : mt :=
  mk_mt (m_start m) (m_end m) (m_name m) (m_value m) (m_tags m) (m_private m) (fst ab) (snd ab) (m_parent m) (m_children m).
Definition StripSeparators (s : str) (ms : list mt) : res (list mt) :=
  mapM (fun m => ab <- strip_raw s (m_raw_start m, m_raw_end m); Ok (set_raw m ab)) ms.

(** ** processors.py:19-51 [EnlargeGroupMatches]. The raw bounds are not changed: [raw_start += 1] undoes
    [start -= 1] since an unset [raw_start] reads [start]. *)
Definition set_span (m : mt) (a b : nat) : mt :=
  mk_mt a b (m_name m) (m_value m) (m_tags m) (m_private m) (m_raw_start m) (m_raw_end m) (m_parent m) (m_children m).
Definition groups_of (markers : list mt) : list mt := named (lit "group") markers.
Definition enlarge_starting (markers ms : list mt) : list mt :=
  flat_map (fun g => starting (m_start g + 1) ms) (groups_of markers).
Definition enlarge_ending (markers ms : list mt) : list mt :=
  flat_map (fun g => ending (m_end g - 1) ms) (groups_of markers).
(** lines 38-51: [matches.remove(match)] then [matches.append(match)]; the ending list holds the same objects,
    hence already enlarged when they are in the starting list too. Simplification: the raw bounds were unset before. *)
Definition enlarge_front (m : mt) : mt := set_span m (m_start m - 1) (m_end m).
Definition enlarge_back (m : mt) : mt := set_span m (m_start m) (m_end m + 1).
Definition replace_each (f : mt -> mt) (l ms : list mt) : list mt := fold_left (fun ms m => remove1 m ms ++ [f m]) l ms.
Definition EnlargeGroupMatches (markers ms : list mt) : list mt :=
  let st := enlarge_starting markers ms in
  let en := enlarge_ending markers ms in
  replace_each enlarge_back (map (fun m => if mmem m st then enlarge_front m else m) en) (replace_each enlarge_front st ms).
