(** Model of guessit/rules/properties/episodes.py: the validators and the rules of seasons and episodes.
    [ini m] is the initiator of [m] (its topmost parent, or itself) and [kids i] are the children of an initiator; both are
    attributes of the objects and are arguments here. *)
From Verif Require Import Py Text Sort Formatters Common Rebulk Title EpisodeTitle.
From Coq Require Import Arith.

(** The numeric value of a season or an episode. Simplification: formatters make these values integers (int or parse_numeral);
    another value counts as 0 here. *)
Definition num (m : mt) : Z := match m_value m with MvInt z => z | _ => 0%Z end.
Definition with_number (m : mt) (n : Z) : mt := set_value m (MvInt n).
(** [range(a, b)] *)
Definition zrange (a b : Z) : list Z := map (fun i => (a + Z.of_nat i)%Z) (seq 0 (Z.to_nat (b - a))).
Definition val_text (m : mt) : option str := match m_value m with MvStr t => Some t | _ => None end.
(** [m.value in l] for a list of texts *)
Definition value_in (m : mt) (l : list str) : bool := match val_text m with Some t => smem t l | None => false end.

(** ** validators *)
(** episodes.py:40-57 [episodes_season_chain_breaker]: the last two values of a list *)
Definition too_far (max : Z) (l : list mt) : bool :=
  match rev l with y :: x :: _ => (max <? Z.abs (num y - num x))%Z | _ => false end.
Definition chain_breaker (episode_max season_max : Z) (ms : list mt) : bool :=
  if too_far episode_max (named (lit "episode") ms) then true else too_far season_max (named (lit "season") ms).

(** episodes.py:86-127 [ordering_validator]; [kids] are the children of the match. [to_dict] lists the values of a name in the
    order of the positions when there is more than one; equal values are listed once (rebulk/match.py [to_dict], no
    [enforce_list]). *)
Fixpoint no_repeat (l seen : list Z) : list Z :=
  match l with
  | [] => []
  | x :: r => if existsb (Z.eqb x) seen then no_repeat r seen else x :: no_repeat r (x :: seen)
  end.
Definition dict_values (n : str) (kids : list mt) : list Z := no_repeat (map num (filter (has_name n) (msorted kids))) [].
Definition zsorted (l : list Z) : bool := if list_eq_dec Z.eq_dec (isort Z.leb l) l then true else false.
(** lines 102-125 [is_consecutive] *)
Fixpoint consecutive (s : str) (kids : list mt) (n : str) (range_seps weak strong : list str) (gap : Z) (l : list mt) (prev : option mt) (valid : bool) : bool :=
  match l with
  | [] => valid
  | c :: r =>
      match prev with
      | Some p =>
          match first (previous c kids (has_name (n ++ lit "Separator"))) with
          | Some sep =>
              if negb (m_truthy sep) then consecutive s kids n range_seps weak strong gap r (Some c) valid
              else
                let t := m_raw s sep in
                let valid' := if negb (smem t range_seps) && smem t weak && negb ((0 <? num c - num p) && (num c - num p <=? gap + 1))%Z then false else valid in
                if smem t strong then true else consecutive s kids n range_seps weak strong gap r (Some c) valid'
          | None => consecutive s kids n range_seps weak strong gap r (Some c) valid
          end
      | None => consecutive s kids n range_seps weak strong gap r (Some c) valid
      end
  end.
(** the arguments come from the configuration: range, weak and strong (discrete) separators and the greatest gap *)
Definition is_consecutive (s : str) (kids : list mt) (range_seps weak strong : list str) (gap : Z) (n : str) : bool :=
  consecutive s kids n range_seps weak strong gap (named n kids) None true.
Definition ordering_validator (s : str) (range_seps weak strong : list str) (gap : Z) (kids : list mt) : bool :=
  if negb (zsorted (dict_values (lit "season") kids)) then false
  else if negb (zsorted (dict_values (lit "episode") kids)) then false
  else is_consecutive s kids range_seps weak strong gap (lit "episode") && is_consecutive s kids range_seps weak strong gap (lit "season").
(** rules/common/__init__.py:10 *)
Definition seps_no_fs : str := filter (fun c => negb (cmem c (lit "/\"))) seps.
(** episodes.py:149 *)
Definition weak_discrete (range_seps : list str) : list str := filter (fun t => negb (smem t range_seps)) (map (fun c => [c]) seps_no_fs).

(** ** ranges *)
(** the copies of [nx] with the numbers from [a] to [b] excluded *)
Definition copies (nx : mt) (a b : Z) : list mt := map (with_number nx) (zrange a b).
(** what a rule removes, then what it appends *)
Definition change := (list mt * list mt)%type.
Definition apply_change (c : change) (ms : list mt) : list mt := append_all (snd c) (remove_all (fst c) ms).
Definition join (a b : change) : change := (fst a ++ fst b, snd a ++ snd b).
Definition joins (l : list change) : change := fold_left join l ([], []).

(** episodes.py:471-505 [SeePatternRange] *)
Definition is_see (n : str) (m : mt) : bool := has_name n m && has_tag (lit "see-pattern") m.
Definition see_one (range_seps : list str) (ms : list mt) (sep : mt) : change :=
  let pv := first (previous sep ms (is_see (lit "episode"))) in
  match first (next sep ms (is_see (lit "season"))) with
  | Some n1 =>
      if m_truthy n1 then
        match pv, first (next n1 ms (is_see (lit "episode"))) with
        | Some p, Some nx =>
            if m_truthy p && m_truthy nx && value_in sep range_seps then ([nx; sep], copies nx (num p + 1) (num nx + 1))
            else ([sep], [])
        | _, _ => ([sep], [])
        end
      else ([], [])
  | None => ([], [])
  end.
Definition see_separators (ms : list mt) : list mt := filter (has_name (lit "episodeSeparator")) (tagged (lit "see-pattern") ms).
Definition SeePatternRange (range_seps : list str) (ms : list mt) : list mt := apply_change (joins (map (see_one range_seps ms) (see_separators ms))) ms.

(** episodes.py:508-563 [AbstractSeparatorRange] for the property [n]; the children added to the initiator are not modelled *)
(** lines 526-540 *)
Definition sep_one (range_seps : list str) (n : str) (ms : list mt) (sep : mt) : change :=
  match first (previous sep ms (has_name n)), first (next sep ms (has_name n)) with
  | Some p, Some nx =>
      if m_truthy p && m_truthy nx && value_in sep range_seps then ([nx; sep], copies nx (num p + 1) (num nx) ++ [nx])
      else ([sep], [])
  | _, _ => ([sep], [])
  end.
(** lines 542-558; [strip] is formatters.py:95-104 *)
Definition text_from (s : str) (ini : mt -> mt) (p nx : mt) : str := slice (m_end (ini p)) (m_start (ini nx)) s.
Definition joined_text (s : str) (ini : mt -> mt) (range_seps : list str) (p nx : mt) : bool :=
  smem (text_from s ini p nx) range_seps || smem (strip (fun c => cmem c seps) (text_from s ini p nx)) range_seps.
(** line 554-557: the match for the separator; its value is its text *)
Definition range_separator (s : str) (n : str) (p nx : mt) : mt :=
  mk_mt (m_end p) (m_start nx - 1) (n ++ lit "Separator") (MvStr (slice (m_end p) (m_start nx - 1) s)) [] true (m_end p) (m_start nx - 1) None [].
Definition pair_one (s : str) (ini : mt -> mt) (range_seps : list str) (n : str) (p nx : mt) : change :=
  ([nx], (if joined_text s ini range_seps p nx then copies nx (num p + 1) (num nx) ++ [range_separator s n p nx] else []) ++ [nx]).
Fixpoint pairs (s : str) (ini : mt -> mt) (range_seps : list str) (n : str) (can_start : mt -> bool) (prev : option mt) (l : list mt) : list change :=
  match l with
  | [] => []
  | x :: r =>
      match prev with
      | None => if can_start x then pairs s ini range_seps n can_start (Some x) r else pairs s ini range_seps n can_start None r
      | Some p => pair_one s ini range_seps n p x :: pairs s ini range_seps n can_start (Some x) r
      end
  end.
(** [sorted(..., key=lambda x: x.span[0])] *)
Definition by_start (l : list mt) : list mt := isort (fun a b => m_start a <=? m_start b) l.
Definition separator_range (s : str) (ini : mt -> mt) (range_seps : list str) (n : str) (can_start : mt -> bool) (ms : list mt) : change :=
  join (joins (map (sep_one range_seps n ms) (named (n ++ lit "Separator") ms)))
       (joins (pairs s ini range_seps n can_start None (by_start (named n ms)))).
(** episodes.py:619-641 *)
Definition EpisodeNumberSeparatorRange (s : str) (ini : mt -> mt) (range_seps : list str) (ms : list mt) : list mt :=
  apply_change (separator_range s ini range_seps (lit "episode") (fun m => negb (has_tag (lit "weak-episode") m)) ms) ms.
Definition SeasonSeparatorRange (s : str) (ini : mt -> mt) (range_seps : list str) (ms : list mt) : list mt :=
  apply_change (separator_range s ini range_seps (lit "season") (fun _ => true) ms) ms.

(** ** chains *)
(** rebulk/chain.py [Chain._match]: the matches of a part are added to the chain unless the breaker says no. *)
Definition grow_chain (breaker : list mt -> bool) (parts : list (list mt)) : list mt :=
  fold_left (fun cur part => if breaker (cur ++ part) then cur else cur ++ part) parts [].
