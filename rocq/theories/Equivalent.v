(** Model of guessit/rules/processors.py:53-82 [EquivalentHoles]. *)
From Verif Require Import Py Text Sort Formatters Common Rebulk Processors Title EpisodeTitle Episodes EpisodeRules Technical ReleaseGroup.

(** [_preferred_string] (C32) does not fail on texts that differ by case only *)
Definition preferred (a b : str) : str := match preferred_string a b with Ok v => v | Err _ => b end.
(** lines 70-75: what a match of that name makes of the text of a hole *)
Definition eq_one (name hv : str) (m : mt) : option str :=
  if has_name name m then
    match m_value m with
    | MvStr t => if str_eqb (lower hv) (lower t) && negb (has_tag (lit "equivalent-ignore") m) then Some (preferred hv t) else None
    | _ => None
    end
  else None.
(** lines 69-83: the matches of that name, in their order; their values and that of the hole change in place *)
Fixpoint eq_scan (name hv : str) (ms : list mt) : str * bool * list mt :=
  match ms with
  | [] => (hv, false, [])
  | m :: r => match eq_one name hv m with
              | Some v => let '(h, _, r') := eq_scan name v r in (h, true, set_value m (MvStr v) :: r')
              | None => let '(h, f, r') := eq_scan name hv r in (h, f, m :: r')
              end
  end.
Record eqst := mk_eq { e_holes : list (span * str); e_ms : list mt; e_new : list mt }.
(** line 68: one hole; the hole found leaves the list (lines 82-83) *)
Definition eq_hole (name : str) (st : eqst) (h : span * str) : eqst :=
  let '(v, found, ms) := eq_scan name (snd h) (e_ms st) in
  if found then mk_eq (e_holes st) ms (e_new st ++ [simple (fst (fst h)) (snd (fst h)) name (MvStr v) [lit "equivalent"]])
  else mk_eq (e_holes st ++ [h]) ms (e_new st).
(** line 67: one name *)
Definition eq_name (st : eqst) (name : str) : eqst := fold_left (eq_hole name) (e_holes st) (mk_eq [] (e_ms st) (e_new st)).
(** lines 65-66: one component *)
Definition eq_part (names : list str) (s : str) (st : eqst) (part : mt) : eqst :=
  fold_left eq_name names (mk_eq (map (fun h => (h, cleaned (raw s h))) (holes s (e_ms st) (m_start part) (m_end part) never None)) (e_ms st) (e_new st)).
(** lines 62-85; [names] is [matches.names], whose order depends on the history of the matches *)
Definition EquivalentHoles (names : list str) (s : str) (markers ms : list mt) : list mt :=
  let st := fold_left (eq_part names s) (marker_sorted s ms comparator_predicate (parts_of markers)) (mk_eq [] ms []) in
  append_all (e_new st) (e_ms st).
