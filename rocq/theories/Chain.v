(** Chains of patterns (rebulk/chain.py, not in /repo, transcribed here; see DESIGN.md), and the chains of
    guessit/rules/properties/episodes.py. Simplifications: the chains modelled have a first part that is required and other
    parts that are optional, none of them with a validator of its own, as in episodes.py:167-213 and 263-333; an expression
    searched in the rest of the text, [input_string[offset:]], is searched from the offset (these expressions look at nothing
    before the place where they match). *)
From Verif Require Import Py Text Regex Date Rebulk Episodes Patterns.
From Coq Require Import Arith.
Local Open Scope nat_scope.

Definition found := (nat * nat * caps)%type.
Definition f_start (f : found) : nat := fst (fst f).
Definition f_end (f : found) : nat := snd (fst f).
(** [pattern.finditer(input_string[offset:])] *)
Definition finditer_from (s : str) (r : re) (pos : nat) : list found := finditer_loop s r (S (List.length s)) pos.

(** a part: its expression, and how many times it may be repeated ([None]: any number) *)
Record part := mk_part { pt_rx : rx; pt_max : option nat }.
(** rebulk/chain.py [_truncate_chain_part_matches]: matches that follow each other, at most [pt_max] *)
Fixpoint run (e : nat) (l : list found) : list found :=
  match l with
  | f :: r => if f_start f =? e then f :: run (f_end f) r else []
  | [] => []
  end.
Definition limit (m : option nat) (l : list found) : list found := match m with Some n => firstn n l | None => l end.
(** the first part may be anywhere, the others must be just after *)
Definition head_found (s : str) (pos : nat) (p : part) : list found :=
  match finditer_from s (rx_re (pt_rx p)) pos with
  | [] => []
  | f :: r => limit (pt_max p) (f :: run (f_end f) r)
  end.
Definition tail_found (s : str) (pos : nat) (p : part) : list found :=
  limit (pt_max p) (run pos (finditer_from s (rx_re (pt_rx p)) pos)).
Definition end_of (pos : nat) (l : list found) : nat := match rev l with f :: _ => f_end f | [] => pos end.

(** one match of one part, with its matches: the groups, then the match itself *)
Definition grp := (part * found)%type.
Definition g_end (g : grp) : nat := f_end (snd g).
Definition group_of (s : str) (g : grp) : list mt :=
  let '(p, (a, b, c)) := g in map (rx_child (pt_rx p) a b) (rx_kids (pt_rx p) s c) ++ [rx_parent (pt_rx p) s a b c].
Definition kids_of (s : str) (l : list grp) : list mt := flat_map (group_of s) l.
(** the parts after the first, and where the text is left *)
Fixpoint tails_found (s : str) (pos : nat) (tails : list part) : list grp * nat :=
  match tails with
  | [] => ([], pos)
  | p :: r =>
      let l := tail_found s pos p in
      let '(gs, e) := tails_found s (end_of pos l) r in
      (map (fun f => (p, f)) l ++ gs, e)
  end.

Record chain := mk_chain {
  ch_head : part;
  ch_tails : list part;
  ch_name : str;
  ch_tags : list str;
  ch_private : list str;                    (** [private_names] *)
  ch_breaker : list mt -> bool;
  ch_valid : str -> mt -> list mt -> bool   (** the validator of the parent, and its children *)
}.
(** [_chain_breaker_eval]: a part that breaks the chain is left out *)
Definition kept (C : chain) (s : str) (l : list grp) : list grp :=
  fold_left (fun cur g => if ch_breaker C (kids_of s (cur ++ [g])) then cur else cur ++ [g]) l [].
(** the match of the chain *)
Definition chain_parent (C : chain) (s : str) (l : list grp) : mt :=
  let a := match l with g :: _ => f_start (snd g) | [] => 0 end in
  let b := match rev l with g :: _ => g_end g | [] => 0 end in
  mk_mt a b (ch_name C) (MvStr (slice a b s)) (ch_tags C) true a b None [].
(** [_match_parent]: the last parts are dropped one by one until the validator accepts *)
Fixpoint shrink (ok : list grp -> bool) (l : list grp) : list grp :=
  match l with
  | [] => []
  | g :: r => if ok (rev (g :: r)) then rev (g :: r) else shrink ok r
  end.
Definition settled (C : chain) (s : str) (l : list grp) : list grp :=
  shrink (fun gs => ch_valid C s (chain_parent C s gs) (kids_of s gs)) (rev (kept C s l)).
Definition hide (names : list str) (m : mt) : mt :=
  mk_mt (m_start m) (m_end m) (m_name m) (m_value m) (m_tags m) (m_private m || smem (m_name m) names) (m_raw_start m) (m_raw_end m) (m_parent m) (m_children m).
(** what one chain gives *)
Definition chain_one (C : chain) (s : str) (l : list grp) : list mt :=
  match settled C s l with
  | [] => []
  | gs => chain_parent C s gs :: map (hide (ch_private C)) (kids_of s gs)
  end.
(** [_match]: one chain after the other *)
Fixpoint chain_loop (C : chain) (s : str) (fuel pos : nat) : list (list grp) :=
  match fuel with
  | O => []
  | S f =>
      if pos <? List.length s then
        match head_found s pos (ch_head C) with
        | [] => []
        | hs => let '(gs, e) := tails_found s (end_of pos hs) (ch_tails C) in
                (map (fun h => (ch_head C, h)) hs ++ gs) :: chain_loop C s f e
        end
      else []
  end.
Definition chain_matches (C : chain) (s : str) : list mt := flat_map (chain_one C s) (chain_loop C s (S (List.length s)) 0).
