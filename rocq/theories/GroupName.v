(** Model of [clean_groupname], guessit/rules/properties/release_group.py:28-56. *)
From Verif Require Import Py Text Regex.

(** [x in seps] for a slice of at most one character *)
Definition slice_in_seps (x : str) : bool := match x with [] => true | [c] => is_sep c | _ => false end.

Section Clean.
  (** [config['ignored_seps']] and [config['forbidden_names']] *)
  Context (ignored : str) (forbidden : list str).
  (** release_group.py:31 *)
  Definition groupname_sep (c : char) : bool := is_sep c && negb (cmem c ignored).
  Definition is_ignored (c : char) : bool := cmem c ignored.
  (** release_group.py:41-44 *)
  Definition clean_outer (s : str) : str :=
    let s := strip groupname_sep s in
    let ends := match rev s with c :: _ => is_ignored c | [] => false end in
    let starts := match s with c :: _ => is_ignored c | [] => false end in
    if negb (ends && starts) && negb (existsb is_ignored (strip is_ignored s)) then strip is_ignored s else s.
  (** release_group.py:45-51, one forbidden name *)
  Definition drop_forbidden (s f : str) : str :=
    let n := List.length f in
    let s := if startswith f (lower s) && slice_in_seps (slice n (n + 1) s) then strip groupname_sep (skipn n s) else s in
    if endswith f (lower s) && slice_in_seps (zslice (- Z.of_nat n - 1) (- Z.of_nat n) s) then strip groupname_sep (firstn n s) else s.
  (** release_group.py:55 [(.+)\)\s?\[(.+)\]] *)
  Definition any_plus : re := let dot := RChr (fun c => negb (N.eqb c 10)) in RSeq dot (RStar dot).
  Definition members_re : re :=
    RSeq (RGrp 1 any_plus) (RSeq (RChr (N.eqb 41)) (RSeq (RAlt (RChr is_space) REps) (RSeq (RChr (N.eqb 91)) (RSeq (RGrp 2 any_plus) (RChr (N.eqb 93)))))).
  Definition group_of (s : str) (c : caps) (n : nat) : str := match group n c with Some (a, b) => slice a b s | None => [] end.
  (** [re.sub(members_re, r'\1 \2', s)]: the text after position [pos] with the found matches replaced *)
  Fixpoint sub_members (s : str) (ms : list (nat * nat * caps)) (pos : nat) : str :=
    match ms with
    | [] => skipn pos s
    | (a, b, c) :: r => slice pos a s ++ group_of s c 1 ++ lit " " ++ group_of s c 2 ++ sub_members s r b
    end.
  Definition members (s : str) : str := sub_members s (finditer s members_re) 0.
  (** release_group.py:33-56 *)
  Definition clean_groupname (s : str) : str :=
    members (strip is_space (fold_left drop_forbidden forbidden (clean_outer s))).
End Clean.
