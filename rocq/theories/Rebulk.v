(** The match store of rebulk 3.2.0 (rebulk/match.py, rebulk/rules.py, rebulk/validators.py), on which the
    rules of guessit work. Rebulk is a dependency and is not in /repo: this file transcribes
    the queries the rules call. It is an assumption of the theorems about rules (see DESIGN.md). *)
From Verif Require Import Py Text Sort.
From Coq Require Import Arith.

(** the value of a match. Simplification: other objects (language, country, date) are identified by a text;
    fractions are in lowest terms. *)
Inductive mval :=
| MvInt (z : Z)
| MvStr (s : str)
| MvQuant (magnitude : Q) (units : str)
| MvObj (id : str)
| MvFloat (q : Q).
Definition mval_eq_dec (a b : mval) : {a = b} + {a <> b}.
Proof. repeat decide equality. Defined.
Definition mval_eqb (a b : mval) : bool := if mval_eq_dec a b then true else false.

(** the topmost parent of a match made by a pattern with children. Simplification: one level. *)
Record pinfo := mk_p { p_start : nat; p_end : nat; p_name : str; p_tags : list str }.
Definition pinfo_eq_dec (a b : pinfo) : {a = b} + {a <> b}.
Proof. repeat decide equality. Defined.

(** a child of a match (a named group of its pattern) *)
Record child := mk_c { c_start : nat; c_end : nat; c_name : str; c_value : mval }.
(** a match (or a marker); an absent name is the empty text *)
Record mt := mk_mt {
  m_start : nat; m_end : nat;
  m_name : str; m_value : mval; m_tags : list str; m_private : bool;
  m_raw_start : nat; m_raw_end : nat;
  m_parent : option pinfo;
  m_children : list child
}.
Definition set_name (m : mt) (n : str) : mt :=
  mk_mt (m_start m) (m_end m) n (m_value m) (m_tags m) (m_private m) (m_raw_start m) (m_raw_end m) (m_parent m) (m_children m).
Definition set_value (m : mt) (v : mval) : mt :=
  mk_mt (m_start m) (m_end m) (m_name m) v (m_tags m) (m_private m) (m_raw_start m) (m_raw_end m) (m_parent m) (m_children m).
Definition set_tags (m : mt) (t : list str) : mt :=
  mk_mt (m_start m) (m_end m) (m_name m) (m_value m) t (m_private m) (m_raw_start m) (m_raw_end m) (m_parent m) (m_children m).
(** a match without parent nor children *)
Definition simple (a b : nat) (n : str) (v : mval) (tags : list str) : mt := mk_mt a b n v tags false a b None [].

(** what [==] compares: span, name, value, parent *)
Definition mkey (m : mt) : nat * nat * str * mval * option pinfo :=
  (m_start m, m_end m, m_name m, m_value m, m_parent m).
Definition mkey_eq_dec (a b : nat * nat * str * mval * option pinfo) : {a = b} + {a <> b}.
Proof. repeat decide equality. Defined.
Definition mt_eqb (a b : mt) : bool := if mkey_eq_dec (mkey a) (mkey b) then true else false.
(** [m in matches] *)
Definition mmem (m : mt) (ms : list mt) : bool := existsb (mt_eqb m) ms.

(** [<]: the spans; [sorted] is stable *)
Definition mt_le (a b : mt) : bool :=
  (m_start a <? m_start b) || ((m_start a =? m_start b) && (m_end a <=? m_end b)).
Definition msorted (ms : list mt) : list mt := isort mt_le ms.

(** truth value of a match: its length *)
Definition m_truthy (m : mt) : bool := m_start m <? m_end m.
Definition o_truthy (m : option mt) : bool := match m with Some x => m_truthy x | None => false end.

Definition has_name (n : str) (m : mt) : bool := str_eqb (m_name m) n.
Definition has_tag (t : str) (m : mt) : bool := smem t (m_tags m).
(** queries returning lists *)
Definition named (n : str) (ms : list mt) : list mt := filter (has_name n) ms.
Definition tagged (t : str) (ms : list mt) : list mt := filter (has_tag t) ms.
Definition starting (i : nat) (ms : list mt) : list mt := filter (fun m => m_start m =? i) ms.
Definition ending (i : nat) (ms : list mt) : list mt := filter (fun m => m_end m =? i) ms.
Definition covers (i : nat) (m : mt) : bool := (m_start m <=? i) && (i <? m_end m).
Definition at_index (i : nat) (ms : list mt) : list mt := filter (covers i) ms.
(** lists merged without repeating equal matches *)
Definition merge_new (a b : list mt) : list mt := fold_left (fun acc m => if mmem m acc then acc else acc ++ [m]) b a.
(** [matches.at_span]; [span[1] - 1] is -1, hence nothing, for an empty span at 0 *)
Definition at_span (a b : nat) (ms : list mt) : list mt :=
  merge_new (at_index a ms) (match b with O => [] | S b' => at_index b' ms end).
Definition at_match (m : mt) (ms : list mt) : list mt := at_span (m_start m) (m_end m) ms.

Definition max_end (s : str) (ms : list mt) : nat := fold_left (fun n m => Nat.max n (m_end m)) ms (List.length s).
Definition overlaps (a b : nat) (m : mt) : bool := (m_start m <? b) && (a <? m_end m).
Definition range (s : str) (ms : list mt) (a b : nat) (p : mt -> bool) : list mt :=
  filter p (filter (overlaps a (Nat.min (max_end s ms) b)) (msorted ms)).
(** [matches.range(predicate=p)] *)
Definition range_all (s : str) (ms : list mt) (p : mt -> bool) : list mt := range s ms 0 (max_end s ms) p.

(** [matches.previous(m)]: the matches ending at the closest position at or before the start of [m]; the predicate applies afterwards *)
Fixpoint ending_down (i : nat) (ms : list mt) : list mt :=
  match ending i ms with
  | [] => match i with O => [] | S i' => ending_down i' ms end
  | l => l
  end.
Definition previous (m : mt) (ms : list mt) (p : mt -> bool) : list mt := filter p (ending_down (m_start m) ms).
(** [matches.next(m)]: [range(m.start + 1, max_end + 1)] *)
Fixpoint starting_up (n i : nat) (ms : list mt) : list mt :=
  match n with
  | O => []
  | S n' => match starting i ms with
            | [] => starting_up n' (S i) ms
            | l => l
            end
  end.
Definition ends (ms : list mt) : nat := fold_left (fun n m => Nat.max n (m_end m)) ms 0.
Definition next (m : mt) (ms : list mt) (p : mt -> bool) : list mt :=
  filter p (starting_up (ends ms - m_start m) (m_start m + 1) ms).
(** [index=0] and [index=-1] *)
Definition first {A} (l : list A) : option A := hd_error l.
Fixpoint last_o {A} (l : list A) : option A := match l with [] => None | [x] => Some x | _ :: r => last_o r end.

(** [matches.conflicting(m)] *)
Definition conflicting (m : mt) (ms : list mt) (p : mt -> bool) : list mt :=
  let all := fold_left (fun acc i => merge_new acc (at_index i ms)) (seq (m_start m) (m_end m - m_start m)) [] in
  filter p ((fix rm (l : list mt) := match l with [] => [] | x :: r => if mt_eqb m x then r else x :: rm r end) all).

(** [matches.holes]: [ret] is kept last hole first, the last hole may be open (its end unknown) *)
Definition hole_start (start : nat) (ms : list mt) (ignore : mt -> bool) : nat :=
  match find (fun i => existsb (fun m => negb (ignore m)) (starting i ms)) (rev (seq 0 start)) with
  | Some i => i
  | None => 0
  end.
Definition hole_end (i max : nat) (ms : list mt) (ignore : mt -> bool) : nat :=
  match find (fun i => existsb (fun m => negb (ignore m)) (starting i ms)) (seq i (max - i)) with
  | Some i => i
  | None => max
  end.
Record hstate := mk_h { h_open : option nat; h_done : list (nat * nat) }.
Definition hole_step (s : str) (ms : list mt) (ignore : mt -> bool) (hseps : option str) (start : nat) (st : hstate) (i : nat) : hstate :=
  let free := forallb ignore (at_index i ms) in
  let at_sep := match hseps with
                | Some (c :: r) => match nth_error s i with Some d => cmem d (c :: r) | None => false end
                | _ => false
                end in
  match h_open st with
  | Some a => if at_sep then mk_h None ((a, i) :: h_done st)
              else if free then st else mk_h None ((a, i) :: h_done st)
  | None => if free then mk_h (Some (Nat.max i start)) (h_done st) else st
  end.
Definition holes (s : str) (ms : list mt) (a b : nat) (ignore : mt -> bool) (hseps : option str) : list (nat * nat) :=
  let e := Nat.min (max_end s ms) b in
  let l := hole_start a ms ignore in
  let st := fold_left (hole_step s ms ignore hseps a) (seq l (e - l)) (mk_h None []) in
  match h_open st with
  | Some x => rev ((x, Nat.min (hole_end (e - 1) (max_end s ms) ms ignore) e) :: h_done st)
  | None => rev (h_done st)
  end.
Definition never (m : mt) : bool := false.
(** [matches.holes(a, b, predicate=lambda m: m.value.strip(seps))] is not empty *)
Definition text_between (s : str) (ms : list mt) (a b : nat) : bool :=
  existsb (fun h => negb (forallb is_sep (slice (fst h) (snd h) s))) (holes s ms a b never None).

(** consequences (rebulk/rules.py) *)
Fixpoint remove1 (m : mt) (ms : list mt) : list mt :=
  match ms with
  | [] => []
  | x :: r => if mt_eqb m x then r else x :: remove1 m r
  end.
(** RemoveMatch *)
Definition remove_all (l ms : list mt) : list mt := fold_left (fun ms m => remove1 m ms) l ms.
(** AppendMatch *)
Definition append_all (l ms : list mt) : list mt := fold_left (fun ms m => if mmem m ms then ms else ms ++ [m]) l ms.
(** RenameMatch(name): the matches that were there are added again under the new name; [AppendMatch] looks for them
    before it renames them *)
Fixpoint removed (l ms : list mt) : list mt :=
  match l with
  | [] => []
  | m :: r => if mmem m ms then m :: removed r (remove1 m ms) else removed r ms
  end.
Definition rename_all (n : str) (l ms : list mt) : list mt :=
  fold_left (fun ms m => if mmem m ms then ms else ms ++ [set_name m n]) (removed l ms) (remove_all l ms).

(** rebulk/validators.py [chars_before], [chars_after], [chars_surround], for [seps] *)
Definition chars_before (chars : N -> bool) (s : str) (m : mt) : bool :=
  match m_start m with O => true | S i => match nth_error s i with Some c => chars c | None => true end end.
Definition chars_after (chars : N -> bool) (s : str) (m : mt) : bool :=
  match nth_error s (m_end m) with Some c => chars c | None => true end.
Definition chars_surround (chars : N -> bool) (s : str) (m : mt) : bool := chars_before chars s m && chars_after chars s m.

(** the text of a named group of the pattern. Simplification: [match.children.to_dict()] and the value of a child, which is
    its text; a name is given to at most one group of the patterns *)
Definition child_text (s : str) (m : mt) (n : str) : option str :=
  match find (fun c => str_eqb (c_name c) n) (m_children m) with
  | Some c => Some (slice (c_start c) (c_end c) s)
  | None => None
  end.
