(** From the matches of the patterns to the dictionary of the result: the conflicts, the rules and the removal of the private matches
    (rules/__init__.py:46-99 builds on rebulk's default rules), then api.py:208-223. Rebulk runs the rules of highest priority first: only
    EnlargeGroupMatches (processors.py:22) has that of ConflictSolver; here any rules may come before the conflicts. *)
From Verif Require Import Py Text Sort Common Rebulk Pipeline Conflicts ToDict.

Section Process.
  Context (context : dict) (s : str) (markers : list mt).
  (** rebulk/rebulk.py [_execute_rules]: rules and PrivateRemover, any number in any order *)
  Inductive acts (ms : list mt) : list mt -> Prop :=
  | acts_none : acts ms ms
  | acts_rule ms1 ms2 : acts ms ms1 -> step context s markers ms1 ms2 -> acts ms ms2
  | acts_private ms1 : acts ms ms1 -> acts ms (PrivateRemover ms1).
  Inductive processed (solver_of : obj -> option solver) (ms : list mt) : list mt -> Prop :=
  | in_order ms1 ms2 : acts ms ms1 -> acts (ConflictSolver solver_of ms1) ms2 -> processed solver_of ms ms2.
End Process.

(** what api.py:218 gives to the dictionary: the matches in order; [show] is a value as Python sees it *)
Definition rows (show : mval -> val) (ms : list mt) : list (key * val) := map (fun m => (KS (m_name m), show (m_value m))) (msorted ms).
(** api.py:208-223 of a text, without [advanced]: the options are the context of the rules *)
Inductive guessed (options : dict) (show : mval -> val) (solver_of : obj -> option solver) (s : str) (markers ms : list mt) : dict -> Prop :=
| guess_done ms' : processed options s markers solver_of ms ms' -> guessed options show solver_of s markers ms (result_dict options s (rows show ms')).
