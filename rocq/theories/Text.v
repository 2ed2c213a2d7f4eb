(** Model of guessit/rules/common/__init__.py (separators) and of the string
    helpers of rebulk used by it. *)
From Verif Require Import Py.

(** rules/common/__init__.py:8 — [r' [](){}+*|=-_~#/\\.,;:'] : a raw string, so both
    backslashes are in it. *)
Definition seps : str := lit " [](){}+*|=-_~#/\\.,;:".
(** rules/common/__init__.py:9 *)
Definition seps_no_groups : str := lit " +*|=-_~#/\\.,;:".
Definition is_sep (c : char) : bool := cmem c seps.

(** rebulk/utils.py [find_all] (rebulk 3.2.0, from its documentation; not in /repo):
    repeated [string.find(sub, start)] with [start += len(sub)].
    With an empty [sub] the loop never ends. [fuel] bounds the number of iterations,
    [find_all] gives enough of it. *)
Fixpoint find_all_loop (fuel : nat) (s sub : str) (start : nat) : res (list nat) :=
  match fuel with
  | O => Err Diverges
  | S f =>
      match find_sub sub s start with
      | None => Ok []
      | Some i => l <- find_all_loop f s sub (i + List.length sub); Ok (i :: l)
      end
  end.
Definition find_all (ignore_case : bool) (s sub : str) : res (list nat) :=
  let s' := if ignore_case then lower s else s in
  let sub' := if ignore_case then lower sub else sub in
  find_all_loop (S (S (List.length s'))) s' sub' 0.
