(** Model of guessit/rules/markers/path.py and guessit/rules/markers/groups.py *)
From Verif Require Import Py Text Sort.

(** rules/markers/path.py:41-42 — [for i in range(0, len(indices) - 1)] *)
Fixpoint spans_between (indices : list Z) : list (Z * Z) :=
  match indices with
  | a :: ((b :: _) as r) => (a + 1, b)%Z :: spans_between r
  | _ => []
  end.

(** rules/markers/path.py:23-44 [mark_path]; [name_only] is the truth value of the option *)
Definition mark_path (name_only : bool) (s : str) : res (list (Z * Z)) :=
  let len := Z.of_nat (List.length s) in
  if name_only then Ok [(0, len)%Z]
  else
    slashes <- find_all false s (lit "/");
    backslashes <- find_all false s (lit "\");
    let indices := map Z.of_nat slashes ++ map Z.of_nat backslashes ++ [(-1)%Z; len] in
    Ok (spans_between (isort Z.leb indices)).

(** [s.find(c)] for one character; [None] = -1 *)
Fixpoint cfind (c : char) (s : str) : option nat :=
  match s with
  | [] => None
  | x :: r => if N.eqb c x then Some 0 else option_map S (cfind c r)
  end.

(** rules/markers/groups.py:35-53 [mark_groups].
    Line 35 is [openings = ([], ) * len(starting)]: a tuple that repeats ONE list object.
    The tuple is therefore a list of references ([refs]) into a store of list objects
    ([heap]); the references are all equal. A list object is kept top first. *)
Record gstate := mk_g { g_i : nat; g_heap : list (list nat); g_ret : list (nat * nat) }.

Fixpoint upd {A} (n : nat) (x : A) (l : list A) : list A :=
  match l, n with
  | [], _ => []
  | _ :: r, O => x :: r
  | y :: r, S n' => y :: upd n' x r
  end.

Definition group_char (starting ending : str) (refs : list nat) (st : gstate) (c : char) : gstate :=
  (* lines 40-42 *)
  let heap1 := match cfind c starting with
               | Some t => match nth_error refs t with
                           | Some r => upd r (g_i st :: nth r (g_heap st) []) (g_heap st)
                           | None => g_heap st
                           end
               | None => g_heap st
               end in
  (* line 44 *)
  let i := S (g_i st) in
  (* lines 46-52; an IndexError (empty list) is swallowed *)
  match cfind c ending with
  | Some t =>
      match nth_error refs t with
      | Some r => match nth r heap1 [] with
                  | start :: rest => mk_g i (upd r rest heap1) (g_ret st ++ [(start, i)])
                  | [] => mk_g i heap1 (g_ret st)
                  end
      | None => mk_g i heap1 (g_ret st)
      end
  | None => mk_g i heap1 (g_ret st)
  end.

(** rules/markers/groups.py:25-26 and 28-53 *)
Definition mark_groups (starting ending s : str) : res (list (nat * nat)) :=
  if negb (Nat.eqb (List.length starting) (List.length ending)) then Err ConfigurationException
  else
    let refs := repeat 0 (List.length starting) in
    let heap := [[]] in
    Ok (g_ret (fold_left (group_char starting ending refs) s (mk_g 0 heap []))).
