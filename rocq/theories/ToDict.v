(** Building the result dictionary: rebulk's [Matches.to_dict] as called by api.py:218-223.
    Rebulk is not in /repo: this transcribes rebulk/match.py [Matches.to_dict] (3.2.0). *)
From Verif Require Import Py.

(** one public match, in the sorted order of the matches: its name and the value shown
    (the match object itself when [details]) *)
Definition add_match (first_value enforce_list : bool) (ret : dict) (m : key * val) : dict :=
  let (name, value) := m in
  match dget ret name with
  | Some cur =>
      if first_value then ret
      else match cur with
           | VList l => if py_in value l then ret else dset ret name (VList (l ++ [value]))
           | _ => if py_eq cur value then ret else dset ret name (VList [cur; value])
           end
  | None => match value with
            | VList _ => dset ret name value
            | _ => dset ret name (if enforce_list then VList [value] else value)
            end
  end.
Definition to_dict (first_value enforce_list : bool) (ms : list (key * val)) : dict :=
  fold_left (add_match first_value enforce_list) ms [].

(** api.py:218-223 *)
Definition k_advanced := KS (lit "advanced").
Definition k_single_value := KS (lit "single_value").
Definition k_enforce_list := KS (lit "enforce_list").
Definition k_output_input_string := KS (lit "output_input_string").
Definition k_input_string := KS (lit "input_string").
Definition result_dict (options : dict) (input : str) (ms : list (key * val)) : dict :=
  let d := to_dict (otruthy (dget options k_single_value)) (otruthy (dget options k_enforce_list)) ms in
  if otruthy (dget options k_output_input_string) then dset d k_input_string (VStr input) else d.
