(** Model of guessit/__main__.py and of the listing of properties (api.py:229-247, rules/__init__.py:85-97).
    What is printed is a list of events; the calls to the guesser are events too. The guesser, the introspection of the patterns,
    the reader of the input file and the text made by the YAML library are parameters. *)
From Verif Require Import Py PyFacts Sort Options.
From Coq Require Import Arith.

Inductive event :=
| EVersion                       (* the banner of --version *)
| EYamlMissing                   (* the warning on stderr *)
| EFor (f : val)                 (* For: <filename> *)
| ECall (f : val)                (* api.guessit(filename, options) is called *)
| EValue (v : val)               (* the value of the property shown *)
| EJson (g : dict)               (* the guess as JSON on one line *)
| ELine (l : str)                (* a line of the YAML form *)
| EFound (g : dict)              (* GuessIt found: <JSON on several lines> *)
| EPropsJson (p : list (str * list val)) | ENamesJson (n : list str)
| EPropsYaml (p : list (str * list val)) | ENamesYaml (n : list str)
| EPropsHead | EPropName (n : str) | EPropValue (v : val)
| EHelp.

Definition opt (options : dict) (k : str) : option val := dget options (KS k).
Definition set_on (options : dict) (k : str) : bool := otruthy (opt options k).

(** the order of Python texts: by code points *)
Fixpoint str_le (a b : str) : bool :=
  match a, b with
  | [], _ => true
  | _ :: _, [] => false
  | x :: a', y :: b' => if (x <? y)%N then true else if (y <? x)%N then false else str_le a' b'
  end.

(** readlines of a text file opened with universal newlines: CR LF, LF and CR end a line; the end of line is left out here, the
    caller strips the lines (main lines 143-145) *)
Fixpoint readlines (cur : str) (s : str) : list str :=
  match s with
  | [] => match cur with [] => [] | _ => [rev cur] end
  | 13%N :: 10%N :: r => rev cur :: readlines [] r
  | 13%N :: r => rev cur :: readlines [] r
  | 10%N :: r => rev cur :: readlines [] r
  | c :: r => readlines (c :: cur) r
  end.

(** __main__.py:49-62: the lines of the YAML form *)
Definition yaml_shown (lines : list str) : list str :=
  match lines with
  | [] => []
  | [a] => [lit "? " ++ removelast a]
  | a :: b :: r => (lit "? " ++ removelast a) :: (lit ":" ++ tl b) :: r
  end.

Section CommandLine.
  (** the state of the default API, its guess, its listing of properties; the content of a file; the YAML text of a guess, in lines *)
  Variable W : Type.
  Variable guess : W -> val -> dict -> W * res dict.
  Variable listing : W -> dict -> W * res (list (str * list val)).
  Variable read : val -> res str.
  Variable yaml_lines : val -> dict -> list str.

  (** __main__.py:22-65 *)
  Definition show (options : dict) (f : val) (g : dict) : list event :=
    if set_on options (lit "show_property") then
      match opt options (lit "show_property") with
      | Some (VStr p) => [EValue (match dget g (KS p) with Some v => v | None => VStr [] end)]
      | _ => [EValue (VStr [])]
      end
    else if set_on options (lit "json") then [EJson g]
    else if set_on options (lit "yaml") then map ELine (yaml_shown (yaml_lines f g))
    else [EFound g].
  Definition guess_filename (w : W) (options : dict) (f : val) : W * list event * res unit :=
    let head := if negb (set_on options (lit "yaml")) && negb (set_on options (lit "json")) && negb (set_on options (lit "show_property")) then [EFor f] else [] in
    match guess w f options with
    | (w', Ok g) => (w', head ++ ECall f :: show options f g, Ok tt)
    | (w', Err e) => (w', head ++ [ECall f], Err e)
    end.
  (** __main__.py:149-152 *)
  Fixpoint guess_filenames (w : W) (options : dict) (fs : list val) : W * list event * res unit :=
    match fs with
    | [] => (w, [], Ok tt)
    | f :: r => match guess_filename w options f with
                | (w', ev, Ok _) => match guess_filenames w' options r with (w'', ev', x) => (w'', ev ++ ev', x) end
                | (w', ev, Err e) => (w', ev, Err e)
                end
    end.

  (** __main__.py:68-97 *)
  Definition list_properties (options : dict) (p : list (str * list val)) : list event :=
    let values := set_on options (lit "values") in
    if set_on options (lit "json") then [if values then EPropsJson p else ENamesJson (map fst p)]
    else if set_on options (lit "yaml") then [if values then EPropsYaml p else ENamesYaml (map fst p)]
    else EPropsHead :: flat_map (fun kv => EPropName (fst kv) :: if values then map EPropValue (snd kv) else [])
                         (isort (fun a b => str_le (fst a) (fst b)) p).
  Definition display_properties (w : W) (options : dict) : W * list event * res unit :=
    match listing w options with
    | (w', Ok p) => (w', list_properties options p, Ok tt)
    | (w', Err e) => (w', [], Err e)
    end.

  (** __main__.py:138-147: the names to guess *)
  Definition filenames (options : dict) : res (list val) :=
    a <- (if set_on options (lit "filename") then py_iter (oget (opt options (lit "filename"))) else Ok []);
    b <- (if set_on options (lit "input_file") then
            t <- read (oget (opt options (lit "input_file")));
            Ok (map (fun l => VStr (strip is_space l)) (readlines [] t))
          else Ok []);
    Ok (filter truthy (a ++ b)).
  (** __main__.py:114-155, from the merged options; [has_yaml]: the YAML library can be imported. Simplification: logging is not
      modelled. *)
  Definition nonempty_list {A} (l : list A) : bool := match l with [] => false | _ => true end.
  Definition main (w : W) (has_yaml : bool) (options : dict) : W * list event * res unit :=
    let ev1 := if set_on options (lit "version") then [EVersion] else [] in
    let lost := set_on options (lit "yaml") && negb has_yaml in
    let options1 := if lost then ddel options (KS (lit "yaml")) else options in
    let ev2 := ev1 ++ (if lost then [EYamlMissing] else []) in
    let listed := set_on options1 (lit "properties") || set_on options1 (lit "values") in
    match (if listed then display_properties w options1 else (w, [], Ok tt)) with
    | (w1, ev3, Err e) => (w1, ev2 ++ ev3, Err e)
    | (w1, ev3, Ok _) =>
        match filenames options1 with
        | Err e => (w1, ev2 ++ ev3, Err e)
        | Ok fs =>
            match guess_filenames w1 options1 fs with
            | (w2, ev4, Err e) => (w2, ev2 ++ ev3 ++ ev4, Err e)
            | (w2, ev4, Ok _) => (w2, ev2 ++ ev3 ++ ev4 ++
                (if negb (set_on options1 (lit "version")) && negb listed && negb (nonempty_list fs) then [EHelp] else []), Ok tt)
            end
        end
    end.
End CommandLine.

(** ** api.py:237-247 and rules/__init__.py:85-97, from the introspection. [text] is [str]. The dictionary of the introspection has
    every name once. *)
Definition ordered (text : val -> str) (unordered : list (str * list val)) : list (str * list val) :=
  map (fun kv => (fst kv, isort (fun a b => str_le (text a) (text b)) (snd kv))) (isort (fun a b => str_le (fst a) (fst b)) unordered).
Fixpoint sget {V} (k : str) (d : list (str * V)) : option V :=
  match d with [] => None | (k', v) :: r => if str_eqb k k' then Some v else sget k r end.
Fixpoint sset {V} (k : str) (v : V) (d : list (str * V)) : list (str * V) :=
  match d with [] => [(k, v)] | (k', v') :: r => if str_eqb k k' then (k', v) :: r else (k', v') :: sset k v r end.
Definition sdel {V} (k : str) (d : list (str * V)) : list (str * V) := filter (fun kv => negb (str_eqb k (fst kv))) d.
Definition customize_properties (d : list (str * list val)) : res (list (str * list val)) :=
  match sget (lit "count") d with
  | None => Err KeyError
  | Some c => Ok (sset (lit "episode_count") c (sset (lit "season_count") c (sdel (lit "count") d)))
  end.
Definition properties_of (text : val -> str) (unordered : list (str * list val)) : res (list (str * list val)) :=
  customize_properties (ordered text unordered).
