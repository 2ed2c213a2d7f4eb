(** The YAML form of a guess: guessit/yamlutils.py:56-78 (the representers), the call of
    yaml.dump (__main__.py:47-48) and the lines printed (__main__.py:49-58, [yaml_shown]).
    PyYAML is not in /repo: SafeRepresenter, and the layout of block mappings by its
    emitter, are transcribed; how it writes one scalar is a parameter. *)
From Coq Require Import List Bool ZArith Lia.
From Verif Require Import Py Json CommandLine.
Import ListNotations.

(** A value in a guess, or in a list of the guess: plain values, dates, instances of the
    classes given to [add_representer] (Language, Country, BitRate, FrameRate, Size, with
    their [str]), other objects. Simplification: no lists of lists and no mappings, which a
    guess does not hold (with [advanced], it holds matches: other objects); the alias PyYAML
    writes when the very same object comes twice is not modelled. *)
Inductive single :=
| GNone | GBool (b : bool) | GInt (z : Z) | GFloat (repr : str) | GStr (s : str)
| GDate (iso : str) | GKnown (text : str) | GOther.
Inductive value := One (x : single) | Many (l : list single).

(** yaml.ScalarNode: its tag and its text *)
Inductive ytag := TStr | TInt | TFloat | TBool | TNull | TDate.
Definition scalar := (ytag * str)%type.
Inductive node := NScalar (s : scalar) | NSeq (l : list scalar).

(** yamlutils.py:61-70 and SafeRepresenter: represent_none, _bool, _int, _float, _str, _date;
    represent_undefined raises RepresenterError *)
Definition represent_single (x : single) : res scalar :=
  match x with
  | GNone => Ok (TNull, lit "null")
  | GBool b => Ok (TBool, if b then lit "true" else lit "false")
  | GInt z => Ok (TInt, int_repr z)
  | GFloat t => Ok (TFloat, t)
  | GStr s => Ok (TStr, s)
  | GDate t => Ok (TDate, t)
  | GKnown t => Ok (TStr, t)
  | GOther => Err (OtherError 8) (* RepresenterError *)
  end.
Definition represent (v : value) : res node :=
  match v with
  | One x => s <- represent_single x; Ok (NScalar s)
  | Many l => ss <- mapM represent_single l; Ok (NSeq ss)
  end.
(** yamlutils.py:73-78: [represent_mapping] is given the view [data.items()], which has no
    [items]: the entries keep their order, although yaml.dump sorts dicts *)
Definition represent_guess (guess : list (str * value)) : res (list (str * node)) :=
  mapM (fun kv => n <- represent (snd kv); Ok (fst kv, n)) guess.

Section Emitter.
  (** what PyYAML writes for a scalar: as a simple key, on one line; elsewhere, from a
      column on: the rest of the line and the lines that follow, if it is folded *)
  Variable key_text : scalar -> str.
  Variable lines_of : nat -> scalar -> str * list str.

  (** emitter.py expect_block_mapping_key, expect_block_mapping_simple_value,
      expect_block_sequence_item: an entry of the mapping whose lines begin with [pre]
      (two characters); a sequence in a mapping is not indented. The keys, names of
      properties, are written as they are. *)
  Definition entry_lines (pre : str) (kv : str * node) : list str :=
    let (k, v) := kv in
    match v with
    | NScalar s =>
        let (a, r) := lines_of (List.length (pre ++ k) + 2) s in
        (pre ++ k ++ lit ": " ++ a) :: r
    | NSeq [] => [pre ++ k ++ lit ": []"]
    | NSeq l => (pre ++ k ++ lit ":") ::
        List.concat (map (fun s => let (a, r) := lines_of 4 s in (lit "  - " ++ a) :: r) l)
    end.
  Definition block (pre : str) (m : list (str * node)) : list str :=
    match m with
    | [] => []
    | e :: r => entry_lines pre e ++ List.concat (map (entry_lines (lit "  ")) r)
    end.
  (** emitter.py check_simple_key: ["!!str"] and the text have less than 128 characters
      together, the text is neither empty nor on several lines *)
  Definition line_break (c : N) : bool := (c =? 10)%N || (c =? 133)%N || (c =? 8232)%N || (c =? 8233)%N.
  Definition simple_key (name : str) : bool :=
    (List.length name + 5 <? 128) && negb (existsb line_break name) && negb (str_eqb name []).
  (** the lines of [yaml.dump({filename: OrderedDict(guess)}, default_flow_style=False)] *)
  Definition dump_lines (name : str) (m : list (str * node)) : list str :=
    if simple_key name then
      match m with
      | [] => [key_text (TStr, name) ++ lit ": {}"]
      | _ => (key_text (TStr, name) ++ lit ":") :: block (lit "  ") m
      end
    else
      let (a, r) := lines_of 2 (TStr, name) in
      (lit "? " ++ a) :: r ++ (match m with [] => [lit ": {}"] | _ => block (lit ": ") m end).

  (** __main__.py:47-58 *)
  Definition yaml_output (name : str) (guess : list (str * value)) : res (list str) :=
    m <- represent_guess guess;
    Ok (yaml_shown (dump_lines name m)).
End Emitter.
