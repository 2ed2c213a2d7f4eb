(** Model of guessit/jsonutils.py, of guessit/monkeypatch.py, and of the text json.dumps makes of a guess (__main__.py:41 and 65; the
    encoder of the Python library, with ensure_ascii=False, is transcribed). A float is given by its [repr], a text; texts are lists of
    code points, before the encoding of the terminal. The keys of a guess are texts. *)
From Verif Require Import Py Quantity.

(** what is given to json.dumps: plain values, matches (with [advanced]) and other objects with their [name], if any, and their [str] *)
Inductive pyv :=
| PNone | PBool (b : bool) | PInt (z : Z) | PFloat (repr : str) | PStr (s : str)
| PList (l : list pyv) | PDict (d : list (str * pyv))
| PMatch (value : pyv) (raw : str) (start stop : nat) (name : str)
| PThing (name : option str) (text : str).

(** monkeypatch.py:17-31 [match_advanced]: the names and what stands for the value, a text and a number *)
Definition match_advanced {A} (text : str -> A) (number : nat -> A) (value : A) (raw : str) (start stop : nat) : list (str * A) :=
  [(lit "value", value)] ++ (match raw with [] => [] | _ => [(lit "raw", text raw)] end) ++ [(lit "start", number start); (lit "end", number stop)].
(** jsonutils.py:16-22 [default] of an object which is not a match *)
Definition default_text (name : option str) (text : str) : str := match name with Some n => n | None => text end.

(** json/encoder.py [py_encode_basestring]: the characters escaped *)
Definition hex (n : N) : N := if (n <? 10)%N then (48 + n)%N else (87 + n)%N.
Definition escape (c : N) : str :=
  if (c =? 92)%N then lit "\\" else if (c =? 34)%N then [92; 34]%N else if (c =? 8)%N then lit "\b" else if (c =? 12)%N then lit "\f"
  else if (c =? 10)%N then lit "\n" else if (c =? 13)%N then lit "\r" else if (c =? 9)%N then lit "\t"
  else if (c <? 32)%N then lit "\u00" ++ [hex (c / 16); hex (c mod 16)]%N else [c].
Definition quote (s : str) : str := [34%N] ++ flat_map escape s ++ [34%N].
(** int.__repr__ *)
Definition int_repr (z : Z) : str := if (z <? 0)%Z then lit "-" ++ str_of_N (Z.to_N (- z)) else str_of_N (Z.to_N z).

(** json/encoder.py [_make_iterencode]: the start of a line inside a container at a given depth, with an indentation or without *)
Definition new_line (indent : option nat) (level : nat) : str :=
  match indent with Some n => 10%N :: repeat 32%N (n * level) | None => [] end.
(** the separator of the items: [', '], and [','] before a new line *)
Definition comma (indent : option nat) (level : nat) : str :=
  match indent with Some _ => lit "," ++ new_line indent level | None => lit ", " end.
(** json/encoder.py [_iterencode_list], [_iterencode_dict]: the items between the brackets *)
Definition container (indent : option nat) (level : nat) (o c : N) (items : list str) : str :=
  match items with
  | [] => [o; c]
  | _ => [o] ++ new_line indent (S level) ++ concat_with (comma indent (S level)) items ++ new_line indent level ++ [c]
  end.
(** json/encoder.py [_iterencode] with the [default] of GuessitEncoder (jsonutils.py:11-22) *)
Fixpoint dumps (indent : option nat) (level : nat) (v : pyv) : str :=
  match v with
  | PNone => lit "null"
  | PBool b => if b then lit "true" else lit "false"
  | PInt z => int_repr z
  | PFloat t => t
  | PStr s => quote s
  | PList l => container indent level 91%N 93%N (map (dumps indent (S level)) l)
  | PDict d => container indent level 123%N 125%N (map (fun kv => quote (fst kv) ++ lit ": " ++ dumps indent (S level) (snd kv)) d)
  | PMatch value raw start stop _ =>
      container indent level 123%N 125%N
        (map (fun kv => quote (fst kv) ++ lit ": " ++ snd kv)
           (match_advanced quote (fun n => int_repr (Z.of_nat n)) (dumps indent (S level) value) raw start stop))
  | PThing name text => quote (default_text name text)
  end.
(** __main__.py:41 *)
Definition json_line (guess : list (str * pyv)) : str := dumps None 0 (PDict guess).
(** __main__.py:65 *)
Definition json_lines (guess : list (str * pyv)) : str := dumps (Some 4) 0 (PDict guess).
