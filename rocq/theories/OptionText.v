(** Options given as one text: options.py:120-135, with shlex.split (Python 3.11, posix, no comments) transcribed *)
From Verif Require Import Py Args.

(** shlex: the blanks, the quotes, the escape character *)
Definition sh_blank (c : N) : bool := (c =? 32)%N || (c =? 9)%N || (c =? 13)%N || (c =? 10)%N.
Definition sh_quote (c : N) : bool := (c =? 39)%N || (c =? 34)%N.
(** the state of the reader: between the words; inside one, with what is read and whether a quote was met; inside a quotation; after a
    backslash, with the quotation it is in, if any *)
Inductive sh_state := Between | Inside (token : str) (quoted : bool) | Quoted (q : N) (token : str) | Escaped (q : option N) (token : str) (quoted : bool).
(** shlex.py [read_token], over the whole text *)
Fixpoint sh_read (s : str) (st : sh_state) : res (list str) :=
  match st, s with
  | Between, [] => Ok []
  | Between, c :: r =>
      if sh_blank c then sh_read r Between
      else if (c =? 92)%N then sh_read r (Escaped None [] false)
      else if sh_quote c then sh_read r (Quoted c [])
      else sh_read r (Inside [c] false)
  | Inside token quoted, [] => if negb (str_eqb token []) || quoted then Ok [token] else Ok []
  | Inside token quoted, c :: r =>
      if sh_blank c then (if negb (str_eqb token []) || quoted then (rest <- sh_read r Between; Ok (token :: rest)) else sh_read r Between)
      else if sh_quote c then sh_read r (Quoted c token)
      else if (c =? 92)%N then sh_read r (Escaped None token quoted)
      else sh_read r (Inside (token ++ [c]) quoted)
  | Quoted _ _, [] => Err ValueError
  | Quoted q token, c :: r =>
      if (c =? q)%N then sh_read r (Inside token true)
      else if (c =? 92)%N && (q =? 34)%N then sh_read r (Escaped (Some q) token true)
      else sh_read r (Quoted q (token ++ [c]))
  | Escaped _ _ _, [] => Err ValueError
  | Escaped (Some q) token _, c :: r =>
      sh_read r (Quoted q (token ++ (if negb (c =? 92)%N && negb (c =? q)%N then [92%N; c] else [c])))
  | Escaped None token quoted, c :: r => sh_read r (Inside (token ++ [c]) quoted)
  end.
Definition shlex_split (s : str) : res (list str) := sh_read s Between.

(** options.py:121-122 *)
Definition argparse_str (s : str) : res dict := args <- shlex_split s; parse_args args.
(** options.py:128-129 of a list of texts; anything else is an error here *)
Definition texts (v : val) : res str := match v with VStr s => Ok s | _ => Err TypeError end.
Definition argparse_list (v : val) : res dict :=
  match v with VList l => args <- mapM texts l; parse_args args | _ => Err TypeError end.
