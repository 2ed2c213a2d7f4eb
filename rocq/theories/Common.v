(** Models of guessit/rules/common/pattern.py, validators.py, guessit/reutils.py and
    guessit/rules/match_processors.py. *)
From Verif Require Import Py Text.

(** [name in container] *)
Definition contains (container : val) (name : str) : res bool :=
  match container with
  | VList l => Ok (py_in (VStr name) l)
  | VDict d => Ok (dmem d (KS name))
  | VStr s => Ok (match find_sub name s 0 with Some _ => true | None => false end)
  | _ => Err TypeError
  end.
(** rules/common/pattern.py:8-27: the truth value of the result; an absent context is the empty one *)
Definition is_disabled (context : dict) (name : str) : res bool :=
  let excludes := oget (dget context (KS (lit "excludes"))) in
  excluded <- (if truthy excludes then contains excludes name else Ok false);
  if (excluded : bool) then Ok true
  else
    let includes := oget (dget context (KS (lit "includes"))) in
    if truthy includes then res_map negb (contains includes name) else Ok false.

(** rules/common/validators.py:30-50; a validator may raise *)
Fixpoint and_ {A} (validators : list (A -> res bool)) (x : A) : res bool :=
  match validators with
  | [] => Ok true
  | v :: r => b <- v x; if (b : bool) then and_ r x else Ok false
  end.
(** rules/common/validators.py:53-73 *)
Fixpoint or_ {A} (validators : list (A -> res bool)) (x : A) : res bool :=
  match validators with
  | [] => Ok false
  | v :: r => b <- v x; if (b : bool) then Ok true else or_ r x
  end.

(** [re.escape]: the characters Python's [re] module escapes *)
Definition special_chars : str := lit "()[]{}?*+-|^$\.&~# " ++ [9; 10; 13; 11; 12]%N.
Definition re_escape (s : str) : str := flat_map (fun c => if cmem c special_chars then [92%N; c] else [c]) s.
(** reutils.py:10-35 [build_or_pattern] *)
Definition build_or_pattern (patterns : list str) (name : option str) (escape : bool) : str :=
  let one p := if escape then lit "(?:" ++ re_escape p ++ lit ")" else p in
  match patterns with
  | [] => []
  | p :: r =>
      lit "(?" ++ (match name with
                   | Some (c :: n) => lit "P<" ++ (c :: n) ++ lit ">"
                   | _ => lit ":"
                   end) ++ one p ++ flat_map (fun p => lit "|" ++ one p) r
  end ++ lit ")".

(** rules/match_processors.py:17-20: the two loops of [strip]. A position is a Python index, hence may be
    negative; [fuel] bounds the number of iterations and is never exhausted (see [CommonProofs]). *)
Fixpoint strip_start (chars : N -> bool) (fuel : nat) (s : str) (start : Z) : res Z :=
  match fuel with
  | O => Err Diverges
  | S f => match zindex s start with
           | None => Err IndexError
           | Some c => if chars c then strip_start chars f s (start + 1)%Z else Ok start
           end
  end.
Fixpoint strip_end (chars : N -> bool) (fuel : nat) (s : str) (e : Z) : res Z :=
  match fuel with
  | O => Err Diverges
  | S f => match zindex s (e - 1)%Z with
           | None => Err IndexError
           | Some c => if chars c then strip_end chars f s (e - 1)%Z else Ok e
           end
  end.
(** rules/match_processors.py:7-23: new span and whether the match is kept ([len(match)] of a match
    that ends before its start raises [ValueError]) *)
Definition mp_strip (chars : N -> bool) (s : str) (start e : Z) : res (Z * Z * bool) :=
  let fuel := 2 * List.length s + 2 in
  a <- strip_start chars fuel s start;
  b <- strip_end chars fuel s e;
  if (b <? a)%Z then Err ValueError else Ok (a, b, (a <? b)%Z).
