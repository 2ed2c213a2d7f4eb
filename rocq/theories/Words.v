(** Model of guessit/rules/common/words.py *)
From Verif Require Import Py Text.

(** rules/common/words.py:10 [_Word]: span and value *)
Record word := mk_word { w_start : nat; w_end : nat; w_value : str }.

(** rules/common/words.py:25 — [ord(char) < 128 and char in seps] *)
Definition word_sep (c : char) : bool := (c <? 128)%N && cmem c seps.

(** loop state of [iter_words] (lines 21-23) with what was yielded so far *)
Record wstate := mk_ws { ws_i : nat; ws_last : Z; ws_in : bool; ws_out : list word }.

(** [_Word(span=(last_sep_index+1, i), value=string[last_sep_index+1:i])], lines 27 and 34 *)
Definition the_word (s : str) (last : Z) (i : nat) : word :=
  mk_word (Z.to_nat (last + 1)) i (zslice (last + 1) (Z.of_nat i) s).

(** rules/common/words.py:24-32, one iteration *)
Definition iter_char (s : str) (st : wstate) (c : char) : wstate :=
  if word_sep c then
    mk_ws (S (ws_i st)) (Z.of_nat (ws_i st)) false
          (if ws_in st then ws_out st ++ [the_word s (ws_last st) (ws_i st)] else ws_out st)
  else mk_ws (S (ws_i st)) (ws_last st) true (ws_out st).

(** rules/common/words.py:13-34 *)
Definition iter_words (s : str) : list word :=
  let st := fold_left (iter_char s) s (mk_ws 0 (-1) false []) in
  if ws_in st then ws_out st ++ [the_word s (ws_last st) (ws_i st)] else ws_out st.
