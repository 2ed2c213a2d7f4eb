(** Model of guessit/rules/properties/crc.py (guess_idnumber). *)
From Verif Require Import Py Regex.

(** rules/properties/crc.py:42 [[a-zA-Z0-9-]] *)
Definition id_char (c : char) : bool := is_alpha c || is_digit c || N.eqb c 45.
(** rules/properties/crc.py:42 [_idnum], the group [uuid] being the whole match *)
Definition idnum_re : re := ratleast (RChr id_char) 20.

(** rules/properties/crc.py:37-39 *)
Inductive cls := Digit | Letter | Other.
Definition cls_eqb (a b : cls) : bool :=
  match a, b with Digit, Digit => true | Letter, Letter => true | Other, Other => true | _, _ => false end.
(** loop state of rules/properties/crc.py:59-64 *)
Record idstate := mk_id { i_switch : nat; i_lswitch : nat; i_letters : nat; i_lastletter : option N; i_last : cls }.
(** rules/properties/crc.py:65-80, one character *)
Definition id_step (st : idstate) (c : char) : idstate :=
  let st1 :=
    if is_digit c then (Digit, st)
    else if is_alpha c then
      (Letter, mk_id (i_switch st)
                     (if match i_lastletter st with Some d => N.eqb d c | None => false end then i_lswitch st else S (i_lswitch st))
                     (S (i_letters st)) (Some c) (i_last st))
    else (Other, st) in
  let '(ci, st) := st1 in
  mk_id (if cls_eqb ci (i_last st) then i_switch st else S (i_switch st)) (i_lswitch st) (i_letters st) (i_lastletter st) ci.
(** rules/properties/crc.py:56-86. The float comparisons [a / b > 0.4] are written [5 * a > 2 * b],
    the same for any length below 10^15. *)
Definition id_ok (u : str) : bool :=
  let st := fold_left id_step u (mk_id 0 0 0 None Letter) in
  (2 * List.length u <? 5 * i_switch st) &&
  (if 0 <? i_letters st then 2 * i_letters st <? 5 * i_lswitch st else true).
(** rules/properties/crc.py:45-89 *)
Definition guess_idnumber (s : str) : list (nat * nat) :=
  map fst (filter (fun m => let '(a, b, _) := m in id_ok (slice a b s)) (finditer s idnum_re)).
