(** Model of the numeral pattern of guessit/rules/common/numeral.py:8-51 and of the pattern of
    guessit/rules/properties/part.py.
    Simplifications: [\d], [\w] and [re.IGNORECASE] are ASCII (every character above 127 is a word character). *)
From Verif Require Import Py Text Regex Numeral Date Rebulk EpisodeRules Patterns.
From Coq Require Import Arith.
Local Open Scope nat_scope.

(** numeral.py:8 [\d{1,4}] *)
Definition digital_re : re := rrange digit 1 4.
(** numeral.py:10, the groups [(?:CM|CD|D?C{0,3})], [(?:XC|XL|L?X{0,3})] and [(?:IX|IV|V?I{0,3})]: one, five and ten *)
Definition group_re (o f t : char) : re :=
  RAlt (rlit [o; t]) (RAlt (rlit [o; f]) (RSeq (ropt (one_of [f]) 1) (rrange (one_of [o]) 0 3))).
(** numeral.py:10 [(?=[MCDLXVI]+)M{0,4}...] *)
Definition roman_letters : str := lit "mcdlxvi".
Definition roman_re : re :=
  RSeq (RLook (ratleast (one_of roman_letters) 1))
    (RSeq (rrange (one_of (lit "m")) 0 4)
      (RSeq (group_re 99 100 109) (RSeq (group_re 120 108 99) (group_re 105 118 120)))).
(** a word of the lists of numeral.py:12-25: its hyphen is read as [hyphen], which the abbreviations of the pattern
    may have changed *)
Fixpoint word_lit (hyphen : re) (w : str) : re :=
  match w with
  | [] => REps
  | x :: r => RSeq (if N.eqb x 45 then hyphen else RChr (fun c => N.eqb (to_lower c) x)) (word_lit hyphen r)
  end.
(** [\w] *)
Definition word_char (c : char) : bool := is_alpha c || is_digit c || N.eqb c 95 || N.leb 128 c.
(** numeral.py:28-46 [__build_word_numeral] *)
Fixpoint word_alts (hyphen : re) (first : bool) (l : list str) : re :=
  match l with
  | [] => REps
  | w :: r =>
      let e := if first then RSeq (RLook (ratleast (RChr word_char) 1)) (word_lit hyphen w) else word_lit hyphen w in
      match r with [] => e | _ => RAlt e (word_alts hyphen false r) end
  end.
(** numeral.py:49 *)
Definition word_re (hyphen : re) : re := word_alts hyphen true (english_words ++ french_words ++ french_alt_words).
(** numeral.py:51 *)
Definition numeral_re (hyphen : re) : re := RAlt digital_re (RAlt roman_re (word_re hyphen)).

(** [formatter=parse_numeral]; the texts of the pattern are always understood *)
Definition numeral_of_text (t : str) : mval := match parse_numeral t with Ok n => MvInt n | Err _ => MvStr t end.
(** part.py:27 and 43-45; the dash of [-?] and of the words is the abbreviation of rules/common/__init__.py:14 *)
Definition part_rx (prefixes : list str) : rx :=
  mk_rx (RSeq (rwords prefixes) (RSeq dash_opt (RGrp 1 (numeral_re dash)))) [(1, lit "part")] [] [] true true true (fun _ => numeral_of_text)
        seps_surround (fun s m => validate_roman s m && number_is (fun z => (0 <? z)%Z && (z <? 100)%Z) m).
