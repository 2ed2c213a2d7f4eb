(** Model of guessit/rules/common/numeral.py.
    Simplifications: [\d] and [str.upper/lower] are ASCII only. *)
From Verif Require Import Py.

(** rules/common/numeral.py:10 — the alternatives of the Roman numeral pattern, in the
    order in which the backtracking matcher tries them *)
Definition roman_groups : list (list str) :=
  [ [lit "MMMM"; lit "MMM"; lit "MM"; lit "M"; []];
    [lit "CM"; lit "CD"; lit "DCCC"; lit "DCC"; lit "DC"; lit "D"; lit "CCC"; lit "CC"; lit "C"; []];
    [lit "XC"; lit "XL"; lit "LXXX"; lit "LXX"; lit "LX"; lit "L"; lit "XXX"; lit "XX"; lit "X"; []];
    [lit "IX"; lit "IV"; lit "VIII"; lit "VII"; lit "VI"; lit "V"; lit "III"; lit "II"; lit "I"; []] ].

(** matching a sequence of alternatives, with backtracking, up to [$]
    (the end, or just before a final newline) *)
Fixpoint match_groups (groups : list (list str)) (s : str) : bool :=
  match groups with
  | [] => match s with [] => true | [c] => N.eqb c 10 | _ => false end
  | g :: gs => existsb (fun a => if startswith a s then match_groups gs (skipn (List.length a) s) else false) g
  end.
(** rules/common/numeral.py:71 and 83 [__romanNumeralPattern.search(value)]: [^(?=[MCDLXVI]+)...$] *)
Definition roman_search (s : str) : bool :=
  match s with
  | [] => false
  | c :: _ => cmem c (lit "MCDLXVI") && match_groups roman_groups s
  end.

(** rules/common/numeral.py:55-69 *)
Definition roman_map : list (str * Z) :=
  [ (lit "M", 1000%Z); (lit "CM", 900%Z); (lit "D", 500%Z); (lit "CD", 400%Z); (lit "C", 100%Z);
    (lit "XC", 90%Z); (lit "L", 50%Z); (lit "XL", 40%Z); (lit "X", 10%Z); (lit "IX", 9%Z);
    (lit "V", 5%Z); (lit "IV", 4%Z); (lit "I", 1%Z) ].

(** rules/common/numeral.py:89-91, the [while]; [fuel] = length of the value is enough *)
Fixpoint roman_while (fuel : nat) (value num : str) (integer : Z) (index : nat) (result : Z) : nat * Z :=
  match fuel with
  | O => (index, result)
  | S f =>
      if str_eqb (slice index (index + List.length num) value) num
      then roman_while f value num integer (index + List.length num) (result + integer)%Z
      else (index, result)
  end.
(** rules/common/numeral.py:74-92 [__parse_roman] *)
Definition parse_roman (value : str) : res Z :=
  if roman_search value then
    Ok (snd (fold_left (fun st e => roman_while (List.length value) value (fst e) (snd e) (fst st) (snd st))
                       roman_map (0, 0%Z)))
  else Err ValueError.

(** rules/common/numeral.py:12-25 *)
Definition english_words : list str :=
  map lit ["zero"; "one"; "two"; "three"; "four"; "five"; "six"; "seven"; "eight"; "nine"; "ten";
           "eleven"; "twelve"; "thirteen"; "fourteen"; "fifteen"; "sixteen"; "seventeen"; "eighteen"; "nineteen"; "twenty"]%string.
(** 'z\u00e9ro' *)
Definition french_words : list str :=
  [122; 233; 114; 111]%N ::
  map lit ["un"; "deux"; "trois"; "quatre"; "cinq"; "six"; "sept"; "huit"; "neuf"; "dix";
           "onze"; "douze"; "treize"; "quatorze"; "quinze"; "seize"; "dix-sept"; "dix-huit"; "dix-neuf"; "vingt"]%string.
Definition french_alt_words : list str :=
  map lit ["zero"; "une"; "deux"; "trois"; "quatre"; "cinq"; "six"; "sept"; "huit"; "neuf"; "dix";
           "onze"; "douze"; "treize"; "quatorze"; "quinze"; "seize"; "dixsept"; "dixhuit"; "dixneuf"; "vingt"]%string.

(** [word_list.index(w)] *)
Fixpoint index_of (w : str) (l : list str) : option nat :=
  match l with
  | [] => None
  | x :: r => if str_eqb x w then Some 0 else option_map S (index_of w r)
  end.
(** rules/common/numeral.py:95-109 [__parse_word] *)
Fixpoint parse_word_in (lists : list (list str)) (w : str) : res Z :=
  match lists with
  | [] => Err ValueError
  | l :: r => match index_of w l with Some n => Ok (Z.of_nat n) | None => parse_word_in r w end
  end.
Definition parse_word (value : str) : res Z :=
  parse_word_in [english_words; french_words; french_alt_words] (lower value).

(** decimal value of a run of digits *)
Definition dec (ds : str) : Z := fold_left (fun n c => (10 * n + (Z.of_N c - 48))%Z) ds 0%Z.

Fixpoint take_while (p : char -> bool) (s : str) : str :=
  match s with [] => [] | c :: r => if p c then c :: take_while p r else [] end.
Fixpoint drop_while (p : char -> bool) (s : str) : str :=
  match s with [] => [] | c :: r => if p c then drop_while p r else s end.

(** rules/common/numeral.py:112 [_clean_re.match(value)]: [[^\d]*(\d+)[^\d]*], group 1 *)
Definition clean_match (s : str) : option str :=
  match take_while is_digit (drop_while (fun c => negb (is_digit c)) s) with
  | [] => None
  | ds => Some ds
  end.

(** Python's [int(str)]: surrounding blanks, an optional sign, digits with single
    underscores between them *)
Fixpoint int_body (s : str) (acc : Z) (prev_digit : bool) : res Z :=
  match s with
  | [] => if prev_digit then Ok acc else Err ValueError
  | c :: r =>
      if is_digit c then int_body r (10 * acc + (Z.of_N c - 48))%Z true
      else if N.eqb c 95 && prev_digit then int_body r acc false
      else Err ValueError
  end.
Definition py_int (s : str) : res Z :=
  match strip is_space s with
  | c :: r => if N.eqb c 45 then res_map Z.opp (int_body r 0 false)
              else if N.eqb c 43 then int_body r 0 false
              else int_body (c :: r) 0 false
  | [] => Err ValueError
  end.

(** [value.split()] *)
Fixpoint split_ws_from (s : str) (cur : str) : list str :=
  match s with
  | [] => match cur with [] => [] | _ => [rev cur] end
  | c :: r => if is_space c then match cur with [] => split_ws_from r [] | _ => rev cur :: split_ws_from r [] end
              else split_ws_from r (c :: cur)
  end.
Definition split_ws (s : str) : list str := split_ws_from s [].

(** first result of [f] on the words, ignoring ValueError *)
Fixpoint first_ok (f : str -> res Z) (l : list str) : option Z :=
  match l with
  | [] => None
  | w :: r => match f w with Ok n => Some n | Err _ => first_ok f r end
  end.

(** rules/common/numeral.py:115-165 [parse_numeral] *)
Definition parse_int_part (clean : bool) (value : str) : option Z :=
  match (if clean then clean_match value else None) with
  | Some ds => Some (dec ds)
  | None => match py_int value with Ok n => Some n | Err _ => None end
  end.
Definition parse_roman_part (clean : bool) (value : str) : option Z :=
  match (if clean then first_ok (fun w => parse_roman (upper w)) (split_ws value) else None) with
  | Some n => Some n
  | None => match parse_roman value with Ok n => Some n | Err _ => None end
  end.
Definition parse_word_part (clean : bool) (value : str) : option Z :=
  match (if clean then first_ok parse_word (split_ws value) else None) with
  | Some n => Some n
  | None => match parse_word value with Ok n => Some n | Err _ => None end
  end.
Definition parse_numeral_with (int_enabled roman_enabled word_enabled clean : bool) (value : str) : res Z :=
  match (if int_enabled then parse_int_part clean value else None) with
  | Some n => Ok n
  | None =>
      match (if roman_enabled then parse_roman_part clean value else None) with
      | Some n => Ok n
      | None =>
          match (if word_enabled then parse_word_part clean value else None) with
          | Some n => Ok n
          | None => Err ValueError
          end
      end
  end.
Definition parse_numeral : str -> res Z := parse_numeral_with true true true true.
