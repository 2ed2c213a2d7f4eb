(** Model of what dateutil.parser.parse makes of a date written with the name of a month (rules/common/date.py:27-29 and 135: the
    text is given whole, "13th May 2012"). dateutil 2.x is not in /repo and is transcribed here: parser/_parser.py [_timelex],
    [parserinfo.month], [parserinfo.jump], [_ymd.append], [parser._parse], [parser._parse_numeric_token], [_ymd.resolve_ymd].
    Simplifications: letters, digits and spaces are ASCII and there is no NUL; a text with a word of [special] (weekdays, hours, am, utc),
    or that would need the date of the day to be completed, or with other forms of numbers, is left to [rest]. *)
From Verif Require Import Py Text Regex Numeral Quantity Date DateParse.
From Coq Require Import Arith.
Local Open Scope nat_scope.

(** ** _timelex *)
Inductive lex_state := Word | Digits | WordDot | DigitsDot.
(** the state, [seenletters], and the token read so far *)
Definition reading := option (lex_state * bool * str).
(** [_split_decimal.split(token)], [re.compile("([.,])")] *)
Definition is_point (c : char) : bool := N.eqb c 46 || N.eqb c 44.
Fixpoint split_points (t : str) (cur : str) : list str :=
  match t with
  | [] => [cur]
  | c :: r => if is_point c then cur :: [c] :: split_points r [] else split_points r (cur ++ [c])
  end.
Definition points (t : str) : nat := List.length (filter (fun c => N.eqb c 46) t).
(** the end of a token *)
Definition emit (st : reading) : list str :=
  match st with
  | None => []
  | Some (q, seen, t) =>
      let dotted := match q with WordDot | DigitsDot => true | _ => false end in
      if dotted && (seen || (1 <? points t) || is_point (last t 0%N)) then
        match split_points t [] with
        | h :: l => h :: filter (fun x => match x with [] => false | _ => true end) l
        | [] => []
        end
      else match q with
           | DigitsDot => if points t =? 0 then [map (fun c => if N.eqb c 44 then 46%N else c) t] else [t]
           | _ => [t]
           end
  end.
(** the first character of a token *)
Definition lex_first (c : char) : list str * reading :=
  if is_alpha c then ([], Some (Word, false, [c]))
  else if is_digit c then ([], Some (Digits, false, [c]))
  else if is_space c then ([[32%N]], None)
  else ([[c]], None).
Definition lex_step (c : char) (st : reading) : list str * reading :=
  let stop := (emit st ++ fst (lex_first c), snd (lex_first c)) in
  match st with
  | None => lex_first c
  | Some (Word, seen, t) =>
      if is_alpha c then ([], Some (Word, true, t ++ [c]))
      else if N.eqb c 46 then ([], Some (WordDot, true, t ++ [c]))
      else (emit (Some (Word, true, t)) ++ fst (lex_first c), snd (lex_first c))
  | Some (Digits, seen, t) =>
      if is_digit c then ([], Some (Digits, seen, t ++ [c]))
      else if N.eqb c 46 || (N.eqb c 44 && (2 <=? List.length t)) then ([], Some (DigitsDot, seen, t ++ [c]))
      else stop
  | Some (WordDot, seen, t) =>
      if N.eqb c 46 || is_alpha c then ([], Some (WordDot, true, t ++ [c]))
      else if is_digit c && N.eqb (last t 0%N) 46 then ([], Some (DigitsDot, true, t ++ [c]))
      else (emit (Some (WordDot, true, t)) ++ fst (lex_first c), snd (lex_first c))
  | Some (DigitsDot, seen, t) =>
      if N.eqb c 46 || is_digit c then ([], Some (DigitsDot, seen, t ++ [c]))
      else if is_alpha c && N.eqb (last t 0%N) 46 then ([], Some (WordDot, seen, t ++ [c]))
      else stop
  end.
Fixpoint lex (s : str) (st : reading) : list str :=
  match s with
  | [] => emit st
  | c :: r => let '(out, st') := lex_step c st in out ++ lex r st'
  end.
Definition tokens (s : str) : list str := lex s None.

(** ** parserinfo *)
Definition month_table : list (list str) :=
  map (map lit) [["jan"; "january"]; ["feb"; "february"]; ["mar"; "march"]; ["apr"; "april"]; ["may"; "may"]; ["jun"; "june"];
    ["jul"; "july"]; ["aug"; "august"]; ["sep"; "sept"; "september"]; ["oct"; "october"]; ["nov"; "november"]; ["dec"; "december"]]%string.
Fixpoint month_at (w : str) (n : Z) (l : list (list str)) : option Z :=
  match l with [] => None | ws :: r => if smem w ws then Some n else month_at w (n + 1)%Z r end.
Definition month_of (t : str) : option Z := month_at (lower t) 1 month_table.
Definition jumps : list str := map lit [" "; "."; ","; ";"; "-"; "/"; "'"; "at"; "on"; "and"; "ad"; "m"; "t"; "of"; "st"; "nd"; "rd"; "th"]%string.
Definition jump (t : str) : bool := smem (lower t) jumps.
(** WEEKDAYS, HMS, AMPM, UTCZONE, PERTAIN *)
Definition special_words : list str :=
  map lit ["mon"; "monday"; "tue"; "tuesday"; "wed"; "wednesday"; "thu"; "thursday"; "fri"; "friday"; "sat"; "saturday"; "sun"; "sunday";
    "h"; "hour"; "hours"; "m"; "minute"; "minutes"; "s"; "second"; "seconds"; "am"; "a"; "pm"; "p"; "utc"; "gmt"; "z"; "of"]%string.
Definition special (t : str) : bool := smem (lower t) special_words.

(** ** _ymd, with the place of the month *)
Definition mymd := (ymd * option nat)%type.
(** [append] of a text: [int] of it, a year if it has more than two digits *)
Definition append_text (t : str) (y : mymd) : option mymd :=
  if is_int t then option_map (fun v => (v, snd y)) (ymd_append t (fst y)) else None.
(** [append] of a Decimal: a year if it is over 100 *)
Definition append_number (t : str) (y : mymd) : option mymd :=
  let n := dec t in let v := fst y in
  if (100 <? n)%Z then
    match ymd_year v with
    | Some _ => None
    | None => Some (mk_ymd (ymd_values v ++ [n]) true (Some (List.length (ymd_values v))), snd y)
    end
  else Some (mk_ymd (ymd_values v ++ [n]) (ymd_century v) (ymd_year v), snd y).
(** [append(month, 'M')] *)
Definition append_month (m : Z) (y : mymd) : option mymd :=
  let v := fst y in
  match snd y with
  | Some _ => None
  | None => Some (mk_ymd (ymd_values v ++ [m]) (ymd_century v) (ymd_year v), Some (List.length (ymd_values v)))
  end.

(** ** _parse: the three parts told, a ValueError, or what is not modelled *)
Inductive outcome := Told (y : mymd) | Refused | Beyond.
Definition dash_like (t : str) : bool := smem t [lit "-"; lit "/"; lit "."].
Fixpoint parse_tokens (fuel : nat) (l : list str) (y : mymd) : outcome :=
  match fuel with
  | O => Beyond
  | S f =>
      let go (o : option mymd) (rest : list str) : outcome := match o with Some y => parse_tokens f rest y | None => Refused end in
      (** a third part, after the same separator *)
      let third (sep : str) (o : option mymd) (monthly : bool) (rest : list str) : outcome :=
        match o with
        | None => Refused
        | Some y =>
            match rest with
            | sep' :: rest' =>
                if str_eqb sep' sep then
                  match rest' with
                  | v :: rest'' => match month_of v, monthly with Some m, true => go (append_month m y) rest'' | _, _ => go (append_text v y) rest'' end
                  | [] => Refused
                  end
                else parse_tokens f rest y
            | [] => parse_tokens f rest y
            end
        end in
      match l with
      | [] => Told y
      | t :: r =>
          if is_int t then
            if (4 <? List.length t) || (List.length (ymd_values (fst y)) =? 3) then Beyond
            else
              match r with
              | [] => go (append_number t y) []
              | u :: r' =>
                  if dash_like u then
                    match append_text t y with
                    | None => Refused
                    | Some y' =>
                        match r' with
                        | [] => parse_tokens f [] y'
                        | w :: r'' =>
                            if jump w then parse_tokens f r' y'
                            else if is_int w then third u (append_text w y') true r''
                            else match month_of w with Some m => third u (append_month m y') true r'' | None => Refused end
                        end
                    end
                  else if jump u then go (append_number t y) r'
                  else Beyond
              end
          else if match t with c :: _ => is_digit c | [] => true end then Beyond
          else match month_of t with
          | Some m =>
              match append_month m y, r with
              | None, _ => Refused
              | Some y', u :: r' =>
                  if smem u [lit "-"; lit "/"] then
                    match r' with
                    | w :: r'' => third u (append_text w y') false r''
                    | [] => Refused
                    end
                  else parse_tokens f r y'
              | Some y', [] => parse_tokens f [] y'
              end
          | None => if jump t then parse_tokens f r y else Refused
          end
      end
  end.
(** [_ymd.resolve_ymd], when the place of the month is known and there are three numbers *)
Definition resolve_month (y : mymd) (yearfirst : bool) : option (Z * Z * Z) :=
  match ymd_values (fst y), ymd_year (fst y), snd y with
  | [a; b; c], Some yi, Some mi => let at_ i := nth i [a; b; c] 0%Z in Some (at_ yi, at_ mi, at_ (3 - yi - mi))
  | [a; b; c], None, Some O => if (31 <? b)%Z then Some (b, a, c) else Some (c, a, b)
  | [a; b; c], None, Some 1 => if (31 <? a)%Z || (yearfirst && (c <=? 31)%Z) then Some (a, b, c) else Some (c, b, a)
  | [a; b; c], None, Some _ => if (31 <? b)%Z then Some (b, c, a) else Some (a, c, b)
  | _, _, _ => None
  end.
(** [parser.parse] *)
Definition month_parse (this_year : Z) (rest : str -> bool -> bool -> option (Z * Z * Z)) (text : str) (dayfirst yearfirst : bool) : option (Z * Z * Z) :=
  let l := tokens text in
  if existsb special l then rest text dayfirst yearfirst
  else match parse_tokens (S (S (List.length l))) l (ymd_nil, None) with
  | Beyond => rest text dayfirst yearfirst
  | Refused => None
  | Told y =>
      if 3 <? List.length (ymd_values (fst y)) then None
      else match resolve_month y yearfirst with
      | None => rest text dayfirst yearfirst
      | Some (year, month, day) =>
          let year := convertyear this_year year (ymd_century (fst y)) in
          if check_date year month day then Some (year, month, day) else None
      end
  end.
(** rules/common/date.py:84-142 with this parser *)
Definition find_any_date (this_year : Z) (rest : str -> bool -> bool -> option (Z * Z * Z)) (s : str) (year_first day_first : option bool) : option (nat * nat * (Z * Z * Z)) :=
  find_date this_year (month_parse this_year rest) s year_first day_first.
Definition nothing_else (t : str) (f g : bool) : option (Z * Z * Z) := None.
Example tokens_ex : map tokens [lit "13th.May.2012"; lit "13-May 2012"; lit "13.May.2012"; lit "1st/sept.2012"; lit "12,5"; lit "1.2"] =
  [[lit "13"; lit "th"; lit "."; lit "May"; lit "."; lit "2012"]; [lit "13"; lit "-"; lit "May"; lit " "; lit "2012"]; [lit "13"; lit "."; lit "May"; lit "."; lit "2012"];
   [lit "1"; lit "st"; lit "/"; lit "sept"; lit "."; lit "2012"]; [lit "12.5"]; [lit "1.2"]].
Proof. vm_compute. reflexivity. Qed.
Example month_ex : map (fun t => find_any_date 2026 nothing_else (lit t) None None)
  ["A.Show.13th.May.2012.x264"; "A Show 3 February 1999"; "30-FEB-2012"; "5/sept.2001"; "7.of.2001"; "13 nan 2012"; "13 May 0012"; "13.May.0012"]%string =
  [Some (7, 20, (2012, 5, 13)%Z); Some (7, 22, (1999, 2, 3)%Z); None; Some (0, 11, (2001, 9, 5)%Z); None; None; Some (0, 11, (2012, 5, 13)%Z); None].
Proof. vm_compute. reflexivity. Qed.
