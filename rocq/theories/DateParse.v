(** Model of what dateutil.parser.parse makes of the texts search_date gives it (rules/common/date.py:135), for texts of numbers joined by
    dashes and for runs of six or eight digits; dateutil 2.x is not in /repo and is transcribed here (parser/_parser.py: [_ymd],
    [parser._parse], [parserinfo.convertyear], and [datetime.replace]). Other texts (with the name of a month) are left to [other].
    And the date pattern, rules/properties/date.py:44-62. *)
From Verif Require Import Py Text Regex Numeral Quantity Date Rebulk Patterns.
From Coq Require Import Arith.
Local Open Scope Z_scope.

(** dateutil [_ymd]: the numbers, whether the century is told, and the place of the year *)
Record ymd := mk_ymd { ymd_values : list Z; ymd_century : bool; ymd_year : option nat }.
Definition ymd_nil : ymd := mk_ymd [] false None.
(** [_ymd.append]: a text of more than two digits is a year, and there is only one *)
Definition ymd_append (t : str) (y : ymd) : option ymd :=
  if (2 <? List.length t)%nat then
    match ymd_year y with
    | Some _ => None
    | None => Some (mk_ymd (ymd_values y ++ [dec t]) true (Some (List.length (ymd_values y))))
    end
  else Some (mk_ymd (ymd_values y ++ [dec t]) (ymd_century y) (ymd_year y)).
(** [_ymd.resolve_ymd], three numbers, no month told *)
Definition resolve_ymd (y : ymd) (yearfirst dayfirst : bool) : option (Z * Z * Z) :=
  match ymd_values y with
  | [a; b; c] =>
      if (31 <? a) || match ymd_year y with Some O => true | _ => false end || (yearfirst && (b <=? 12) && (c <=? 31)) then
        if dayfirst && (c <=? 12) then Some (a, c, b) else Some (a, b, c)
      else if (12 <? a) || (dayfirst && (b <=? 12)) then Some (c, b, a)
      else Some (c, a, b)
  | _ => None
  end.
(** [parserinfo.convertyear] *)
Definition convertyear (this_year : Z) (year : Z) (century_specified : bool) : Z :=
  if (year <? 100) && negb century_specified then
    let year := year + this_year / 100 * 100 in
    if this_year + 50 <=? year then year - 100 else if year <? this_year - 50 then year + 100 else year
  else year.
(** datetime.py [_is_leap], [_days_in_month], [_check_date_fields] *)
Definition is_leap (y : Z) : bool := (y mod 4 =? 0) && (negb (y mod 100 =? 0) || (y mod 400 =? 0)).
Definition days_in_month (y m : Z) : Z :=
  if (m =? 2) && is_leap y then 29 else nth (Z.to_nat (m - 1)) [31; 28; 31; 30; 31; 30; 31; 31; 30; 31; 30; 31] 0.
Definition check_date (y m d : Z) : bool := (1 <=? y) && (y <=? 9999) && (1 <=? m) && (m <=? 12) && (1 <=? d) && (d <=? days_in_month y m).

(** the texts between dashes *)
Fixpoint split_dash (s : str) (cur : str) : list str :=
  match s with
  | [] => [cur]
  | c :: r => if (c =? 45)%N then cur :: split_dash r [] else split_dash r (cur ++ [c])
  end.
(** [parser._parse_numeric_token]: the numbers of the text *)
Definition ymd_of (text : str) : option (option ymd) :=
  match split_dash text [] with
  | [t] =>
      if is_int t && (List.length t =? 6)%nat then Some (match ymd_append (firstn 2 t) ymd_nil with Some y => match ymd_append (firstn 2 (skipn 2 t)) y with
        Some y => ymd_append (skipn 4 t) y | None => None end | None => None end)
      else if is_int t && (List.length t =? 8)%nat then Some (match ymd_append (firstn 4 t) ymd_nil with Some y => match ymd_append (firstn 2 (skipn 4 t)) y with
        Some y => ymd_append (skipn 6 t) y | None => None end | None => None end)
      else None
  | [a; b; c] =>
      if is_int a && is_int b && is_int c && (List.length a <? 5)%nat then
        Some (match ymd_append a ymd_nil with Some y => match ymd_append b y with Some y => ymd_append c y | None => None end | None => None end)
      else None
  | _ => None
  end.
(** [parser.parse]: the year, the month and the day; [None] for a ValueError *)
Definition dateutil_parse (this_year : Z) (other : str -> bool -> bool -> option (Z * Z * Z)) (text : str) (dayfirst yearfirst : bool) : option (Z * Z * Z) :=
  match ymd_of text with
  | None => other text dayfirst yearfirst
  | Some None => None
  | Some (Some y) =>
      match resolve_ymd y yearfirst dayfirst with
      | None => None
      | Some (year, month, day) =>
          let year := convertyear this_year year (ymd_century y) in
          if check_date year month day then Some (year, month, day) else None
      end
  end.
Definition date_year (d : Z * Z * Z) : Z := fst (fst d).
(** rules/common/date.py:84-142 with this parser *)
Definition find_date (this_year : Z) (other : str -> bool -> bool -> option (Z * Z * Z)) (s : str) (year_first day_first : option bool) : option (nat * nat * (Z * Z * Z)) :=
  search_date date_year (dateutil_parse this_year other) s year_first day_first.

(** date.isoformat *)
Definition padded (n : nat) (z : Z) : str := let t := str_of_N (Z.to_N z) in repeat 48%N (n - List.length t) ++ t.
Definition isoformat (d : Z * Z * Z) : str := let '(y, m, d) := d in padded 4 y ++ lit "-" ++ padded 2 m ++ lit "-" ++ padded 2 d.
(** rules/properties/date.py:44-62 [date_functional]: at most one date, between separators *)
Definition date_matches (this_year : Z) (other : str -> bool -> bool -> option (Z * Z * Z)) (s : str) (year_first day_first : option bool) : list mt :=
  match find_date this_year other s year_first day_first with
  | Some (a, b, d) => let m := simple a b (lit "date") (MvObj (isoformat d)) [] in if seps_surround s m then [m] else []
  | None => []
  end.
