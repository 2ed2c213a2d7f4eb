(** Model of guessit/rules/common/date.py. The dateutil parser is a parameter. *)
From Verif Require Import Py Regex Numeral.

(** rules/common/date.py:10-11, [re.IGNORECASE] *)
Definition dsep (c : char) : bool := cmem c (lit "-/ .").
Definition dsep_bis (c : char) : bool := dsep c || cmem c (lit "xX").
Definition digits (m n : nat) : re := rrange (RChr is_digit) m n.
(** [(?:^|[^\d])] and [(?:$|[^\d])] *)
Definition pre : re := RAlt RBol (RChr (fun c => negb (is_digit c))).
Definition post : re := RAlt REol (RChr (fun c => negb (is_digit c))).
(** lines 15 and 17: [sep((\d{n}))sep] *)
Definition compact_re (n : nat) : re :=
  RSeq (RChr dsep) (RSeq (RGrp 1 (RGrp 2 (digits n n))) (RChr dsep)).
(** lines 19-25: three numbers; [f], [g] are the separators *)
Definition numeric_re (m1 n1 : nat) (f : N -> bool) (m2 n2 : nat) (g : N -> bool) (m3 n3 : nat) : re :=
  RSeq pre (RSeq (RGrp 1 (RSeq (RGrp 2 (digits m1 n1)) (RSeq (RChr f) (RSeq (RGrp 3 (digits m2 n2)) (RSeq (RChr g) (RGrp 4 (digits m3 n3))))))) post).
(** a literal, ignoring case *)
Fixpoint rlit (w : str) : re := match w with [] => REps | x :: r => RSeq (RChr (fun c => N.eqb (to_lower c) x)) (rlit r) end.
(** line 27: day, month name, year *)
Definition ordinal : re := RAlt (RAlt (RAlt (RAlt (rlit (lit "st")) (rlit (lit "nd"))) (rlit (lit "rd"))) (rlit (lit "th"))) REps.
Definition month_re : re :=
  RSeq pre (RSeq (RGrp 1 (RGrp 2 (RSeq (digits 1 2) (RSeq ordinal (RSeq (RChr dsep)
    (RSeq (rrange (RChr is_alpha) 3 10) (RSeq (RChr dsep) (digits 4 4)))))))) post).
(** rules/common/date.py:13-29 [date_regexps], with the number of groups after the first one *)
Definition date_regexps : list (re * nat) :=
  [ (compact_re 8, 1); (compact_re 6, 1);
    (numeric_re 2 2 dsep 1 2 dsep 1 2, 3);
    (numeric_re 1 2 dsep 1 2 dsep 2 2, 3);
    (numeric_re 4 4 dsep_bis 1 2 dsep 1 2, 3);
    (numeric_re 1 2 dsep 1 2 dsep_bis 4 4, 3);
    (month_re, 1) ].

(** rules/common/date.py:32-34 *)
Definition valid_year (y : Z) : bool := (1920 <=? y)%Z && (y <? 2030)%Z.
(** rules/common/date.py:37-39 *)
Definition valid_week (w : Z) : bool := (1 <=? w)%Z && (w <? 53)%Z.
(** rules/common/date.py:42-55, for the texts captured by the expressions above *)
Definition is_int (s : str) : bool := match s with [] => false | _ => forallb is_digit s end.
Definition int_of (s : str) : Z := dec s.
(** [l[:n]], [l[-n:]] *)
Definition take_last (n : nat) (s : str) : str := skipn (List.length s - n) s.
(** rules/common/date.py:58-81 *)
Definition guess_day_first (groups : list str) : option bool :=
  let g0 := hd [] groups in
  let gl := last groups [] in
  if is_int g0 && valid_year (int_of (firstn 4 g0)) then Some false
  else if is_int gl && valid_year (int_of (take_last 4 gl)) then Some true
  else if is_int g0 && (31 <? int_of (firstn 2 g0))%Z then Some false
  else if is_int gl && (31 <? int_of (take_last 2 gl))%Z then Some true
  else None.

Section Search.
  (** a date of the dateutil parser, its year, and [parser.parse(text, dayfirst, yearfirst)];
      [None] when it raises [ValueError] or [TypeError] *)
  Context {D : Type} (year : D -> Z) (parse : str -> bool -> bool -> option D).

  Definition group_text (s : str) (c : caps) (n : nat) : str :=
    match group n c with Some (a, b) => slice a b s | None => [] end.
  (** rules/common/date.py:133-142 *)
  Fixpoint first_plausible (text : str) (opts : list (bool * bool)) : option D :=
    match opts with
    | [] => None
    | (d, y) :: r =>
        match parse text d y with
        | Some date => if valid_year (year date) then Some date else first_plausible text r
        | None => first_plausible text r
        end
    end.
  (** rules/common/date.py:101-142: [day_first] is assigned in the loop and kept for the next expressions *)
  Fixpoint date_loop (rs : list (re * nat)) (s : str) (year_first day_first : option bool) : option (nat * nat * D) :=
    match rs with
    | [] => None
    | (r, n) :: rest =>
        match search s r 0 with
        | None => date_loop rest s year_first day_first
        | Some (_, _, c) =>
            match group 1 c with
            | None => None
            | Some (a, b) =>
                let groups := map (group_text s c) (seq 2 n) in
                let text := concat_with (lit "-") groups in
                let day_first := match year_first, day_first with Some true, None => Some false | _, _ => day_first end in
                let day_first := match day_first with None => guess_day_first groups | _ => day_first end in
                let yopts := match year_first with None => [false; true] | Some y => [y] end in
                let dopts := match day_first with None => [true; false] | Some d => [d] end in
                match first_plausible text (list_prod dopts yopts) with
                | Some d => Some (a, b, d)
                | None => date_loop rest s year_first day_first
                end
            end
        end
    end.
  (** rules/common/date.py:84-142 *)
  Definition search_date (s : str) (year_first day_first : option bool) : option (nat * nat * D) :=
    date_loop date_regexps s year_first day_first.
End Search.
