(** C23: dates *)
From Verif Require Import Py PyFacts Text Regex Numeral NumeralProofs Date DateProofs.

(** C23: whatever the date parser is, a date that is returned has a year in 1920..2029, was
    produced by the parser from the text found at the returned span, this text looks like a
    date and is not part of a longer number, and the day-first/year-first options given by the
    caller are those passed to the parser. *)
Theorem C23_sound : forall D (year : D -> Z) parse s yf df a b d,
  search_date year parse s yf df = Some (a, b, d) ->
  (1920 <= year d <= 2029)%Z /\ a < b <= List.length s /\ detached s a b /\
  exists text dayf yearf, date_text (slice a b s) text /\ parse text dayf yearf = Some d /\
    (forall y, yf = Some y -> yearf = y) /\ (forall x, df = Some x -> dayf = x) /\
    (df = None -> yf = Some true -> dayf = false).
Proof.
  intros D year parse s yf df a b d H.
  apply (date_loop_sound year parse s yf date_regexps ltac:(intros x Hx; exact Hx) df df) in H as (H1 & H2); [|auto|].
  - split; [|exact H2]. unfold valid_year in H1. apply Bool.andb_true_iff in H1 as [A B]. apply Z.leb_le in A. apply Z.ltb_lt in B. lia.
  - intros -> _. left; reflexivity.
Qed.
Print Assumptions C23_sound.
(** C23: with an explicit day-first option the result is the first plausible interpretation,
    in the order of the expressions, and nothing is returned when there is none. *)
Theorem C23_first_plausible : forall D (year : D -> Z) parse s yf df,
  search_date year parse s yf (Some df) = find (fun x => valid_year (year (snd x))) (interpretations parse s yf df).
Proof. intros. apply search_date_first. Qed.
Print Assumptions C23_first_plausible.

(** a parser knowing one date: the year, the month and the day *)
Definition one_date (text : str) (dayfirst yearfirst : bool) : option (Z * Z * Z) :=
  if str_eqb text (lit "05-06-1998") then Some (if dayfirst then (1998, 6, 5) else (1998, 5, 6))%Z else None.
Example ex_date : search_date (fun d => fst (fst d)) one_date (lit "Show 05.06.1998 x") None None = Some (5, 15, (1998, 6, 5)%Z)
  /\ search_date (fun d => fst (fst d)) one_date (lit "Show 05.06.1998 x") None (Some false) = Some (5, 15, (1998, 5, 6)%Z).
Proof. split; vm_compute; reflexivity. Qed.
(** C23, limit: the day-first value guessed for a text that is not a date is kept for the next
    expressions: a number before the date exchanges its day and month. *)
Theorem C23_guess_leaks_refuted : exists parse : str -> bool -> bool -> option (Z * Z * Z),
  search_date (fun d => fst (fst d)) parse (lit " 05.06.1998 ") None None = Some (1, 11, (1998, 6, 5)%Z) /\
  search_date (fun d => fst (fst d)) parse (lit " 20029999 05.06.1998 ") None None = Some (10, 20, (1998, 5, 6)%Z).
Proof. exists one_date. split; vm_compute; reflexivity. Qed.
Print Assumptions C23_guess_leaks_refuted.

(** C23: which reading is preferred when neither option is given: the first expression found decides, and as long as its
    groups do not tell, the day is first and the year last; then year first; then the month first. *)
Theorem C23_undecided_order : forall D (year : D -> Z) (parse : str -> bool -> bool -> option D) s before r n after i j c a b d,
  date_regexps = before ++ (r, n) :: after -> (forall x, In x before -> search s (fst x) 0 = None) ->
  search s r 0 = Some (i, j, c) -> group 1 c = Some (a, b) ->
  let groups := map (group_text s c) (seq 2 n) in
  let read dayfirst yearfirst := match parse (concat_with (lit "-") groups) dayfirst yearfirst with
                                 | Some d => if (1920 <=? year d)%Z && (year d <=? 2029)%Z then [d] else []
                                 | None => [] end in
  guess_day_first groups = None ->
  hd_error (read true false ++ read true true ++ read false false ++ read false true) = Some d ->
  search_date year parse s None None = Some (a, b, d).
Proof.
  intros D year parse s before r n after i j c a b d E Hno Hs Hg groups read Hguess Hd.
  unfold search_date. rewrite E. clear E. revert Hno. induction before as [|[r0 n0] before IH]; intros Hno; cbn [app date_loop].
  - rewrite Hs, Hg. fold groups. rewrite Hguess. cbn [list_prod map app first_plausible].
    unfold read in Hd.
    assert (V : forall y, (1920 <=? y)%Z && (y <=? 2029)%Z = valid_year y) by (intros y; unfold valid_year; lia).
    repeat match goal with |- context [parse ?t ?x ?y] => destruct (parse t x y) as [?e|] end; rewrite ?V in Hd; cbn [app] in Hd;
    repeat match goal with |- context [valid_year (year ?e)] => destruct (valid_year (year e)) end; cbn in Hd; congruence.
  - pose proof (Hno (r0, n0) (or_introl eq_refl)) as H0. cbn [fst] in H0. rewrite H0. apply IH. intros x Hx; apply Hno; right; exact Hx.
Qed.
Print Assumptions C23_undecided_order.
(** a parser for which both readings are dates *)
Definition two_dates (text : str) (dayfirst yearfirst : bool) : option (Z * Z * Z) :=
  if str_eqb text (lit "05-06-08") then Some (if dayfirst then (2008, 6, 5) else (2008, 5, 6))%Z else None.
Example ex_undecided : search_date (fun d => fst (fst d)) two_dates (lit "Show 05.06.08 x") None None = Some (5, 13, (2008, 6, 5)%Z).
Proof. vm_compute; reflexivity. Qed.

(** C23: what the groups tell, in order: a four-digit year first, a four-digit year last, a number over 31 first, a number over 31 last. *)
Definition all_digits (g : str) : Prop := g <> [] /\ Forall (fun c => is_digit c = true) g.
Definition starts_with_number (k : nat) (P : Z -> Prop) (g : str) : Prop := all_digits g /\ P (decimal (firstn k g)).
Definition ends_with_number (k : nat) (P : Z -> Prop) (g : str) : Prop := all_digits g /\ P (decimal (skipn (List.length g - k) g)).
Definition plausible (y : Z) : Prop := (1920 <= y <= 2029)%Z.
Definition over31 (y : Z) : Prop := (31 < y)%Z.
Inductive told (g0 gl : str) : option bool -> Prop :=
| told_long_first : starts_with_number 4 plausible g0 -> told g0 gl (Some false)
| told_long_last : ~ starts_with_number 4 plausible g0 -> ends_with_number 4 plausible gl -> told g0 gl (Some true)
| told_short_first : ~ starts_with_number 4 plausible g0 -> ~ ends_with_number 4 plausible gl -> starts_with_number 2 over31 g0 -> told g0 gl (Some false)
| told_short_last : ~ starts_with_number 4 plausible g0 -> ~ ends_with_number 4 plausible gl -> ~ starts_with_number 2 over31 g0 ->
    ends_with_number 2 over31 gl -> told g0 gl (Some true)
| told_nothing : ~ starts_with_number 4 plausible g0 -> ~ ends_with_number 4 plausible gl -> ~ starts_with_number 2 over31 g0 ->
    ~ ends_with_number 2 over31 gl -> told g0 gl None.
Theorem C23_guess : forall groups, told (hd [] groups) (last groups []) (guess_day_first groups).
Proof.
  intros groups. unfold guess_day_first. generalize (hd [] groups) as g0, (last groups []) as gl. intros g0 gl.
  assert (I : forall g, is_int g = true <-> all_digits g).
  { intros g. unfold is_int, all_digits. destruct g as [|x g]; [split; [discriminate|intros [H _]; congruence]|].
    rewrite forallb_forall, Forall_forall. split; [intros H; split; [discriminate|exact H]|intros [_ H]; exact H]. }
  assert (S4 : is_int g0 && valid_year (int_of (firstn 4 g0)) = true <-> starts_with_number 4 plausible g0).
  { unfold starts_with_number, plausible, int_of. rewrite Bool.andb_true_iff, I, dec_decimal. unfold valid_year. split; intros [H H']; split; auto; lia. }
  assert (E4 : is_int gl && valid_year (int_of (take_last 4 gl)) = true <-> ends_with_number 4 plausible gl).
  { unfold ends_with_number, plausible, int_of, take_last. rewrite Bool.andb_true_iff, I, dec_decimal. unfold valid_year. split; intros [H H']; split; auto; lia. }
  assert (S2 : is_int g0 && (31 <? int_of (firstn 2 g0))%Z = true <-> starts_with_number 2 over31 g0).
  { unfold starts_with_number, over31, int_of. rewrite Bool.andb_true_iff, I, dec_decimal. split; intros [H H']; split; auto; lia. }
  assert (E2 : is_int gl && (31 <? int_of (take_last 2 gl))%Z = true <-> ends_with_number 2 over31 gl).
  { unfold ends_with_number, over31, int_of, take_last. rewrite Bool.andb_true_iff, I, dec_decimal. split; intros [H H']; split; auto; lia. }
  destruct (is_int g0 && valid_year (int_of (firstn 4 g0))) eqn:X1; [constructor 1; apply S4; reflexivity|].
  assert (N1 : ~ starts_with_number 4 plausible g0) by (rewrite <- S4; discriminate).
  destruct (is_int gl && valid_year _) eqn:X2; [constructor 2; [exact N1|apply E4; reflexivity]|].
  assert (N2 : ~ ends_with_number 4 plausible gl) by (rewrite <- E4; discriminate).
  destruct (is_int g0 && (31 <? _)%Z) eqn:X3; [constructor 3; [exact N1|exact N2|apply S2; reflexivity]|].
  assert (N3 : ~ starts_with_number 2 over31 g0) by (rewrite <- S2; discriminate).
  destruct (is_int gl && (31 <? _)%Z) eqn:X4; [constructor 4; [exact N1|exact N2|exact N3|apply E2; reflexivity]|].
  constructor 5; auto. rewrite <- E2; discriminate.
Qed.
Print Assumptions C23_guess.
Example ex_guess : guess_day_first [lit "1998"; lit "05"; lit "06"] = Some false /\ guess_day_first [lit "05"; lit "06"; lit "98"] = Some true /\ guess_day_first [lit "05"; lit "06"; lit "08"] = None.
Proof. repeat split; reflexivity. Qed.
