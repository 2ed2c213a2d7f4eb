(** C113: dates written with the name of a month *)
From Coq Require Import ZArith ZifyBool ZifyNat ZifyN.
From Verif Require Import Py PyFacts Text TextFacts WordsProofs Regex RegexFacts CrcProofs Numeral NumeralProofs Quantity Date DateProofs Rebulk RebulkFacts Patterns PatternsProps DateParse DateParseProps MonthDate.
Import DateProofs.
Local Open Scope nat_scope.

(** * specification *)
Definition english : list str := map lit ["january"; "february"; "march"; "april"; "may"; "june"; "july"; "august"; "september"; "october"; "november"; "december"]%string.
(** [w] is the name of the month [m], its first three letters, or "sept"; the case does not matter *)
Inductive month_name (w : str) : Z -> Prop :=
| whole_name n : nth_error english n = Some (lower w) -> month_name w (Z.of_nat n + 1)
| short_name n t : nth_error english n = Some t -> lower w = firstn 3 t -> month_name w (Z.of_nat n + 1)
| sept_name : lower w = lit "sept" -> month_name w 9.
(** a day, maybe with st, nd, rd or th, a word and a year of four digits, written from [a] to [b] *)
Definition day_word_year (s : str) (a b : nat) (day word year : str) : Prop :=
  exists suffix c1 c2, slice a b s = day ++ suffix ++ [c1] ++ word ++ [c2] ++ year /\
    In (lower suffix) [lit "st"; lit "nd"; lit "rd"; lit "th"; []] /\ In c1 (lit "-/ .") /\ In c2 (lit "-/ .") /\ number 1 2 day /\ number 4 4 year.
Definition letters (w : str) : Prop := Forall (fun c => is_alpha c = true) w.

(** * proofs *)
Lemma month_iff w m : month_of w = Some m <-> month_name w m.
Proof.
  unfold month_of. split.
  - generalize (lower w) at 1 2 as t || idtac. remember (lower w) as t eqn:Et. intros H.
    assert (G : forall l n, month_at t n l = Some m -> exists k ws, nth_error l k = Some ws /\ In t ws /\ m = (n + Z.of_nat k)%Z).
    { induction l as [|ws l IH]; intros n; cbn [month_at]; [discriminate|]. destruct (smem t ws) eqn:E.
      - intros Q. injection Q as <-. exists 0, ws. split; [reflexivity|]. split; [apply smem_In, E|lia].
      - intros Q. apply IH in Q as (k & ws' & A & B & C). exists (S k), ws'. split; [exact A|]. split; [exact B|lia]. }
    apply G in H as (k & ws & Hk & Hin & ->). clear G.
    do 12 (destruct k as [|k]; [injection Hk as <-; cbn [In map] in Hin;
      repeat (destruct Hin as [Hin|Hin]; [subst t; first [apply (sept_name w (eq_sym Hin)) | rewrite Z.add_comm; first [apply whole_name; rewrite <- Hin; reflexivity | eapply short_name; [reflexivity|rewrite <- Hin; reflexivity]]]|]); destruct Hin|]).
    destruct k; discriminate Hk.
  - intros H. destruct H as [n H|n t H E|E].
    + do 12 (destruct n as [|n]; [injection H as H; rewrite <- H; reflexivity|]). destruct n; discriminate.
    + do 12 (destruct n as [|n]; [injection H as <-; rewrite E; reflexivity|]). destruct n; discriminate.
    + rewrite E. reflexivity.
Qed.

(** ** tokens *)
Lemma alpha_digit c : is_alpha c = true -> is_digit c = false.
Proof. unfold is_alpha, is_upper, is_lower, is_digit. lia. Qed.
Lemma digit_alpha c : is_digit c = true -> is_alpha c = false.
Proof. unfold is_alpha, is_upper, is_lower, is_digit. lia. Qed.
Lemma alpha_dot c : is_alpha c = true -> N.eqb c 46 = false.
Proof. unfold is_alpha, is_upper, is_lower. lia. Qed.
Lemma digit_dot c : is_digit c = true -> N.eqb c 46 = false.
Proof. unfold is_digit. lia. Qed.
Lemma run_digits p : digits_only p -> forall b t r, lex (p ++ r) (Some (Digits, b, t)) = lex r (Some (Digits, b, t ++ p)).
Proof.
  induction 1 as [|x p Hx P IH]; intros b t r; cbn [app]; [rewrite app_nil_r; reflexivity|]. cbn [lex lex_step]. rewrite Hx. cbn [app]. rewrite IH, <- app_assoc. reflexivity.
Qed.
Lemma run_digits_dot p : digits_only p -> forall b t r, lex (p ++ r) (Some (DigitsDot, b, t)) = lex r (Some (DigitsDot, b, t ++ p)).
Proof.
  induction 1 as [|x p Hx P IH]; intros b t r; cbn [app]; [rewrite app_nil_r; reflexivity|]. cbn [lex lex_step]. rewrite Hx, Bool.orb_true_r. cbn [app]. rewrite IH, <- app_assoc. reflexivity.
Qed.
Lemma run_word w : letters w -> w <> [] -> forall b t r, lex (w ++ r) (Some (Word, b, t)) = lex r (Some (Word, true, t ++ w)).
Proof.
  induction 1 as [|x w Hx P IH]; intros Ne b t r; [congruence|]. cbn [app lex lex_step]. rewrite Hx. cbn [app].
  destruct w as [|y w]; [reflexivity|]. rewrite (IH ltac:(discriminate)), <- app_assoc. reflexivity.
Qed.
Lemma run_word_dot w : letters w -> w <> [] -> forall b t r, lex (w ++ r) (Some (WordDot, b, t)) = lex r (Some (WordDot, true, t ++ w)).
Proof.
  induction 1 as [|x w Hx P IH]; intros Ne b t r; [congruence|]. cbn [app lex lex_step]. rewrite Hx, Bool.orb_true_r. cbn [app].
  destruct w as [|y w]; [reflexivity|]. rewrite (IH ltac:(discriminate)), <- app_assoc. reflexivity.
Qed.
(** from nothing *)
Lemma begin_digits p r : digits_only p -> p <> [] -> lex (p ++ r) None = lex r (Some (Digits, false, p)).
Proof.
  intros P Ne. destruct P as [|x p Hx P]; [congruence|]. cbn [app lex lex_step lex_first]. unfold lex_first. rewrite (digit_alpha x Hx), Hx. cbn [app]. exact (run_digits p P false [x] r).
Qed.
Lemma begin_word w r : letters w -> 2 <= List.length w -> lex (w ++ r) None = lex r (Some (Word, true, w)).
Proof.
  intros P L. destruct P as [|x w Hx P]; [cbn in L; lia|]. cbn [app lex lex_step]. unfold lex_first. rewrite Hx. cbn [app]. apply (run_word w P ltac:(intros ->; cbn in L; lia) false [x] r).
Qed.
(** after a dot *)
Lemma digits_after b t p r : last t 0%N = 46%N -> digits_only p -> p <> [] -> lex (p ++ r) (Some (WordDot, b, t)) = lex r (Some (DigitsDot, true, t ++ p)).
Proof.
  intros L P Ne. destruct P as [|x p Hx P]; [congruence|]. cbn [app lex lex_step]. rewrite (digit_dot x Hx), (digit_alpha x Hx), Hx, L. cbn [orb andb N.eqb Pos.eqb]. cbn [app].
  rewrite (run_digits_dot p P), <- app_assoc. reflexivity.
Qed.
Lemma word_after b t w r : last t 0%N = 46%N -> letters w -> 2 <= List.length w -> lex (w ++ r) (Some (DigitsDot, b, t)) = lex r (Some (WordDot, true, t ++ w)).
Proof.
  intros L P Le. destruct P as [|x w Hx P]; [cbn in Le; lia|]. cbn [app lex lex_step]. rewrite (alpha_dot x Hx), (alpha_digit x Hx), Hx, L. cbn [orb andb N.eqb Pos.eqb]. cbn [app].
  rewrite (run_word_dot w P ltac:(intros ->; cbn in Le; lia)), <- app_assoc. reflexivity.
Qed.
(** a word or a number from a digit's token *)
Lemma word_stops p w r : letters w -> 2 <= List.length w -> lex (w ++ r) (Some (Digits, false, p)) = p :: lex r (Some (Word, true, w)).
Proof.
  intros P Le. destruct P as [|x w Hx P]; [cbn in Le; lia|]. cbn [app lex lex_step]. rewrite (alpha_digit x Hx), (alpha_dot x Hx).
  replace (N.eqb x 44) with false by (unfold is_alpha, is_upper, is_lower in Hx; lia). cbn [andb orb]. unfold lex_first. rewrite Hx. cbn [fst snd emit andb app].
  f_equal. apply (run_word w P ltac:(intros ->; cbn in Le; lia) false [x] r).
Qed.

(** ** splitting at the dots *)
Definition dotless (t : str) : Prop := Forall (fun c => is_point c = false) t.
Lemma split_plain t : dotless t -> forall cur r, split_points (t ++ r) cur = split_points r (cur ++ t).
Proof.
  induction 1 as [|x t Hx P IH]; intros cur r; cbn [app]; [rewrite app_nil_r; reflexivity|]. cbn [split_points]. rewrite Hx, IH, <- app_assoc. reflexivity.
Qed.
Lemma split_dot t r : dotless t -> split_points (t ++ 46%N :: r) [] = t :: [46%N] :: split_points r [].
Proof. intros P. rewrite (split_plain t P). reflexivity. Qed.
Lemma split_end t : dotless t -> split_points t [] = [t].
Proof. intros P. rewrite <- (app_nil_r t) at 1. rewrite (split_plain t P). reflexivity. Qed.
Lemma digits_dotless p : digits_only p -> dotless p.
Proof. apply Forall_impl. intros c. unfold is_digit, is_point. lia. Qed.
Lemma letters_dotless w : letters w -> dotless w.
Proof. apply Forall_impl. intros c. unfold is_alpha, is_upper, is_lower, is_point. lia. Qed.
Lemma emit2 q b t u : (q = WordDot \/ q = DigitsDot) -> b = true -> dotless t -> dotless u -> u <> [] -> emit (Some (q, b, t ++ 46%N :: u)) = [t; [46%N]; u].
Proof.
  intros Hq -> T U Ne. assert (E : split_points (t ++ 46%N :: u) [] = [t; [46%N]; u]) by (rewrite split_dot, split_end by assumption; reflexivity).
  destruct Hq as [-> | ->]; cbn [emit orb andb]; rewrite E; destruct u; try congruence; reflexivity.
Qed.
Lemma emit3 q b t u v : (q = WordDot \/ q = DigitsDot) -> b = true -> dotless t -> dotless u -> dotless v -> u <> [] -> v <> [] ->
  emit (Some (q, b, t ++ 46%N :: u ++ 46%N :: v)) = [t; [46%N]; u; [46%N]; v].
Proof.
  intros Hq -> T U V Ne Nv. assert (E : split_points (t ++ 46%N :: u ++ 46%N :: v) [] = [t; [46%N]; u; [46%N]; v]) by (rewrite !split_dot, split_end by assumption; reflexivity).
  destruct Hq as [-> | ->]; cbn [emit orb andb]; rewrite E; destruct u; try congruence; destruct v; try congruence; reflexivity.
Qed.
Lemma last_dot (t : str) : last (t ++ [46%N]) 0%N = 46%N.
Proof. apply last_last. Qed.

Definition other_sep (c : char) : Prop := In c (lit "-/ ").
Lemma sep_cases c : In c (lit "-/ .") -> c = 46%N \/ other_sep c.
Proof. unfold other_sep. vm_compute. intros [<-|[<-|[<-|[<-|[]]]]]; auto 10. Qed.
(** a separator other than a dot ends a token, and is one *)
Lemma sep_ends q b t c r : other_sep c -> (q = Word -> b = true) -> (q = WordDot -> b = true) -> lex (c :: r) (Some (q, b, t)) = emit (Some (q, b, t)) ++ [c] :: lex r None.
Proof.
  intros H Hb Hb'. assert (E : lex_step c (Some (q, b, t)) = (emit (Some (q, b, t)) ++ [[c]], None)).
  { unfold other_sep in H. vm_compute in H. destruct q; [rewrite Hb by reflexivity| |rewrite Hb' by reflexivity|]; destruct H as [<- |[<- |[<- |[]]]]; reflexivity. }
  change (lex (c :: r) (Some (q, b, t))) with (let '(out, st') := lex_step c (Some (q, b, t)) in out ++ lex r st'). rewrite E, <- app_assoc. reflexivity.
Qed.
Lemma emit_digits b t : emit (Some (Digits, b, t)) = [t].
Proof. reflexivity. Qed.
Lemma emit_word b t : emit (Some (Word, b, t)) = [t].
Proof. reflexivity. Qed.
Lemma dot_digits b t r : lex (46%N :: r) (Some (Digits, b, t)) = lex r (Some (DigitsDot, b, t ++ [46%N])).
Proof. reflexivity. Qed.
Lemma dot_word b t r : lex (46%N :: r) (Some (Word, b, t)) = lex r (Some (WordDot, true, t ++ [46%N])).
Proof. reflexivity. Qed.
Lemma dot_word_dot b t r : lex (46%N :: r) (Some (WordDot, b, t)) = lex r (Some (WordDot, true, t ++ [46%N])).
Proof. reflexivity. Qed.

Section Tokens.
  Context (w y : str) (Lw : letters w) (Ww : 2 <= List.length w) (Dy : digits_only y) (Ny : y <> []).
  Let Nw : w <> [].
  Proof. intros ->. cbn in Ww. lia. Qed.
  (** the word and the year, from a separator [c1] after the token [t] *)
  Lemma tail_other c2 : In c2 (lit "-/ .") -> lex (w ++ c2 :: y) None = [w; [c2]; y].
  Proof.
    intros H. rewrite begin_word by assumption. apply sep_cases in H as [-> |H].
    - rewrite dot_word. rewrite <- (app_nil_r y) at 1. rewrite digits_after by (assumption || apply last_dot). cbn [lex]. rewrite <- app_assoc. cbn [app].
      apply emit2; auto using digits_dotless, letters_dotless.
    - rewrite sep_ends by auto. rewrite emit_word. cbn [app]. f_equal. f_equal. rewrite <- (app_nil_r y) at 1. rewrite begin_digits by assumption. reflexivity.
  Qed.
  Lemma tail_dot q b t c2 : In c2 (lit "-/ .") -> dotless t -> (q = DigitsDot \/ q = WordDot) -> lex (w ++ c2 :: y) (Some (q, b, t ++ [46%N])) = [t; [46%N]; w; [c2]; y].
  Proof.
    intros H Dt Hq. assert (E : forall r, lex (w ++ r) (Some (q, b, t ++ [46%N])) = lex r (Some (WordDot, true, (t ++ [46%N]) ++ w))).
    { intros r. destruct Hq as [-> | ->]; [apply word_after; auto using last_dot|apply run_word_dot; assumption]. }
    rewrite E. apply sep_cases in H as [-> |H].
    - rewrite dot_word_dot. rewrite <- (app_nil_r y) at 1. rewrite digits_after by (assumption || apply last_dot). cbn [lex]. rewrite <- !app_assoc. cbn [app].
      apply emit3; auto using digits_dotless, letters_dotless.
    - rewrite sep_ends by auto. rewrite <- app_assoc. cbn [app]. rewrite emit2 by auto using letters_dotless. cbn [app]. do 4 f_equal. rewrite <- (app_nil_r y) at 1. rewrite begin_digits by assumption. reflexivity.
  Qed.
  Context (d o : str) (Dd : digits_only d) (Nd : d <> []) (Lo : letters o) (Wo : o = [] \/ 2 <= List.length o).
  Lemma tokens_of c1 c2 : In c1 (lit "-/ .") -> In c2 (lit "-/ .") ->
    tokens (d ++ o ++ [c1] ++ w ++ [c2] ++ y) = d :: (match o with [] => [] | _ => [o] end) ++ [[c1]; w; [c2]; y].
  Proof.
    intros H1 H2. unfold tokens. rewrite begin_digits by assumption. cbn [app].
    destruct Wo as [-> |Wo'].
    - cbn [app]. apply sep_cases in H1 as [-> |H1].
      + rewrite dot_digits, tail_dot by auto using digits_dotless. reflexivity.
      + rewrite sep_ends by (assumption || discriminate). rewrite emit_digits, tail_other by assumption. reflexivity.
    - assert (No : o <> []) by (intros ->; cbn in Wo'; lia). rewrite word_stops by assumption.
      replace (match o with [] => [] | _ => [o] end) with [o] by (destruct o; congruence). cbn [app]. f_equal.
      apply sep_cases in H1 as [-> |H1].
      + rewrite dot_word, tail_dot by auto using letters_dotless. reflexivity.
      + rewrite sep_ends by auto. rewrite emit_word, tail_other by assumption. reflexivity.
  Qed.
End Tokens.

(** ** parts *)
Lemma month_letters w m : month_of w = Some m -> letters w /\ 3 <= List.length w <= 10 /\ jump w = false /\ special w = false.
Proof.
  intros H. apply month_iff in H.
  assert (Lw : forall t : str, Forall (fun c => is_lower c = true) t -> lower w = t -> letters w).
  { intros t Ht E. subst t. unfold lower in Ht. apply Forall_map in Ht. revert Ht. apply Forall_impl. intros c. unfold to_lower, is_alpha, is_lower, is_upper. destruct ((65 <=? c)%N && (c <=? 90)%N) eqn:Ec; lia. }
  assert (G : forall t : str, lower w = t -> forallb is_lower t && (3 <=? List.length t) && (List.length t <=? 10) && negb (smem t jumps) && negb (smem t special_words) = true ->
    letters w /\ 3 <= List.length w <= 10 /\ jump w = false /\ special w = false).
  { intros t E. rewrite !Bool.andb_true_iff, !Bool.negb_true_iff. intros ((((A & B) & C) & D) & F). apply forallb_forall in A || idtac.
    assert (Ln : List.length w = List.length t) by (subst t; unfold lower; rewrite map_length; reflexivity).
    split; [apply (Lw t); [apply Forall_forall; rewrite forallb_forall in A; exact A || (rewrite <- forallb_forall; exact A)|exact E]|]. unfold jump, special. rewrite E. repeat split; try assumption; lia. }
  destruct H as [n H|n t H E|E].
  - apply (G _ eq_refl). do 12 (destruct n as [|n]; [injection H as <-; reflexivity|]). destruct n; discriminate.
  - apply (G _ E). do 12 (destruct n as [|n]; [injection H as <-; reflexivity|]). destruct n; discriminate.
  - apply (G _ E). reflexivity.
Qed.
Lemma suffix_facts o : In (lower o) [lit "st"; lit "nd"; lit "rd"; lit "th"; []] -> letters o /\ (o = [] \/ 2 <= List.length o /\ jump o = true /\ dash_like o = false /\ special o = false).
Proof.
  assert (Lo : forall t : str, forallb is_lower t = true -> lower o = t -> letters o).
  { intros t Ht E. subst t. rewrite forallb_forall in Ht. apply Forall_forall. intros c Hc. specialize (Ht (to_lower c) (in_map to_lower o c Hc)). revert Ht.
    unfold to_lower, is_alpha, is_lower, is_upper. destruct ((65 <=? c)%N && (c <=? 90)%N) eqn:Ec; lia. }
  assert (G : forall t : str, lower o = t -> forallb is_lower t && (2 <=? List.length t) && smem t jumps && negb (smem t special_words) = true ->
    letters o /\ (o = [] \/ 2 <= List.length o /\ jump o = true /\ dash_like o = false /\ special o = false)).
  { intros t E. rewrite !Bool.andb_true_iff, !Bool.negb_true_iff. intros (((A & B) & C) & D).
    assert (Ln : List.length o = List.length t) by (subst t; unfold lower; rewrite map_length; reflexivity).
    split; [apply (Lo t A E)|]. right. unfold jump, special. rewrite E. repeat split; try assumption; [lia|].
    unfold dash_like. destruct (smem o _) eqn:Es; [|reflexivity]. apply smem_In in Es. cbn [In] in Es. destruct Es as [Es|[Es|[Es|[]]]]; subst o; cbn in Ln; lia. }
  intros [E|[E|[E|[E|[E|[]]]]]]; symmetry in E; try (apply (G _ E); reflexivity).
  assert (o = []) by (destruct o; [reflexivity|discriminate]). subst o. split; [constructor|left; reflexivity].
Qed.
Lemma digits_special p : digits_only p -> p <> [] -> special p = false /\ month_of p = None.
Proof.
  intros P Ne. destruct P as [|x p Hx P]; [congruence|]. assert (Hl : exists r, lower (x :: p) = x :: r).
  { exists (lower p). cbn. f_equal. unfold to_lower, is_upper. unfold is_digit in Hx. replace ((65 <=? x)%N && (x <=? 90)%N) with false by lia. reflexivity. }
  destruct Hl as [r E]. unfold special, month_of. rewrite E. split.
  - destruct (smem (x :: r) special_words) eqn:Es; [|reflexivity]. exfalso. apply smem_In in Es.
    assert (A : forallb (fun t => match t with c :: _ => negb (is_digit c) | [] => true end) special_words = true) by reflexivity.
    rewrite forallb_forall in A. specialize (A _ Es). cbn in A. rewrite Hx in A. discriminate.
  - assert (G : forall l n, forallb (forallb (fun t => match t with c :: _ => negb (is_digit c) | [] => true end)) l = true -> month_at (x :: r) n l = None).
    { induction l as [|ws l IH]; intros n; cbn [forallb month_at]; [reflexivity|]. rewrite Bool.andb_true_iff. intros [A B].
      destruct (smem (x :: r) ws) eqn:Es; [|apply IH, B]. exfalso. apply smem_In in Es. rewrite forallb_forall in A. specialize (A _ Es). cbn in A. rewrite Hx in A. discriminate. }
    apply G. reflexivity.
Qed.

Section Parse.
  Context (d w y o : str) (m : Z).
  Context (Nd : number 1 2 d) (Ny : number 4 4 y) (Hy : (100 < dec y)%Z) (Hw : month_of w = Some m) (Ho : In (lower o) [lit "st"; lit "nd"; lit "rd"; lit "th"; []]).
  Definition the_parts : outcome := Told (mk_ymd [dec d; m; dec y] true (Some 2), Some 1).
  Let Id : is_int d = true. Proof. apply (number_int 1 2); [lia|exact Nd]. Qed.
  Let Iy : is_int y = true. Proof. apply (number_int 4 4); [lia|exact Ny]. Qed.
  Let Ld : (4 <? List.length d) = false. Proof. destruct Nd. lia. Qed.
  Let Ly : (4 <? List.length y) = false. Proof. destruct Ny. lia. Qed.
  Let Mw := month_letters w m Hw.
  Let Iw : is_int w = false.
  Proof. destruct Mw as (L & B & _). destruct L as [|x l Hx L]; [cbn in B; lia|]. cbn. rewrite (alpha_digit x Hx). reflexivity. Qed.
  Let Fw : match w with c :: _ => is_digit c | [] => true end = false.
  Proof. destruct Mw as (L & B & _). destruct L as [|x l Hx L]; [cbn in B; lia|]. exact (alpha_digit x Hx). Qed.
  Let My : month_of y = None.
  Proof. apply digits_special; [apply Ny|]. intros ->. destruct Ny as [_ L]. cbn in L. lia. Qed.
  Let At v mi : append_text d (v, mi) = Some (mk_ymd (ymd_values v ++ [dec d]) (ymd_century v) (ymd_year v), mi).
  Proof. unfold append_text. rewrite Id. unfold ymd_append. cbn [fst snd]. replace (2 <? List.length d) with false by (destruct Nd; lia). reflexivity. Qed.
  Let An v mi : append_number d (v, mi) = Some (mk_ymd (ymd_values v ++ [dec d]) (ymd_century v) (ymd_year v), mi).
  Proof. unfold append_number. cbn [fst snd]. pose proof (two_digits d Nd). replace (100 <? dec d)%Z with false by lia. reflexivity. Qed.
  Let Yt l c mi : append_text y (mk_ymd l c None, mi) = Some (mk_ymd (l ++ [dec y]) true (Some (List.length l)), mi).
  Proof. unfold append_text. rewrite Iy. unfold ymd_append. cbn [fst snd]. replace (2 <? List.length y) with true by (destruct Ny; lia). reflexivity. Qed.
  Let Yn l c mi : append_number y (mk_ymd l c None, mi) = Some (mk_ymd (l ++ [dec y]) true (Some (List.length l)), mi).
  Proof. unfold append_number. cbn [fst snd]. replace (100 <? dec y)%Z with true by lia. reflexivity. Qed.
  (** the year alone *)
  Let Last f l c mi : List.length l <> 3 -> parse_tokens (S (S f)) [y] (mk_ymd l c None, mi) = Told (mk_ymd (l ++ [dec y]) true (Some (List.length l)), mi).
  Proof. intros L. cbn [parse_tokens]. rewrite Iy, Ly. cbn [fst ymd_values]. replace (List.length l =? 3) with false by lia. cbn [orb]. rewrite Yn. reflexivity. Qed.
  Let Sep f c r st : In c (lit "-/ .") -> parse_tokens (S f) ([c] :: r) st = parse_tokens f r st.
  Proof. intros H. vm_compute in H. destruct H as [<- |[<- |[<- |[<- |[]]]]]; reflexivity. Qed.
  Let Month f c2 : In c2 (lit "-/ .") -> parse_tokens (S (S (S (S f)))) [w; [c2]; y] (mk_ymd [dec d] false None, None) = the_parts.
  Proof.
    intros H. cbn [parse_tokens]. rewrite Iw, Fw, Hw. unfold append_month. cbn [fst snd ymd_values ymd_century ymd_year List.length].
    destruct (smem [c2] [lit "-"; lit "/"]) eqn:E.
    - rewrite Yt. reflexivity.
    - change (parse_tokens (S (S (S f))) [[c2]; y] (mk_ymd ([dec d] ++ [m]) false None, Some 1) = the_parts). rewrite Sep, Last by (assumption || cbn; lia). reflexivity.
  Qed.
  Lemma parse_parts c1 c2 : In c1 (lit "-/ .") -> In c2 (lit "-/ .") -> forall f,
    parse_tokens (S (S (S (S (S (S (S f))))))) (d :: (match o with [] => [] | _ => [o] end) ++ [[c1]; w; [c2]; y]) (ymd_nil, None) = the_parts.
  Proof.
    intros H1 H2 f. destruct Mw as (_ & _ & Jw & _). destruct (suffix_facts o Ho) as [_ [-> |(_ & Jo & Do & _)]].
    - cbn [app]. cbn [parse_tokens]. rewrite Id, Ld. cbn [fst ymd_values ymd_nil List.length Nat.eqb orb]. destruct (dash_like [c1]) eqn:E.
      + rewrite At. rewrite Jw, Iw, Hw. unfold append_month at 1. cbn [fst snd ymd_values ymd_century ymd_year ymd_nil List.length app]. destruct (str_eqb [c2] [c1]).
        * rewrite My. rewrite Yt. reflexivity.
        * change (parse_tokens (S (S (S (S (S (S f)))))) [[c2]; y] (mk_ymd [dec d; m] false None, Some 1) = the_parts). rewrite Sep, Last by (assumption || cbn; lia). reflexivity.
      + replace (jump [c1]) with true by (vm_compute in H1; destruct H1 as [<- |[<- |[<- |[<- |[]]]]]; reflexivity).
        unfold ymd_nil. rewrite An. cbn [ymd_values ymd_century ymd_year app]. exact (Month (S (S f)) c2 H2).
    - replace (match o with [] => [] | _ => [o] end) with [o] by (destruct o; [discriminate|reflexivity]). cbn [app].
      assert (E : parse_tokens (S (S (S (S (S (S (S f))))))) [d; o; [c1]; w; [c2]; y] (ymd_nil, None) = parse_tokens (S (S (S (S (S (S f)))))) [[c1]; w; [c2]; y] (mk_ymd [dec d] false None, None)).
      { cbn [parse_tokens]. rewrite Id, Ld. cbn [fst ymd_values ymd_nil List.length Nat.eqb orb]. rewrite Do, Jo. unfold ymd_nil. rewrite An. reflexivity. }
      rewrite E, Sep by assumption. exact (Month (S f) c2 H2).
  Qed.
End Parse.

(** ** the search *)
Section Only.
  Context (s : str) (a b : nat) (Only : only_date s a b) (d o w y : str) (c1 c2 : char).
  Context (E : slice a b s = d ++ o ++ [c1] ++ w ++ [c2] ++ y) (Ho : In (lower o) [lit "st"; lit "nd"; lit "rd"; lit "th"; []]).
  Context (C1 : In c1 (lit "-/ .")) (C2 : In c2 (lit "-/ .")) (Nd : number 1 2 d) (Ny : number 4 4 y) (Lw : letters w) (Ww : 3 <= List.length w <= 10).
  Lemma many_others : 5 <= nd (slice a b s).
  Proof.
    rewrite E, !nd_app, (alpha_nondigit w Lw). unfold nd at 3 4. cbn [filter]. rewrite (bis_nodigit c1), (bis_nodigit c2) by (apply plain_bis; assumption). cbn [negb List.length]. lia.
  Qed.
  Lemma month_found r n : In (r, n) date_regexps -> search s r 0 = None \/ finds s a b r n [slice a b s].
  Proof.
    intros Hin. pose proof (In_regexps4 r n Hin) as H. destruct (search s r 0) as [[[i j] c]|] eqn:Es; [|left; reflexivity]. right.
    pose proof many_others as Many.
    destruct H as [(k & -> & -> & Hk)|[[-> ->]|[-> H]]].
    - exfalso. destruct (only_compact s a b Only k i j c Hin Es) as (_ & _ & N & _). apply nd_digits in N. lia.
    - destruct (only_place s a b Only month_re 1 i j c Hin Es) as [Hg HM]. exists i, j, c. split; [exact Es|]. split; [exact Hg|].
      apply month_inv in HM as (a' & b' & Hg' & Hm & _). rewrite Hg in Hg'. injection Hg' as <- <-. exact Hm.
    - exfalso. assert (G : forall m1 n1 f m2 n2 g m3 n3, m1 <= n1 -> m2 <= n2 -> m3 <= n3 -> r = numeric_re m1 n1 f m2 n2 g m3 n3 -> False).
      { intros m1 n1 f m2 n2 g m3 n3 L1 L2 L3 ->.
        destruct (only_numeric s a b Only m1 n1 f m2 n2 g m3 n3 i j c Hin L1 L2 L3 Es) as (q1 & d1 & q2 & d2 & q3 & _ & _ & E' & [N1 _] & [N2 _] & [N3 _] & _ & _).
        rewrite E', !nd_app, (proj1 (nd_digits q1) N1), (proj1 (nd_digits q2) N2), (proj1 (nd_digits q3) N3) in Many. unfold nd in Many. cbn [filter] in Many. destruct (is_digit d1), (is_digit d2); cbn in Many; lia. }
      destruct H as [H|[H|[H|H]]]; (eapply G; [| | |exact H]; lia).
  Qed.
  Lemma month_exists : search s month_re 0 <> None.
  Proof.
    intros En. destruct Only as (Lb & [Da Db] & _). destruct Nd as [Pd Wd], Ny as [Py Wy].
    pose proof (slice_len s a b ltac:(lia)) as Le. rewrite E in Le. rewrite !app_length in Le. cbn [List.length] in Le.
    remember (a + List.length d) as i1 eqn:D1. remember (i1 + List.length o) as i2 eqn:D2. remember (S i2 + List.length w) as i4 eqn:D4.
    assert (Eb : b = S i4 + List.length y) by lia.
    assert (Cut : forall u v q r, u <= v <= List.length s -> slice u v s = q ++ r -> slice u (u + List.length q) s = q /\ slice (u + List.length q) v s = r).
    { intros u v q r Lv Eq. pose proof (slice_len s u v ltac:(lia)) as Lq. rewrite Eq, app_length in Lq.
      rewrite (slice_app s u (u + List.length q) v) in Eq by lia. apply app_inj_len in Eq; [exact Eq|]. rewrite slice_len by lia. lia. }
    assert (One : forall u c, u < List.length s -> slice u (S u) s = [c] -> nth_error s u = Some c).
    { intros u c Lu Eu. pose proof (slice_nth u (S u) s 0) as Hn. rewrite Eu in Hn. destruct (Nat.ltb_spec 0 (S u - u)); [|lia]. rewrite Nat.add_0_r in Hn. symmetry. exact Hn. }
    apply Cut in E as [S1 E]; [|lia]. rewrite <- D1 in S1, E. apply Cut in E as [S2 E]; [|lia]. rewrite <- D2 in S2, E.
    apply Cut in E as [S3 E]; [|lia]. cbn [List.length] in S3, E. rewrite Nat.add_1_r in S3, E. apply One in S3; [|lia].
    apply Cut in E as [S4 E]; [|lia]. rewrite <- D4 in S4, E. apply Cut in E as [S5 S6]; [|lia]. cbn [List.length] in S5, S6. rewrite Nat.add_1_r in S5, S6. apply One in S5; [|lia].
    assert (Hpost : exists j, forall c, M s post b c j c).
    { destruct (nth_error s b) as [x|] eqn:Ex.
      - exists (S b). intros c. apply M_alt_r. apply M_chr with x; [exact Ex|]. rewrite (Db x eq_refl). reflexivity.
      - exists b. intros c. apply M_alt_l, M_eol. unfold at_eol. apply nth_error_None in Ex. replace (b =? List.length s) with true by lia. reflexivity. }
    destruct Hpost as [j Hpost].
    assert (Hpre : exists i, i <= List.length s /\ M s pre i [] a []).
    { destruct a as [|a'] eqn:Ea; [exists 0; split; [lia|apply M_alt_l, M_bol]|]. exists a'. split; [lia|]. apply M_alt_r.
      destruct (nth_error s a') as [x|] eqn:Ex; [|apply nth_error_None in Ex; lia]. apply M_chr with x; [exact Ex|].
      rewrite (Da x ltac:(lia)); [reflexivity|]. cbn. rewrite Nat.sub_0_r. exact Ex. }
    destruct Hpre as (i & Li & Hpre).
    assert (Hord : M s ordinal i1 [] i2 []).
    { assert (R : forall t, lower o = t -> M s (rlit t) i1 [] i2 []).
      { intros t Et. apply M_rlit; [lia|]. split; [reflexivity|]. rewrite S2. split; [|split; [lia|exact Et]]. subst t. unfold lower. rewrite map_length. lia. }
      unfold ordinal. destruct Ho as [H|[H|[H|[H|[H|[]]]]]]; symmetry in H; [do 4 apply M_alt_l|do 3 apply M_alt_l; apply M_alt_r|do 2 apply M_alt_l; apply M_alt_r|apply M_alt_l, M_alt_r|apply M_alt_r]; try (apply R; exact H).
      destruct o; [|discriminate]. cbn in D2. replace i2 with i1 by lia. constructor. }
    assert (All : forall (p : N -> bool) u v q, u <= v <= List.length s -> slice u v s = q -> Forall (fun c => p c = true) q -> all_in s p u v).
    { intros p u v q Lv <- F. apply all_in_forall; [lia|]. rewrite Forall_forall in F. exact F. }
    pose proof (search_spec s month_re 0) as Hs. rewrite En in Hs.
    eapply (Hs i j _ ltac:(lia)). unfold month_re.
    eapply M_seq; [exact Hpre|]. eapply M_seq; [|apply Hpost]. apply M_grp, M_grp.
    eapply M_seq; [apply M_range_iff; [lia|split; [reflexivity|split; [|apply (All _ _ i1 d); [lia|exact S1|exact Pd]]; lia]]|].
    eapply M_seq; [exact Hord|]. eapply M_seq; [apply M_chr with c1; [exact S3|apply dsep_of, C1]|].
    eapply M_seq; [apply M_range_iff; [lia|split; [reflexivity|split; [|apply (All _ _ i4 w); [lia|exact S4|exact Lw]]; lia]]|].
    eapply M_seq; [apply M_chr with c2; [exact S5|apply dsep_of, C2]|].
    apply M_range_iff; [lia|]. split; [reflexivity|]. split; [lia|]. apply (All _ _ b y); [lia|exact S6|exact Py].
  Qed.
End Only.

(** ** the text given to the parser *)
Lemma split_chars t : forall cur, (forall p, In p (split_dash t cur) -> digits_only p) -> Forall (fun c => is_digit c = true \/ c = 45%N) (cur ++ t).
Proof.
  induction t as [|c t IH]; intros cur H; cbn [split_dash] in H.
  - rewrite app_nil_r. eapply Forall_impl; [|apply H; left; reflexivity]. auto.
  - destruct (N.eqb_spec c 45) as [->|_].
    + apply Forall_app. split; [eapply Forall_impl; [|apply H; left; reflexivity]; auto|]. constructor; [auto|]. apply (IH []). intros p Hp. apply H. right. exact Hp.
    + replace (cur ++ c :: t) with ((cur ++ [c]) ++ t) by (rewrite <- app_assoc; reflexivity). apply IH, H.
Qed.
Lemma int_digits p : is_int p = true -> digits_only p.
Proof. destruct p; [discriminate|]. cbn [is_int]. rewrite forallb_forall. intros H. apply Forall_forall. exact H. Qed.
Lemma letter_no_ymd t c : In c t -> is_alpha c = true -> ymd_of t = None.
Proof.
  intros Hc Ha. pose proof (split_chars t []) as H. cbn [app] in H.
  assert (No : ~ (forall p, In p (split_dash t []) -> digits_only p)).
  { intros A. specialize (H A). rewrite Forall_forall in H. destruct (H c Hc) as [D| ->]; [rewrite (alpha_digit c Ha) in D; discriminate|discriminate]. }
  unfold ymd_of. destruct (split_dash t []) as [|p [|q [|r [|? ?]]]]; try reflexivity.
  - destruct (is_int p) eqn:E; [|reflexivity]. exfalso. apply No. intros x [<-|[]]. apply int_digits, E.
  - destruct (is_int p) eqn:E1; [|reflexivity]. destruct (is_int q) eqn:E2; [|reflexivity]. destruct (is_int r) eqn:E3; [|reflexivity].
    exfalso. apply No. intros x [<-|[<-|[<-|[]]]]; apply int_digits; assumption.
Qed.

Section Text.
  Context (now : Z) (rest : str -> bool -> bool -> option (Z * Z * Z)) (d o w y : str) (c1 c2 : char).
  Context (Ho : In (lower o) [lit "st"; lit "nd"; lit "rd"; lit "th"; []]) (C1 : In c1 (lit "-/ .")) (C2 : In c2 (lit "-/ .")).
  Context (Nd : number 1 2 d) (Ny : number 4 4 y) (Lw : letters w) (Ww : 3 <= List.length w <= 10).
  Let text := d ++ o ++ [c1] ++ w ++ [c2] ++ y.
  Lemma dateutil_month f g : dateutil_parse now (month_parse now rest) text f g = month_parse now rest text f g.
  Proof.
    assert (X : exists x, In x w /\ is_alpha x = true) by (destruct Lw as [|x l Hx L]; [cbn in Ww; lia|exists x; split; [left; reflexivity|exact Hx]]).
    destruct X as (x & Hx & Ax). unfold dateutil_parse. rewrite (letter_no_ymd text x); [reflexivity| |exact Ax].
    unfold text. apply in_or_app. right. apply in_or_app. right. apply in_or_app. right. apply in_or_app. left. exact Hx.
  Qed.
  Lemma text_tokens : tokens text = d :: (match o with [] => [] | _ => [o] end) ++ [[c1]; w; [c2]; y].
  Proof.
    destruct (suffix_facts o Ho) as [Lo Wo]. unfold text.
    apply tokens_of; try assumption; [lia|apply Ny|intros ->; destruct Ny as [_ L]; cbn in L; lia|apply Nd|intros ->; destruct Nd as [_ L]; cbn in L; lia|].
    destruct Wo as [Wo|[Wo _]]; auto.
  Qed.
  Lemma sep_special c : In c (lit "-/ .") -> special [c] = false.
  Proof. intros H. vm_compute in H. destruct H as [<- |[<- |[<- |[<- |[]]]]]; reflexivity. Qed.
  Lemma no_special : special w = false -> existsb special (tokens text) = false.
  Proof.
    intros Hw. rewrite text_tokens. cbn [existsb]. rewrite (proj1 (digits_special d (proj1 Nd) ltac:(intros ->; destruct Nd as [_ L]; cbn in L; lia))). cbn [orb].
    rewrite existsb_app. cbn [existsb]. rewrite !sep_special, Hw by assumption. rewrite (proj1 (digits_special y (proj1 Ny) ltac:(intros ->; destruct Ny as [_ L]; cbn in L; lia))). cbn [orb]. rewrite Bool.orb_false_r.
    destruct (suffix_facts o Ho) as [_ [-> |(Wo & _ & _ & So)]]; [reflexivity|]. destruct o; [cbn in Wo; lia|]. cbn [existsb]. rewrite So. reflexivity.
  Qed.
  Lemma month_read m f g : month_of w = Some m -> (100 < dec y)%Z -> check_date (dec y) m (dec d) = true -> month_parse now rest text f g = Some (dec y, m, dec d).
  Proof.
    intros Hw Hy Hc. destruct (month_letters w m Hw) as (_ & _ & _ & Sw).
    unfold month_parse. rewrite (no_special Sw), text_tokens.
    assert (P : exists k, parse_tokens (S (S (List.length (d :: (match o with [] => [] | _ => [o] end) ++ [[c1]; w; [c2]; y])))) (d :: (match o with [] => [] | _ => [o] end) ++ [[c1]; w; [c2]; y]) (ymd_nil, None) = the_parts d y m /\ k = 0).
    { exists 0. split; [|reflexivity]. destruct o as [|x o'] eqn:Eo.
      - exact (parse_parts d w y [] m Nd Ny Hy Hw Ho c1 c2 C1 C2 0).
      - exact (parse_parts d w y (x :: o') m Nd Ny Hy Hw Ho c1 c2 C1 C2 1). }
    destruct P as (k & P & _). rewrite P. unfold the_parts. cbn [fst ymd_values List.length Nat.ltb Nat.leb]. unfold resolve_month. cbn [fst snd ymd_values ymd_year ymd_century nth Nat.sub].
    rewrite century_year, Hc. reflexivity.
  Qed.
  Lemma month_refused m f g : month_of w = Some m -> (100 < dec y)%Z -> check_date (dec y) m (dec d) = false -> month_parse now rest text f g = None.
  Proof.
    intros Hw Hy Hc. destruct (month_letters w m Hw) as (_ & _ & _ & Sw).
    unfold month_parse. rewrite (no_special Sw), text_tokens.
    assert (P : exists k, parse_tokens (S (S (List.length (d :: (match o with [] => [] | _ => [o] end) ++ [[c1]; w; [c2]; y])))) (d :: (match o with [] => [] | _ => [o] end) ++ [[c1]; w; [c2]; y]) (ymd_nil, None) = the_parts d y m /\ k = 0).
    { exists 0. split; [|reflexivity]. destruct o as [|x o'] eqn:Eo.
      - exact (parse_parts d w y [] m Nd Ny Hy Hw Ho c1 c2 C1 C2 0).
      - exact (parse_parts d w y (x :: o') m Nd Ny Hy Hw Ho c1 c2 C1 C2 1). }
    destruct P as (k & P & _). rewrite P. unfold the_parts. cbn [fst ymd_values List.length Nat.ltb Nat.leb]. unfold resolve_month. cbn [fst snd ymd_values ymd_year ymd_century nth Nat.sub].
    rewrite century_year, Hc. reflexivity.
  Qed.
  (** a word that is not a month *)
  Lemma word_refused f g : month_of w = None -> jump w = false -> special w = false -> month_parse now rest text f g = None.
  Proof.
    intros Hm Hj Sw. unfold month_parse. rewrite (no_special Sw), text_tokens.
    assert (Id : is_int d = true) by (apply (number_int 1 2); [lia|exact Nd]).
    assert (Ld : (4 <? List.length d) = false) by (destruct Nd; lia).
    assert (Iw : is_int w = false /\ match w with c :: _ => is_digit c | [] => true end = false).
    { destruct Lw as [|x l Hx L]; [cbn in Ww; lia|]. pose proof (alpha_digit x Hx). split; [cbn; rewrite H; reflexivity|assumption]. }
    destruct Iw as [Iw Fw].
    assert (At : forall v mi, append_text d (v, mi) = Some (mk_ymd (ymd_values v ++ [dec d]) (ymd_century v) (ymd_year v), mi)).
    { intros v mi. unfold append_text. rewrite Id. unfold ymd_append. cbn [fst snd]. replace (2 <? List.length d) with false by (destruct Nd; lia). reflexivity. }
    assert (An : forall v mi, append_number d (v, mi) = Some (mk_ymd (ymd_values v ++ [dec d]) (ymd_century v) (ymd_year v), mi)).
    { intros v mi. unfold append_number. cbn [fst snd]. pose proof (two_digits d Nd). replace (100 <? dec d)%Z with false by lia. reflexivity. }
    assert (Wd : forall k l st, parse_tokens (S k) (w :: l) st = Refused) by (intros k l st; cbn [parse_tokens]; rewrite Iw, Fw, Hm, Hj; reflexivity).
    enough (P : parse_tokens (S (S (List.length (d :: (match o with [] => [] | _ => [o] end) ++ [[c1]; w; [c2]; y])))) (d :: (match o with [] => [] | _ => [o] end) ++ [[c1]; w; [c2]; y]) (ymd_nil, None) = Refused) by (rewrite P; reflexivity).
    destruct (suffix_facts o Ho) as [_ [Eo |(Wo & Jo & Do & _)]].
    - rewrite Eo. cbn [app List.length]. cbn [parse_tokens]. rewrite Id, Ld. cbn [fst ymd_values ymd_nil List.length Nat.eqb orb]. destruct (dash_like [c1]) eqn:E.
      + rewrite At, Hj, Iw, Hm. reflexivity.
      + replace (jump [c1]) with true by (vm_compute in C1; destruct C1 as [<- |[<- |[<- |[<- |[]]]]]; reflexivity). unfold ymd_nil. rewrite An. rewrite Iw, Fw, Hm, Hj. reflexivity.
    - replace (match o with [] => [] | _ => [o] end) with [o] by (destruct o; [cbn in Wo; lia|reflexivity]). cbn [app List.length].
      assert (E : forall k, parse_tokens (S (S (S k))) [d; o; [c1]; w; [c2]; y] (ymd_nil, None) = parse_tokens (S (S k)) [[c1]; w; [c2]; y] (mk_ymd [dec d] false None, None)).
      { intros k. cbn [parse_tokens]. rewrite Id, Ld. cbn [fst ymd_values ymd_nil List.length Nat.eqb orb]. rewrite Do, Jo. unfold ymd_nil. rewrite An. reflexivity. }
      rewrite E. assert (Sep : forall k r st, parse_tokens (S k) ([c1] :: r) st = parse_tokens k r st) by (intros k r st; clear - C1; vm_compute in C1; destruct C1 as [<- |[<- |[<- |[<- |[]]]]]; reflexivity).
      rewrite Sep. apply Wd.
  Qed.
End Text.

(** * the property *)
Lemma name_word word m : month_name word m -> letters word /\ 3 <= List.length word <= 10.
Proof. intros H. apply month_iff, month_letters in H. tauto. Qed.
Lemma loop_refused D (year : D -> Z) parse s a b gs yf rs :
  (forall r n, In (r, n) rs -> search s r 0 = None \/ finds s a b r n gs) -> (forall opts, first_plausible year parse (concat_with (lit "-") gs) opts = None) ->
  forall df, date_loop year parse rs s yf df = None.
Proof.
  intros A F. induction rs as [|[r n] rest IH]; intros df; [reflexivity|]. cbn [date_loop].
  assert (IH' : forall df, date_loop year parse rest s yf df = None) by (apply IH; intros r1 n1 H1; apply A; right; exact H1).
  destruct (A r n (or_introl eq_refl)) as [En|(i & j & c & Es & Eg & Em)]; [rewrite En; apply IH'|]. rewrite Es, Eg, Em. rewrite F. apply IH'.
Qed.
Lemma one_text (u : str) : concat_with (lit "-") [u] = u.
Proof. cbn [concat_with flat_map]. apply app_nil_r. Qed.

(** C113: in "13th May 2012" the month is the one named, the day is the number before and the year the number after, whatever the options and the current year. *)
Theorem C113_found : forall now rest s a b day word year m year_first day_first,
  only_date s a b -> day_word_year s a b day word year -> month_name word m -> plausible (decimal year) -> real_date (decimal year) m (decimal day) ->
  find_any_date now rest s year_first day_first = Some (a, b, (decimal year, m, decimal day)).
Proof.
  intros now rest s a b d w y m yf df Only (o & c1 & c2 & E & Ho & C1 & C2 & Nd & Ny) Hm Pl Re.
  destruct (name_word w m Hm) as [Lw Ww]. apply month_iff in Hm. rewrite <- !dec_decimal in *.
  unfold find_any_date, find_date, search_date. apply loop_found with (gs := [slice a b s]).
  - intros r n Hr. apply (month_found s a b Only d o w y c1 c2 E C1 C2 Lw Ww r n Hr).
  - exists month_re, 1. split; [unfold date_regexps; cbn [In]; auto 10|]. apply (month_exists s a b Only d o w y c1 c2 E Ho C1 C2 Nd Ny Lw Ww).
  - rewrite one_text. assert (O : exists f g opts, orders yf (day_first_for yf df [slice a b s]) = (f, g) :: opts).
    { unfold orders. destruct (day_first_for yf df [slice a b s]), yf; do 3 eexists; reflexivity. }
    destruct O as (f & g & opts & ->). cbn [first_plausible]. rewrite E, dateutil_month by assumption.
    rewrite (month_read now rest d o w y c1 c2 Ho C1 C2 Nd Ny Lw Ww m f g Hm); [|unfold plausible in Pl; lia|apply real_iff, Re].
    cbn [date_year fst]. rewrite (proj2 (valid_plausible _) Pl). reflexivity.
Qed.
Print Assumptions C113_found.

(** C113: a date that does not exist, or with a year before 1920 or after 2029, is not a date. The limit, below: a year under 101. *)
Theorem C113_refused : forall now rest s a b day word year m year_first day_first,
  only_date s a b -> day_word_year s a b day word year -> month_name word m -> (100 < decimal year)%Z -> ~ (plausible (decimal year) /\ real_date (decimal year) m (decimal day)) ->
  find_any_date now rest s year_first day_first = None.
Proof.
  intros now rest s a b d w y m yf df Only (o & c1 & c2 & E & Ho & C1 & C2 & Nd & Ny) Hm Hy No.
  destruct (name_word w m Hm) as [Lw Ww]. apply month_iff in Hm. rewrite <- !dec_decimal in *.
  unfold find_any_date, find_date, search_date. apply loop_refused with (a := a) (b := b) (gs := [slice a b s]).
  - intros r n Hr. apply (month_found s a b Only d o w y c1 c2 E C1 C2 Lw Ww r n Hr).
  - rewrite one_text. induction opts as [|[f g] opts IH]; [reflexivity|]. cbn [first_plausible]. rewrite IH. rewrite E, dateutil_month by assumption.
    destruct (month_parse now rest _ f g) as [r|] eqn:Er; [|reflexivity]. destruct (valid_year (date_year r)) eqn:Ev; [|reflexivity]. exfalso. apply No.
    destruct (check_date (dec y) m (dec d)) eqn:Ec.
    + rewrite (month_read now rest d o w y c1 c2 Ho C1 C2 Nd Ny Lw Ww m f g Hm Hy Ec) in Er. injection Er as <-. split; [apply valid_plausible, Ev|apply real_iff, Ec].
    + rewrite (month_refused now rest d o w y c1 c2 Ho C1 C2 Nd Ny Lw Ww m f g Hm Hy Ec) in Er. discriminate.
Qed.
Print Assumptions C113_refused.

(** the words that are not the name of a month, but that dateutil knows, or that it skips *)
Definition dateutil_words : list str :=
  map lit ["mon"; "monday"; "tue"; "tuesday"; "wed"; "wednesday"; "thu"; "thursday"; "fri"; "friday"; "sat"; "saturday"; "sun"; "sunday";
    "hour"; "hours"; "minute"; "minutes"; "second"; "seconds"; "utc"; "gmt"; "and"]%string.
(** C113: a word that is not the name of a month makes no date. *)
Theorem C113_other_word : forall now rest s a b day word year year_first day_first,
  only_date s a b -> day_word_year s a b day word year -> letters word -> 3 <= List.length word <= 10 -> (forall m, ~ month_name word m) -> ~ In (lower word) dateutil_words ->
  find_any_date now rest s year_first day_first = None.
Proof.
  intros now rest s a b d w y yf df Only (o & c1 & c2 & E & Ho & C1 & C2 & Nd & Ny) Lw Ww No Nw.
  assert (Hm : month_of w = None) by (destruct (month_of w) as [m|] eqn:Em; [apply month_iff in Em; destruct (No m Em)|reflexivity]).
  assert (Ln : List.length (lower w) = List.length w) by (unfold lower; apply map_length).
  assert (Hj : jump w = false).
  { unfold jump. destruct (smem (lower w) jumps) eqn:Ej; [|reflexivity]. exfalso. apply smem_In in Ej. apply Nw. revert Ej Ln. generalize (lower w). intros t Ht Ln.
    unfold jumps in Ht. cbn [map In] in Ht. repeat (destruct Ht as [Ht|Ht]; [subst t; first [cbn in Ln; lia|vm_compute; tauto]|]). destruct Ht. }
  assert (Hs : special w = false).
  { unfold special. destruct (smem (lower w) special_words) eqn:Ej; [|reflexivity]. exfalso. apply smem_In in Ej. apply Nw. revert Ej Ln. generalize (lower w). intros t Ht Ln.
    unfold special_words in Ht. cbn [map In] in Ht. repeat (destruct Ht as [Ht|Ht]; [subst t; first [cbn in Ln; lia|vm_compute; tauto]|]). destruct Ht. }
  unfold find_any_date, find_date, search_date. apply loop_refused with (a := a) (b := b) (gs := [slice a b s]).
  - intros r n Hr. apply (month_found s a b Only d o w y c1 c2 E C1 C2 Lw Ww r n Hr).
  - rewrite one_text. induction opts as [|[f g] opts IH]; [reflexivity|]. cbn [first_plausible]. rewrite IH. rewrite E, dateutil_month by assumption.
    rewrite (word_refused now rest d o w y c1 c2 Ho C1 C2 Nd Ny Lw Ww f g Hm Hj Hs). reflexivity.
Qed.
Print Assumptions C113_other_word.

(** C113: when a name has no other digit than those of the day and of the year, this is its only date. *)
Theorem C113_unique : forall s a b day word year,
  a < b <= List.length s -> no_other_digit s a b -> day_word_year s a b day word year -> letters word -> 3 <= List.length word <= 10 -> only_date s a b.
Proof.
  intros s a b d w y Lb No (o & c1 & c2 & E & Ho & C1 & C2 & [Pd Wd] & [Py Wy]) Lw Ww.
  assert (De : detached s a b).
  { split; [intros c La Hc|intros c Hc]; destruct (is_digit c) eqn:Ed; try reflexivity; pose proof (No _ _ Hc Ed); lia. }
  split; [exact Lb|]. split; [exact De|]. intros a' b' t L' [Da Db] Ht. destruct (date_shape _ _ Ht) as (Hh & Hl & Hn).
  destruct (inside_digits s a b a' b' No L' Hh Hl) as [La Lb'].
  destruct (suffix_facts o Ho) as [Lo _].
  pose proof (slice_len s a b ltac:(lia)) as Le. 
  remember (o ++ [c1] ++ w ++ [c2]) as mid eqn:Em.
  assert (Nm : Forall (fun c => is_digit c = false) mid).
  { subst mid. repeat (apply Forall_app; split); try (eapply Forall_impl; [|eassumption]; intros c; apply alpha_digit); constructor; try constructor; apply bis_nodigit, plain_bis; assumption. }
  assert (Lm : 5 <= List.length mid) by (subst mid; rewrite !app_length; cbn; lia).
  assert (E' : slice a b s = d ++ mid ++ y) by (rewrite E; subst mid; rewrite <- !app_assoc; reflexivity). clear E Em.
  rewrite E', !app_length in Le.
  assert (At : forall k, k < b - a -> nth_error s (a + k) = nth_error (d ++ mid ++ y) k) by (intros k Hk; rewrite <- E', slice_nth; destruct (Nat.ltb_spec k (b - a)); [reflexivity|lia]).
  assert (Mid : forall k, a + List.length d <= k < b - List.length y -> exists c, nth_error s k = Some c /\ is_digit c = false).
  { intros k Hk. replace k with (a + (k - a)) by lia. rewrite At by lia. rewrite nth_error_app2 by lia. rewrite nth_error_app1 by lia.
    destruct (nth_error mid (k - a - List.length d)) as [c|] eqn:Ec; [|apply nth_error_None in Ec; lia]. exists c. split; [reflexivity|]. rewrite Forall_forall in Nm. apply Nm. eapply nth_error_In; eassumption. }
  assert (Dig : forall k, a <= k < a + List.length d \/ b - List.length y <= k < b -> exists c, nth_error s k = Some c /\ is_digit c = true).
  { unfold digits_only in *. rewrite Forall_forall in Pd, Py. intros k [Hk|Hk]; replace k with (a + (k - a)) by lia; rewrite At by lia.
    - rewrite nth_error_app1 by lia. destruct (nth_error d (k - a)) as [c|] eqn:Ec; [|apply nth_error_None in Ec; lia]. exists c. split; [reflexivity|]. apply Pd. eapply nth_error_In; eassumption.
    - rewrite nth_error_app2 by lia. rewrite nth_error_app2 by lia. destruct (nth_error y (k - a - List.length d - List.length mid)) as [c|] eqn:Ec; [|apply nth_error_None in Ec; lia]. exists c. split; [reflexivity|]. apply Py. eapply nth_error_In; eassumption. }
  (** the first and the last characters are digits *)
  assert (First : exists c, nth_error s a' = Some c /\ is_digit c = true).
  { destruct Hh as (x & r & Ex & Hx). exists x. split; [|exact Hx]. pose proof (slice_nth a' b' s 0) as H. rewrite Ex in H. destruct (Nat.ltb_spec 0 (b' - a')); [|lia]. rewrite Nat.add_0_r in H. symmetry. exact H. }
  assert (Final : exists c, nth_error s (b' - 1) = Some c /\ is_digit c = true).
  { destruct Hl as (x & r & Ex & Hx). exists x. split; [|exact Hx]. pose proof (slice_len s a' b' ltac:(lia)) as Lq. rewrite Ex, app_length in Lq. cbn [List.length] in Lq.
    pose proof (slice_nth a' b' s (List.length r)) as H. rewrite Ex, nth_error_app2, Nat.sub_diag in H by lia. destruct (Nat.ltb_spec (List.length r) (b' - a')); [|lia]. replace (a' + List.length r) with (b' - 1) in H by lia. symmetry. exact H. }
  destruct First as (x & Ex & Hx). destruct Final as (z & Ez & Hz).
  assert (Fa : a' < a + List.length d \/ b - List.length y <= a').
  { destruct (Nat.lt_ge_cases a' (a + List.length d)); [auto|]. destruct (Nat.lt_ge_cases a' (b - List.length y)); [|auto]. exfalso. destruct (Mid a' ltac:(lia)) as (c & Ec & Hc). congruence. }
  assert (Fb : b' <= a + List.length d \/ b - List.length y < b').
  { destruct (Nat.le_gt_cases b' (a + List.length d)); [auto|]. destruct (Nat.le_gt_cases b' (b - List.length y)); [|auto]. exfalso. destruct (Mid (b' - 1) ltac:(lia)) as (c & Ec & Hc). congruence. }
  assert (Ends : (a' = a \/ a' = b - List.length y) /\ (b' = b \/ b' = a + List.length d)).
  { split.
    - destruct (Nat.eq_dec a' a); [auto|]. destruct (Nat.eq_dec a' (b - List.length y)); [auto|]. exfalso. destruct (Dig (a' - 1) ltac:(lia)) as (c & Ec & Hc). rewrite (Da c ltac:(lia) Ec) in Hc. discriminate.
    - destruct (Nat.eq_dec b' b); [auto|]. destruct (Nat.eq_dec b' (a + List.length d)); [auto|]. exfalso. destruct (Dig b' ltac:(lia)) as (c & Ec & Hc). rewrite (Db c Ec) in Hc. discriminate. }
  destruct Ends as [[-> | ->] [-> | ->]]; [auto| | |lia]; exfalso.
  - pose proof (slice_len s a (a + List.length d) ltac:(lia)) as L2.
    assert (N0 : nd (slice a (a + List.length d) s) = 0).
    { apply nd_digits. rewrite (slice_app s a (a + List.length d) b) in E' by lia. apply app_inj_len in E' as [-> _]; [exact Pd|]. rewrite L2. lia. }
    destruct Hn as [[_ H6]|[H2|H5]]; lia.
  - pose proof (slice_len s (b - List.length y) b ltac:(lia)) as L2.
    assert (N0 : nd (slice (b - List.length y) b s) = 0).
    { apply nd_digits. rewrite (slice_app s a (b - List.length y) b), app_assoc in E' by lia. apply app_inj_len in E' as [_ ->]; [exact Py|]. rewrite slice_len, app_length by lia. lia. }
    destruct Hn as [[_ H6]|[H2|H5]]; lia.
Qed.
Print Assumptions C113_unique.

(** C113: it is shown between separators, as yyyy-mm-dd, and only there. *)
Theorem C113_shown : forall now rest s a b day word year m year_first day_first x,
  only_date s a b -> day_word_year s a b day word year -> month_name word m -> plausible (decimal year) -> real_date (decimal year) m (decimal day) ->
  In x (date_matches now (month_parse now rest) s year_first day_first) <-> alone s a b /\ x = simple a b (lit "date") (MvObj (isoformat (decimal year, m, decimal day))) [].
Proof.
  intros now rest s a b d w y m yf df x Only W Hm Pl Re. pose proof (C113_found now rest s a b d w y m yf df Only W Hm Pl Re) as F. unfold find_any_date in F.
  rewrite C107_shown, F. split.
  - intros (a' & b' & r & Er & A & ->). injection Er as <- <- <-. auto.
  - intros [A ->]. do 3 eexists. split; [reflexivity|]. auto.
Qed.
Print Assumptions C113_shown.

(** ** concrete cases *)
Definition dated_show := lit "A.Show.13th.May.2012-GRP".
Lemma dated_show_ok : only_date dated_show 7 20 /\ day_word_year dated_show 7 20 (lit "13") (lit "May") (lit "2012") /\ month_name (lit "May") 5.
Proof.
  assert (W : day_word_year dated_show 7 20 (lit "13") (lit "May") (lit "2012")).
  { exists (lit "th"), 46%N, 46%N. split; [reflexivity|]. split; [cbn; tauto|]. split; [vm_compute; tauto|]. split; [vm_compute; tauto|]. split; digits_here. }
  split; [|split; [exact W|]].
  - apply (C113_unique dated_show 7 20 _ _ _ ltac:(vm_compute; lia) ltac:(apply no_other_check; vm_compute; reflexivity) W); [repeat constructor|split; vm_compute; lia].
  - apply (whole_name (lit "May") 4). reflexivity.
Qed.
Example C113_found_ex : find_any_date 2026 nothing_else dated_show (Some true) (Some false) = Some (7, 20, (2012, 5, 13)%Z).
Proof.
  destruct dated_show_ok as (O & W & Mn).
  apply (C113_found 2026 nothing_else dated_show 7 20 (lit "13") (lit "May") (lit "2012") 5 (Some true) (Some false) O W Mn); [unfold plausible; cbn; lia|].
  split; [cbn; lia|]. exists 31%Z. split; [apply days31; cbn; tauto|cbn; lia].
Qed.
Example C113_others_ex : find_any_date 2026 nothing_else (lit "Show 30 feb 2012") None None = None /\ find_any_date 2026 nothing_else (lit "Show 5 part 2012") None None = None /\
  find_any_date 2026 nothing_else (lit "Show 5 May 1912") None None = None /\
  date_matches 2026 (month_parse 2026 nothing_else) (lit "5-Sept-2012") None None = [simple 0 11 (lit "date") (MvObj (lit "2012-09-05")) []].
Proof. repeat split; vm_compute; reflexivity. Qed.
(** C113, limit: a year under 101 is taken for a short one when a space is before it, but not when the same separator is on both sides: "13 May 0012" is in 2012. *)
Theorem C113_limit : find_any_date 2026 nothing_else (lit "13 May 0012") None None = Some (0, 11, (2012, 5, 13)%Z) /\ find_any_date 2026 nothing_else (lit "13-May-0012") None None = None.
Proof. split; vm_compute; reflexivity. Qed.
Print Assumptions C113_limit.
