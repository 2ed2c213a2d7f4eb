(** Which texts count as whole numbers, and which roman numerals are accepted (C76). *)
From Verif Require Import Py PyFacts Text FormattersProofs Rebulk Title EpisodeRules EpisodeRulesProps CommandLineProps TechnicalProps.
From Coq Require Import Arith ZifyBool.

(** ** Specification *)
Definition digits (g : str) : Prop := g <> [] /\ forall c, In c g -> (48 <= c <= 57)%N.
Definition value_of (g : str) : Z := fold_left (fun z c => 10 * z + (Z.of_N c - 48))%Z g 0%Z.
(** groups of digits, joined by single underscores *)
Inductive grouped : str -> str -> Prop :=
| grouped_one g : digits g -> grouped g g
| grouped_more g r d : digits g -> grouped r d -> grouped (g ++ 95%N :: r) (g ++ d).
(** spaces, a sign, digits, spaces *)
Definition whole_number (s : str) (z : Z) : Prop := exists before body after d, s = before ++ body ++ after /\
  forallb is_space before = true /\ forallb is_space after = true /\
  (grouped body d /\ z = value_of d \/ (exists r, body = 43%N :: r /\ grouped r d) /\ z = value_of d \/ (exists r, body = 45%N :: r /\ grouped r d) /\ z = (- value_of d)%Z).

(** ** Proofs *)
Lemma is_digit_iff c : is_digit c = true <-> (48 <= c <= 57)%N.
Proof. unfold is_digit. lia. Qed.
Definition add_digits (acc : Z) (g : str) : Z := fold_left (fun z c => 10 * z + (Z.of_N c - 48))%Z g acc.
Lemma int_run g : forall acc ad r, (forall c, In c g -> (48 <= c <= 57)%N) -> int_digits acc ad (g ++ r) = int_digits (add_digits acc g) (match g with [] => ad | _ => true end) r.
Proof.
  induction g as [|c g IH]; intros acc ad r H; cbn [app]; [reflexivity|]. cbn [int_digits]. rewrite (proj2 (is_digit_iff c) (H c (or_introl eq_refl))).
  rewrite IH by (intros x Hx; apply H; right; exact Hx). cbn [add_digits fold_left]. destruct g; reflexivity.
Qed.
Lemma grouped_int l d : grouped l d -> forall acc, int_digits acc false l = Some (add_digits acc d).
Proof.
  induction 1 as [g [G1 G2]|g r d [G1 G2] H IH]; intros acc.
  - rewrite <- (app_nil_r g) at 1. rewrite int_run by exact G2. destruct g; [destruct G1; reflexivity|]. reflexivity.
  - rewrite int_run by exact G2. destruct g as [|c g]; [destruct G1; reflexivity|]. cbn [int_digits is_digit N.leb andb N.eqb Pos.eqb]. change (is_digit 95) with false. cbv iota.
    rewrite IH. unfold add_digits. rewrite fold_left_app. reflexivity.
Qed.
Lemma int_grouped l : forall acc z,
  (int_digits acc false l = Some z -> exists d, grouped l d /\ z = add_digits acc d) /\
  (int_digits acc true l = Some z -> (l = [] /\ z = acc) \/ (exists d, grouped l d /\ z = add_digits acc d) \/ (exists r d, l = 95%N :: r /\ grouped r d /\ z = add_digits acc d)).
Proof.
  induction l as [|c l IH]; intros acc z; cbn [int_digits].
  - split; [discriminate|]. intros E. injection E as ->. left; auto.
  - destruct (is_digit c) eqn:D.
    + assert (K : int_digits (10 * acc + (Z.of_N c - 48))%Z true l = Some z -> exists d, grouped (c :: l) d /\ z = add_digits acc d).
      { intros E. destruct (proj2 (IH _ _) E) as [[-> ->]|[(d & G & ->)|(r & d & -> & G & ->)]].
        - exists [c]. split; [|reflexivity]. constructor. split; [discriminate|]. intros x [<-|[]]. apply is_digit_iff, D.
        - exists (c :: d). split; [|reflexivity]. inversion G as [g [G1 G2] E1 E2|g r d' [G1 G2] G' E1 E2].
          + subst. constructor. split; [discriminate|]. intros x [<-|Hx]; [apply is_digit_iff, D|apply G2, Hx].
          + apply (grouped_more (c :: g) r d'); [|exact G']. split; [discriminate|]. intros x [<-|Hx]; [apply is_digit_iff, D|apply G2, Hx].
        - exists (c :: d). split; [|reflexivity]. apply (grouped_more [c] r d); [|exact G]. split; [discriminate|]. intros x [<-|[]]. apply is_digit_iff, D. }
      split; intros E; [apply K, E|right; left; apply K, E].
    + rewrite Bool.andb_false_r. split; [discriminate|]. rewrite Bool.andb_true_r. destruct (N.eqb_spec c 95) as [->|]; [|discriminate]. intros E. apply IH in E as (d & G & ->). right; right. exists l, d. auto.
Qed.
Lemma grouped_no_space l d : grouped l d -> forall c, In c l -> is_space c = false.
Proof.
  assert (K : forall g, digits g -> forall c, In c g -> is_space c = false).
  { intros g [_ H] c Hc. specialize (H c Hc). unfold is_space. lia. }
  induction 1 as [g G|g r d G H IH]; [apply K, G|]. intros c Hc. apply in_app_iff in Hc as [Hc|[<-|Hc]]; [apply (K g G c Hc)|reflexivity|apply IH, Hc].
Qed.
Lemma strip_body before body after : forallb is_space before = true -> forallb is_space after = true -> (forall c, In c body -> is_space c = false) -> strip is_space (before ++ body ++ after) = body.
Proof.
  intros A B C. apply trimmed_strip. exists before, after. split; [reflexivity|]. split; [exact A|]. split; [exact B|]. split; intros c r ->; apply C; [left; reflexivity|apply in_app_iff; right; left; reflexivity].
Qed.
Theorem C76_int s z : py_int s = Some z <-> whole_number s z.
Proof.
  split.
  - intros E. destruct (strip_spec is_space s) as (u & v & Es & Hu & Hv & _). unfold whole_number. exists u, (strip is_space s), v.
    assert (F : forall l, Forall (fun c => is_space c = true) l -> forallb is_space l = true) by (intros l H; apply forallb_forall; apply Forall_forall; exact H).
    unfold py_int in E. destruct (strip is_space s) as [|c r] eqn:B; [discriminate|].
    assert (G : exists d, grouped (c :: r) d /\ z = value_of d \/ (exists r', c :: r = 43%N :: r' /\ grouped r' d) /\ z = value_of d \/ (exists r', c :: r = 45%N :: r' /\ grouped r' d) /\ z = (- value_of d)%Z).
    { assert (P : c = 43%N \/ c = 45%N \/ int_digits 0 false (c :: r) = Some z).
      { destruct (N.eq_dec c 43) as [->|]; [auto|]. destruct (N.eq_dec c 45) as [->|]; [auto|]. right; right.
        revert E. destruct c as [|p]; [auto|]. repeat (destruct p as [p|p|]; auto; try congruence). }
      destruct P as [->|[->|P]].
      - apply int_grouped in E as (d & G & ->). exists d. right; left. split; [exists r; auto|reflexivity].
      - destruct (int_digits 0 false r) as [y|] eqn:Ey; [|discriminate]. injection E as <-. apply int_grouped in Ey as (d & G & ->). exists d. right; right. split; [exists r; auto|reflexivity].
      - apply int_grouped in P as (d & G & ->). exists d. left. split; [exact G|reflexivity]. }
    destruct G as (d & G). exists d. split; [exact Es|]. split; [apply F, Hu|]. split; [apply F, Hv|exact G].
  - intros (before & body & after & d & -> & A & B & H). unfold py_int. destruct H as [[G ->]|[[(r & -> & G) ->]|[(r & -> & G) ->]]].
    + rewrite (strip_body before body after A B (grouped_no_space _ _ G)). pose proof (grouped_int _ _ G 0%Z) as E. unfold value_of.
      destruct body as [|c r]; [exact E|]. destruct (N.eq_dec c 43) as [->|N1]; [cbn in E; discriminate|]. destruct (N.eq_dec c 45) as [->|N2]; [cbn in E; discriminate|].
      destruct c as [|p]; [exact E|]. repeat (destruct p as [p|p|]; try exact E; try congruence).
    + rewrite (strip_body before (43%N :: r) after A B); [apply (grouped_int _ _ G)|]. intros c [<-|Hc]; [reflexivity|apply (grouped_no_space _ _ G c Hc)].
    + rewrite (strip_body before (45%N :: r) after A B); [rewrite (grouped_int _ _ G 0%Z); reflexivity|]. intros c [<-|Hc]; [reflexivity|apply (grouped_no_space _ _ G c Hc)].
Qed.
Print Assumptions C76_int.
Example C76_int_ex : whole_number (lit " -1_02 ") (-102) /\ ~ exists z, whole_number (lit "1__0") z.
Proof. split; [apply C76_int; reflexivity|]. intros (z & H). apply C76_int in H. discriminate. Qed.
(** a number is read as at most one *)
Theorem C76_unique s z z' : whole_number s z -> whole_number s z' -> z = z'.
Proof. rewrite <- !C76_int. congruence. Qed.
Print Assumptions C76_unique.
(** a numeral of a season or of an episode is accepted if it is a whole number, or stands between separators *)
Theorem C76_roman s m : validate_roman s m = true <-> (exists z, whole_number (slice (m_raw_start m) (m_raw_end m) s) z) \/ (clear_before s m /\ clear_after s m).
Proof.
  unfold validate_roman, int_coercable, chars_surround. destruct (py_int (m_raw s m)) as [z|] eqn:E.
  - split; [intros _; left; exists z; apply C76_int; exact E|reflexivity].
  - rewrite Bool.andb_true_iff, before_iff, after_iff. split; [auto|]. intros [(z & H)|H]; [apply C76_int in H; unfold m_raw in E; congruence|exact H].
Qed.
Print Assumptions C76_roman.
Example C76_roman_ex : validate_roman (lit "Part IV b") (simple 5 7 (lit "season") (MvInt 4) []) = true /\ validate_roman (lit "PartIV b") (simple 4 6 (lit "season") (MvInt 4) []) = false /\
  validate_roman (lit "Part4 b") (simple 4 5 (lit "season") (MvInt 4) []) = true.
Proof. repeat split. Qed.
