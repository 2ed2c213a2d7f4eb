(** C91: screen sizes and frame rates are recognised, whatever the order of the configured sets. *)
From Verif Require Import Py PyFacts Text TextFacts WordsProofs Regex CrcProofs DateProofs RegexFacts Quantity Episodes Rebulk Patterns PatternsProps Keyword KeywordProofs KeywordProps KeywordTable ScreenPatterns.
From Coq Require Import Arith Permutation ZifyBool ZifyNat ZifyN.
Local Open Scope nat_scope.

(** ** Specification: no text starts both with a text of [a] and with a text of [b] *)
Definition apart (a b : kre) : Prop := forall t u t' u', t ++ u = t' ++ u' -> spells a t u -> spells b t' u' -> False.
Definition all_apart (l : list kre) : Prop := forall a b, In a l -> In b l -> a = b \/ apart a b.

(** ** the order of alternatives that are apart does not matter *)
Section Same.
  Context (s : str).
  Lemma mtch_ext {A} k i c (f g : nat -> caps -> option A) : i <= List.length s -> (forall j d, j <= List.length s -> f j d = g j d) -> mtch s (kre_re k) i c f = mtch s (kre_re k) i c g.
  Proof.
    intros L H. rewrite !mtch_alts. apply first_some_ext. intros x _. unfold taken. destruct (alt_ok s i x) eqn:E; [|reflexivity]. apply H.
    unfold alt_ok in E. apply Bool.andb_true_iff in E as [E _]. destruct (al_items x) as [|y l] eqn:El; [cbn; lia|]. apply (items_len s i (y :: l) E). discriminate.
  Qed.
  Definition same (k k' : kre) : Prop := forall A i c (f : nat -> caps -> option A), i <= List.length s -> mtch s (kre_re k) i c f = mtch s (kre_re k') i c f.
  Lemma same_refl k : same k k.
  Proof. intros A i c f L. reflexivity. Qed.
  Lemma same_seq a a' b b' : same a a' -> same b b' -> same (KSeq a b) (KSeq a' b').
  Proof. intros Ha Hb A i c f L. cbn [kre_re mtch]. rewrite (Ha _ _ _ _ L). apply mtch_ext; [exact L|]. intros j d Lj. apply Hb, Lj. Qed.
  Lemma same_opt a a' : same a a' -> same (KOpt a) (KOpt a').
  Proof. intros Ha A i c f L. cbn [kre_re mtch]. rewrite (Ha _ _ _ _ L). reflexivity. Qed.
  Lemma same_grp n nm a a' : same a a' -> same (KGrp n nm a) (KGrp n nm a').
  Proof. intros Ha A i c f L. cbn [kre_re mtch]. apply Ha, L. Qed.
  Lemma or_first {A} l i c (f : nat -> caps -> option A) : l <> [] -> mtch s (kre_re (or_kre l)) i c f = first_some (fun k => mtch s (kre_re k) i c f) l.
  Proof.
    induction l as [|k l IH]; [congruence|]. intros _. destruct l as [|k' l]; [cbn; destruct (mtch s (kre_re k) i c f); reflexivity|].
    change (or_kre (k :: k' :: l)) with (KAlt k (or_kre (k' :: l))). cbn [kre_re mtch first_some]. rewrite IH by discriminate. reflexivity.
  Qed.
  Lemma first_some_perm {A B} (f : A -> option B) l l' : Permutation l l' -> (forall a b, In a l -> In b l -> a = b \/ f a = None \/ f b = None) -> first_some f l = first_some f l'.
  Proof.
    intros P U.
    assert (Q : forall m, (forall a, In a m -> In a l) -> forall y, first_some f m = Some y <-> exists a, In a m /\ f a = Some y).
    { intros m Hm y. split.
      - intros H. apply first_some_inv in H as (u & x & v & -> & E & _). exists x. split; [apply in_or_app; right; left; reflexivity|exact E].
      - intros (a & Ha & E). destruct (first_some_In f m a y Ha E) as [z Ez]. rewrite Ez. apply first_some_inv in Ez as (u & x & v & Em & Ex & _).
        destruct (U a x) as [->|[H|H]]; [apply Hm, Ha|apply Hm; rewrite Em; apply in_or_app; right; left; reflexivity| | |]; congruence. }
    destruct (first_some f l) as [y|] eqn:E1.
    - apply (Q l (fun a H => H)) in E1 as (a & Ha & E). symmetry. apply Q; [intros b Hb; apply (Permutation_in b (Permutation_sym P)), Hb|]. exists a. split; [apply (Permutation_in a P), Ha|exact E].
    - destruct (first_some f l') as [y|] eqn:E2; [|reflexivity]. apply (Q l') in E2 as (a & Ha & E); [|intros b Hb; apply (Permutation_in b (Permutation_sym P)), Hb].
      rewrite <- E1. apply (Q l (fun a H => H)). exists a. split; [apply (Permutation_in a (Permutation_sym P)), Ha|exact E].
  Qed.
  Lemma or_perm l l' : Permutation l l' -> all_apart l -> same (or_kre l) (or_kre l').
  Proof.
    intros P Ap A i c f L. destruct l as [|k l]; [apply Permutation_nil in P as ->; reflexivity|].
    assert (l' <> []) by (intros ->; apply Permutation_sym, Permutation_nil in P; discriminate). rewrite !or_first by (assumption || discriminate). apply first_some_perm; [exact P|].
    intros a b Ha Hb. destruct (Ap a b Ha Hb) as [|N]; [auto|right]. destruct (mtch s (kre_re a) i c f) as [x|] eqn:Ea; [|auto]. destruct (mtch s (kre_re b) i c f) as [y|] eqn:Eb; [|auto]. exfalso.
    apply mtch_sound in Ea as (j & d & Ma & _). apply mtch_sound in Eb as (j' & d' & Mb & _).
    destruct (proj1 (M_spells s a i c j L)) as [L1 S1]; [eauto|]. destruct (proj1 (M_spells s b i c j' L)) as [L2 S2]; [eauto|].
    apply (N (slice i j s) (skipn j s) (slice i j' s) (skipn j' s)); [rewrite !rest_split by lia; reflexivity|exact S1|exact S2].
  Qed.
  Lemma finditer_ext r r' : (forall i, i <= List.length s -> match_at s r i = match_at s r' i) -> finditer s r = finditer s r'.
  Proof.
    intros H. unfold finditer. generalize (S (List.length s)), 0. intros fuel. induction fuel as [|f IH]; intros pos; [reflexivity|]. cbn [finditer_loop].
    assert (E : search s r pos = search s r' pos).
    { unfold search. destruct (Nat.ltb_spec (List.length s) pos) as [|L]; [reflexivity|]. assert (Q : forall n i, i + n <= List.length s -> search_loop s r n i = search_loop s r' n i).
      { induction n as [|n IHn]; intros i Li; cbn [search_loop]; rewrite (H i) by lia; [reflexivity|]. destruct (match_at s r' i) as [[j c]|]; [reflexivity|]. apply IHn. lia. }
      apply Q. lia. }
    rewrite E. destruct (search s r' pos) as [[[a b] c]|]; [rewrite IH; reflexivity|reflexivity].
  Qed.
  Lemma same_rx name v k k' : same k k' -> kre_groups k = kre_groups k' -> rx_matches (plain_rx name v k) s = rx_matches (plain_rx name v k') s.
  Proof.
    intros H G. unfold rx_matches. replace (finditer s (rx_re (plain_rx name v k'))) with (finditer s (rx_re (plain_rx name v k))).
    - unfold plain_rx, rx_one, rx_parent, rx_kids, rx_child. cbn [rx_re rx_names rx_name rx_tags rx_children rx_private_parent rx_validate_all rx_value rx_valid rx_child_valid]. rewrite G. reflexivity.
    - apply finditer_ext. intros i L. unfold match_at. cbn [plain_rx rx_re]. apply H, L.
  Qed.
End Same.
Lemma or_groups l : (forall k, In k l -> kre_groups k = []) -> kre_groups (or_kre l) = [].
Proof.
  induction l as [|k l IH]; [reflexivity|]. intros H. destruct l as [|k' l]; [apply H; left; reflexivity|]. change (or_kre (k :: k' :: l)) with (KAlt k (or_kre (k' :: l))). cbn [kre_groups].
  rewrite (H k (or_introl eq_refl)), IH; [reflexivity|]. intros x Hx. apply H. right; exact Hx.
Qed.
Definition no_groups (l : list kre) : Prop := forall k, In k l -> kre_groups k = [].
(** ** C91: the same matches, in whatever order the sets of heights and of frame rates come *)
Theorem C91_order i p r i' p' r' s :
  Permutation i i' -> Permutation p p' -> Permutation r r' -> all_apart i -> all_apart p -> all_apart r -> no_groups i -> no_groups p -> no_groups r ->
  screen_matches i p r s = screen_matches i' p' r' s.
Proof.
  intros Pi Pp Pr Ai Ap Ar Gi Gp Gr. unfold screen_matches. 
  assert (Or : forall l l', Permutation l l' -> no_groups l -> kre_groups (or_kre l) = kre_groups (or_kre l')).
  { intros l l' P G. rewrite !or_groups; [reflexivity| |exact G]. intros k Hk. apply G. apply (Permutation_in k (Permutation_sym P)), Hk. }
  assert (R : forall h h' sc, Permutation h h' -> all_apart h -> no_groups h -> same s (rated_kre h r sc) (rated_kre h' r' sc) /\ kre_groups (rated_kre h r sc) = kre_groups (rated_kre h' r' sc)).
  { intros h h' sc P A G. split.
    - repeat apply same_seq; try apply same_refl; [apply same_grp, or_perm; assumption|apply same_opt, same_grp, or_perm; assumption].
    - unfold rated_kre, height_kre, group_kre. cbn [kre_groups]. rewrite (Or h h' P G), (Or r r' Pr Gr). reflexivity. }
  assert (Rh : same s (hd_kre p) (hd_kre p') /\ kre_groups (hd_kre p) = kre_groups (hd_kre p')).
  { split; [repeat apply same_seq; try apply same_refl; apply same_grp, or_perm; assumption|]. unfold hd_kre, height_kre, group_kre. cbn [kre_groups]. rewrite (Or p p' Pp Gp). reflexivity. }
  assert (Rb : same s (bare_kre p) (bare_kre p') /\ kre_groups (bare_kre p) = kre_groups (bare_kre p')).
  { split; [repeat apply same_seq; try apply same_refl; apply same_grp, or_perm; assumption|]. unfold bare_kre, height_kre, group_kre. cbn [kre_groups]. rewrite (Or p p' Pp Gp). reflexivity. }
  assert (Rf : same s (fps_kre r) (fps_kre r') /\ kre_groups (fps_kre r) = kre_groups (fps_kre r')).
  { split; [repeat apply same_seq; try apply same_refl; apply same_grp, or_perm; assumption|]. unfold fps_kre, group_kre. cbn [kre_groups]. rewrite (Or r r' Pr Gr). reflexivity. }
  destruct (R i i' "i"%string Pi Ai Gi) as [R1 R1'], (R p p' "p"%string Pp Ap Gp) as [R2 R2'], Rh as [R3 R3'], Rb as [R4 R4'], Rf as [R5 R5'].
  unfold size_rxs. cbn [map flat_map]. rewrite (same_rx s _ _ _ _ R1 R1'), (same_rx s _ _ _ _ R2 R2'), (same_rx s _ _ _ _ R3 R3'), (same_rx s _ _ _ _ R4 R4'), (same_rx s _ _ _ _ R5 R5'). reflexivity.
Qed.
Print Assumptions C91_order.

(** ** the default sets *)
(** a check: some characters differ *)
Definition apart_b (a b : kre) : bool := forallb (fun x => forallb (fun y => negb (overlap (al_items x) (al_items y))) (alts b)) (alts a).
Lemma apart_b_true a b : apart_b a b = true -> apart a b.
Proof.
  unfold apart_b. rewrite forallb_forall. intros H t u t' u' E S1 S2. set (s := t ++ u). assert (W1 : written a s 0 (List.length t)) by (exists [], t, u; auto). assert (W2 : written b s 0 (List.length t')) by (exists [], t', u'; rewrite <- E; auto).
  apply written_iff in W1 as [_ [d1 M1]], W2 as [_ [d2 M2]]. apply M_alt in M1 as (x & Hx & Ox & _); [|lia]. apply M_alt in M2 as (y & Hy & Oy & _); [|lia].
  specialize (H x Hx). rewrite forallb_forall in H. specialize (H y Hy). unfold alt_ok in Ox, Oy. apply Bool.andb_true_iff in Ox as [Ox _], Oy as [Oy _]. rewrite (overlap_true s 0 _ _ Ox Oy) in H. discriminate.
Qed.
Lemma apart_sym a b : apart a b -> apart b a.
Proof. intros H t u t' u' E S1 S2. exact (H t' u' t u (eq_sym E) S2 S1). Qed.
Fixpoint all_apart_b (l : list kre) : bool := match l with [] => true | k :: r => forallb (apart_b k) r && all_apart_b r end.
Lemma all_apart_b_true l : all_apart_b l = true -> all_apart l.
Proof.
  induction l as [|k l IH]; [intros _ a b []|]. cbn [all_apart_b]. rewrite Bool.andb_true_iff, forallb_forall. intros [H1 H2] a b [<-|Ha] [<-|Hb]; [auto| | |exact (IH H2 a b Ha Hb)].
  - right. apply apart_b_true, H1, Hb.
  - right. apply apart_sym, apart_b_true, H1, Ha.
Qed.
Lemma no_groups_b l : forallb (fun k => match kre_groups k with [] => true | _ => false end) l = true -> no_groups l.
Proof. rewrite forallb_forall. intros H k Hk. specialize (H k Hk). destruct (kre_groups k); [reflexivity|discriminate]. Qed.
(** with the default configuration, every order of the sets gives the same matches *)
Theorem C91_default_order i p r s : Permutation default_interlaced i -> Permutation default_progressive p -> Permutation default_rates r ->
  screen_matches i p r s = screen_matches default_interlaced default_progressive default_rates s.
Proof.
  intros Pi Pp Pr. symmetry. apply C91_order; try assumption; (apply all_apart_b_true || apply no_groups_b); vm_compute; reflexivity.
Qed.
Print Assumptions C91_default_order.
