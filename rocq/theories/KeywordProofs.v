(** Facts about keywords: the alternatives of an expression, and when none of them hides another. *)
From Verif Require Import Py PyFacts Text TextFacts WordsProofs Regex CrcProofs DateProofs RegexFacts Rebulk Patterns PatternsProps PatternConf Keyword.
From Coq Require Import Arith ZifyBool ZifyNat ZifyN.
Local Open Scope nat_scope.

Definition prod_eq_dec {A B} (ea : forall x y : A, {x = y} + {x <> y}) (eb : forall x y : B, {x = y} + {x <> y}) (p q : A * B) : {p = q} + {p <> q}.
Proof. destruct p as [a b], q as [c d]. destruct (ea a c) as [->|N]; [|right; congruence]. destruct (eb b d) as [->|N]; [left; reflexivity|right; congruence]. Defined.
(** ** the alternatives of an expression, in the order they are tried *)
Inductive cond := CEol | CNot (i : item) | CLook (k : kre).
Record alt := mk_alt { al_items : list item; al_conds : list (nat * cond); al_grps : caps }.
Definition shift (n : nat) (g : caps) : caps := map (fun x => (fst x, (n + fst (snd x), n + snd (snd x)))) g.
Definition shift_conds (n : nat) (l : list (nat * cond)) : list (nat * cond) := map (fun x => (n + fst x, snd x)) l.
Definition join (x y : alt) : alt :=
  mk_alt (al_items x ++ al_items y) (al_conds x ++ shift_conds (List.length (al_items x)) (al_conds y))
         (shift (List.length (al_items x)) (al_grps y) ++ al_grps x).
Fixpoint alts (k : kre) : list alt :=
  match k with
  | KEps => [mk_alt [] [] []]
  | KItem i => [mk_alt [i] [] []]
  | KSeq a b => flat_map (fun x => map (join x) (alts b)) (alts a)
  | KAlt a b => alts a ++ alts b
  | KOpt a => alts a ++ [mk_alt [] [] []]
  | KGrp n _ a => map (fun x => mk_alt (al_items x) (al_conds x) ((n, (0, List.length (al_items x))) :: al_grps x)) (alts a)
  | KEol => [mk_alt [] [(0, CEol)] []]
  | KNot i => [mk_alt [] [(0, CNot i)] []]
  | KLook a => [mk_alt [] [(0, CLook a)] []]
  end.
Section Alts.
  Context (s : str).
  Definition cond_ok (i : nat) (c : cond) : bool :=
    match c with
    | CEol => at_eol s i
    | CNot it => match nth_error s i with Some x => negb (accepts it x) | None => true end
    | CLook k => match mtch s (kre_re k) i [] (fun _ _ => Some tt) with Some _ => true | None => false end
    end.
  Fixpoint items_ok (i : nat) (l : list item) : bool :=
    match l with
    | [] => true
    | x :: r => match nth_error s i with Some c => accepts x c && items_ok (S i) r | None => false end
    end.
  Definition alt_ok (i : nat) (x : alt) : bool := items_ok i (al_items x) && forallb (fun c => cond_ok (i + fst c) (snd c)) (al_conds x).

  Fixpoint first_some {A B} (f : A -> option B) (l : list A) : option B :=
    match l with [] => None | x :: r => match f x with Some y => Some y | None => first_some f r end end.
  Lemma first_some_app {A B} (f : A -> option B) l r : first_some f (l ++ r) = match first_some f l with Some y => Some y | None => first_some f r end.
  Proof. induction l as [|x l IH]; [reflexivity|]. cbn. destruct (f x); [reflexivity|exact IH]. Qed.
  Lemma first_some_map {A B C} (f : B -> option C) (g : A -> B) l : first_some f (map g l) = first_some (fun x => f (g x)) l.
  Proof. induction l as [|x l IH]; [reflexivity|]. cbn. rewrite IH. reflexivity. Qed.
  Lemma first_some_ext {A B} (f g : A -> option B) l : (forall x, In x l -> f x = g x) -> first_some f l = first_some g l.
  Proof. induction l as [|x l IH]; intros H; [reflexivity|]. cbn. rewrite (H x (or_introl eq_refl)), IH; [reflexivity|]. intros y Hy. apply H. right; exact Hy. Qed.
  Lemma first_some_none {A B} (l : list A) : first_some (fun _ => @None B) l = None.
  Proof. induction l as [|x l IH]; [reflexivity|exact IH]. Qed.
  Lemma first_some_flat {A B C} (f : B -> option C) (g : A -> list B) l : first_some f (flat_map g l) = first_some (fun x => first_some f (g x)) l.
  Proof. induction l as [|x l IH]; [reflexivity|]. cbn [flat_map first_some]. rewrite first_some_app, IH. reflexivity. Qed.
  (** which alternative was taken *)
  Lemma first_some_inv {A B} (f : A -> option B) l y : first_some f l = Some y -> exists u x v, l = u ++ x :: v /\ f x = Some y /\ forall z, In z u -> f z = None.
  Proof.
    induction l as [|x l IH]; cbn; [discriminate|]. destruct (f x) as [w|] eqn:E.
    - intros H; injection H as ->. exists [], x, l. split; [reflexivity|]. split; [exact E|intros z []].
    - intros H. apply IH in H as (u & z & v & -> & E2 & H). exists (x :: u), z, v. split; [reflexivity|]. split; [exact E2|]. intros w [<-|Hw]; auto.
  Qed.
  Lemma first_some_In {A B} (f : A -> option B) l x y : In x l -> f x = Some y -> exists z, first_some f l = Some z.
  Proof. induction l as [|w l IH]; [intros []|]. intros [->|H] E; cbn; [rewrite E; eauto|]. destruct (f w); eauto. Qed.

  Lemma items_ok_app l r i : items_ok i (l ++ r) = items_ok i l && items_ok (i + List.length l) r.
  Proof.
    revert i. induction l as [|x l IH]; intros i; cbn [app items_ok List.length andb].
    - rewrite Nat.add_0_r. reflexivity.
    - destruct (nth_error s i) as [c|]; [|reflexivity]. rewrite IH, Bool.andb_assoc. replace (i + S (List.length l)) with (S i + List.length l) by lia. reflexivity.
  Qed.
  Lemma join_ok i x y : alt_ok i (join x y) = alt_ok i x && alt_ok (i + List.length (al_items x)) y.
  Proof.
    unfold alt_ok, join. cbn [al_items al_conds]. rewrite items_ok_app, forallb_app. unfold shift_conds.
    assert (E : forall l, forallb (fun c : nat * cond => cond_ok (i + fst c) (snd c)) (map (fun c => (List.length (al_items x) + fst c, snd c)) l) = forallb (fun c => cond_ok (i + List.length (al_items x) + fst c) (snd c)) l)
      by (induction l as [|c l IHl]; [reflexivity|cbn [map forallb fst snd]; rewrite IHl, Nat.add_assoc; reflexivity]).
    rewrite E. destruct (items_ok i (al_items x)), (forallb (fun c => cond_ok (i + fst c) (snd c)) (al_conds x)); cbn; rewrite ?Bool.andb_false_r; reflexivity.
  Qed.
  Lemma shift_app n g h : shift n (g ++ h) = shift n g ++ shift n h.
  Proof. apply map_app. Qed.
  Lemma shift_shift n m g : shift n (shift m g) = shift (n + m) g.
  Proof. unfold shift. rewrite map_map. apply map_ext. intros [k [x y]]. cbn. rewrite !Nat.add_assoc. reflexivity. Qed.
  Definition taken {A} (i : nat) (c : caps) (kont : nat -> caps -> option A) (x : alt) : option A :=
    if alt_ok i x then kont (i + List.length (al_items x)) (shift i (al_grps x) ++ c) else None.
  Lemma mtch_alts {A} k : forall i c (kont : nat -> caps -> option A), mtch s (kre_re k) i c kont = first_some (taken i c kont) (alts k).
  Proof.
    revert A. induction k as [|it|a IHa b IHb|a IHa b IHb|a IHa|n nm a IHa| |it|a IHa]; intros A i c kont; cbn [kre_re mtch alts].
    - cbn [first_some taken alt_ok al_items al_conds items_ok forallb al_grps shift map app andb List.length]. unfold taken, alt_ok. cbn. rewrite Nat.add_0_r. destruct (kont i c); reflexivity.
    - cbn [first_some]. unfold taken, alt_ok. cbn. rewrite Nat.add_1_r. destruct (nth_error s i) as [x|]; [|reflexivity]. destruct (accepts it x); [|reflexivity]. destruct (kont (S i) c); reflexivity.
    - rewrite IHa, first_some_flat. apply first_some_ext. intros x _. rewrite first_some_map. unfold taken at 1. rewrite IHb. destruct (alt_ok i x) eqn:E.
      + apply first_some_ext. intros y _. unfold taken. rewrite join_ok, E. cbn [andb]. destruct (alt_ok (i + List.length (al_items x)) y); [|reflexivity].
        unfold join. cbn [al_items al_grps]. rewrite app_length, shift_app, shift_shift, <- app_assoc, Nat.add_assoc. reflexivity.
      + rewrite (first_some_ext _ (fun _ => None)); [symmetry; apply first_some_none|]. intros y _. unfold taken. rewrite join_ok, E. reflexivity.
    - rewrite IHa, IHb, first_some_app. reflexivity.
    - rewrite IHa, first_some_app. destruct (first_some (taken i c kont) (alts a)); [reflexivity|]. cbn [first_some]. unfold taken, alt_ok. cbn. rewrite Nat.add_0_r. destruct (kont i c); reflexivity.
    - rewrite IHa, first_some_map. apply first_some_ext. intros x _. unfold taken, alt_ok. cbn [al_items al_conds al_grps]. destruct (items_ok i (al_items x) && _); [|reflexivity].
      cbn [shift map fst snd app]. rewrite Nat.add_0_r. reflexivity.
    - cbn [first_some]. unfold taken, alt_ok. cbn. rewrite Nat.add_0_r. destruct (at_eol s i); cbn; [destruct (kont i c); reflexivity|reflexivity].
    - cbn [first_some]. unfold taken, alt_ok. cbn. rewrite !Nat.add_0_r. destruct (nth_error s i) as [x|]; [destruct (accepts it x)|]; cbn; try reflexivity; destruct (kont i c); reflexivity.
    - cbn [first_some]. unfold taken, alt_ok. cbn. rewrite !Nat.add_0_r. rewrite (IHa unit i c), (IHa unit i []). 
      rewrite (first_some_ext (taken i c (fun _ _ => Some tt)) (taken i [] (fun _ _ => Some tt)) (alts a)) by (intros x _; reflexivity).
      destruct (first_some (taken i [] (fun _ _ => Some tt)) (alts a)); cbn; [destruct (kont i c); reflexivity|reflexivity].
  Qed.
  Lemma items_len i l : items_ok i l = true -> l <> [] -> i + List.length l <= List.length s.
  Proof.
    revert i. induction l as [|x l IH]; intros i H N; [congruence|]. cbn [items_ok] in H. destruct (nth_error s i) as [c|] eqn:E; [|discriminate]. apply Bool.andb_true_iff in H as [_ H].
    apply nth_error_lt in E. cbn [List.length]. destruct l as [|y l]; [cbn; lia|]. specialize (IH (S i) H ltac:(discriminate)). cbn [List.length] in *. lia.
  Qed.
  Lemma items_nth i l n it : items_ok i l = true -> nth_error l n = Some it -> exists c, nth_error s (i + n) = Some c /\ accepts it c = true.
  Proof.
    revert i n. induction l as [|x l IH]; intros i n H; [destruct n; discriminate|]. cbn [items_ok] in H. destruct (nth_error s i) as [c|] eqn:E; [|discriminate]. apply Bool.andb_true_iff in H as [H1 H].
    destruct n as [|n]; cbn [nth_error]; [intros X; injection X as <-; exists c; rewrite Nat.add_0_r; auto|]. intros X. destruct (IH (S i) n H X) as (d & Ed & D). exists d. replace (i + S n) with (S i + n) by lia. auto.
  Qed.
  Lemma items_skip i l n : items_ok i l = true -> n <= List.length l -> items_ok (i + n) (skipn n l) = true.
  Proof.
    intros H L. rewrite <- (firstn_skipn n l) in H. rewrite items_ok_app in H. apply Bool.andb_true_iff in H as [_ H]. rewrite firstn_length_le in H by exact L. exact H.
  Qed.
  Lemma M_alt k a b c : M s (kre_re k) a [] b c -> a <= List.length s -> exists x, In x (alts k) /\ alt_ok a x = true /\ b = a + List.length (al_items x).
  Proof.
    intros H L. destruct (mtch_complete s (kre_re k) a [] b c H L (fun j _ => if Nat.eqb j b then Some j else None) b) as [y E]; [rewrite Nat.eqb_refl; reflexivity|].
    rewrite mtch_alts in E. apply first_some_inv in E as (u & x & v & E & F & _). unfold taken in F. destruct (alt_ok a x) eqn:Ex; [|discriminate]. exists x. split; [rewrite E; apply in_or_app; right; left; reflexivity|]. split; [exact Ex|].
    destruct (Nat.eqb_spec (a + List.length (al_items x)) b) as [e|]; [lia|discriminate].
  Qed.
  Lemma M_alt_caps k a b c : M s (kre_re k) a [] b c -> a <= List.length s -> exists x, In x (alts k) /\ alt_ok a x = true /\ b = a + List.length (al_items x) /\ c = shift a (al_grps x).
  Proof.
    intros H L. set (same := fun c' : caps => if list_eq_dec (prod_eq_dec Nat.eq_dec (prod_eq_dec Nat.eq_dec Nat.eq_dec)) c' c then true else false).
    destruct (mtch_complete s (kre_re k) a [] b c H L (fun j d => if Nat.eqb j b && same d then Some j else None) b) as [y E].
    { rewrite Nat.eqb_refl. unfold same. destruct (list_eq_dec _ c c); [reflexivity|congruence]. }
    rewrite mtch_alts in E. apply first_some_inv in E as (u & x & v & E & F & _). unfold taken in F. destruct (alt_ok a x) eqn:Ex; [|discriminate]. exists x. split; [rewrite E; apply in_or_app; right; left; reflexivity|]. split; [exact Ex|].
    destruct (_ && _) eqn:Eb; [|discriminate]. apply Bool.andb_true_iff in Eb as [E1 E2]. apply Nat.eqb_eq in E1. split; [lia|]. unfold same in E2. destruct (list_eq_dec _ _ c) as [e|]; [|discriminate]. rewrite <- e, app_nil_r. reflexivity.
  Qed.
End Alts.

(** ** a check that no alternative hides another between separators *)
Definition ascii : list N := map N.of_nat (seq 0 128).
Definition wide (i : item) : bool :=
  match i with IChr d | IExact d => (127 <? d)%N | IOf l => existsb (fun d => (127 <? d)%N) l | ISep | IDig | INotWord => false | INotDig | IAny => true end.
(** some character is accepted by both *)
Definition compat (i j : item) : bool :=
  match i, j with
  | IChr c, IChr d => N.eqb (to_lower c) (to_lower d)
  | IChr c, IDig | IDig, IChr c => accepts IDig (to_lower c)
  | IDig, IDig => true
  | _, _ => existsb (fun c => accepts i c && accepts j c) ascii || (wide i && wide j)
  end.
Definition sepish (i : item) : bool := existsb (accepts i) seps.
Fixpoint overlap (x y : list item) : bool := match x, y with i :: x', j :: y' => if compat i j then overlap x' y' else false | _, _ => true end.
(** [x] is tried before [y]: it matches a part of what [y] matches, or goes on with a separator *)
Fixpoint clash (x y : list item) : bool :=
  match x, y with
  | [], [] => false
  | [], _ :: _ => true
  | i :: _, [] => sepish i
  | i :: x', j :: y' => if compat i j then clash x' y' else false
  end.
(** [x] matches a part of what [y] matches *)
Fixpoint shorter (x y : list item) : bool :=
  match x, y with
  | [], [] => false
  | [], _ :: _ => true
  | _ :: _, [] => false
  | i :: x', j :: y' => if compat i j then shorter x' y' else false
  end.
(** [x] matches a separator and then the start of [y] *)
Fixpoint hides (x y : list item) : bool :=
  match x with
  | [] => false
  | i :: r => if (if sepish i then match r with [] => false | _ => overlap r y end else false) then true else hides r y
  end.
Fixpoint orderly (l : list (list item)) : bool := match l with [] => true | x :: r => forallb (fun y => negb (clash x y)) r && orderly r end.
Definition unhidden (l : list (list item)) : bool := forallb (fun x => forallb (fun y => negb (hides x y)) l) l.
(** no alternative is empty *)
Definition solid (k : kre) : bool := forallb (fun x => match al_items x with [] => false | _ => true end) (alts k).
(** of two alternatives, the longer one is tried first *)
Fixpoint longest_first (l : list (list item)) : bool := match l with [] => true | x :: r => forallb (fun y => negb (shorter x y)) r && longest_first r end.
Definition greedy (k : kre) : bool := longest_first (map al_items (alts k)).
Definition kre_ok (k : kre) : bool := let l := map al_items (alts k) in solid k && orderly l && unhidden l.

Lemma in_ascii c : (c < 128)%N -> In c ascii.
Proof. intros L. unfold ascii. apply in_map_iff. exists (N.to_nat c). split; [lia|]. apply in_seq. lia. Qed.
Lemma lower_wide c : (127 < c)%N -> to_lower c = c.
Proof. intros L. unfold to_lower, is_upper. destruct (((65 <=? c) && (c <=? 90))%N) eqn:E; [lia|reflexivity]. Qed.
Lemma seps_ascii c : In c seps -> (c < 128)%N.
Proof. intros H. vm_compute in H. repeat (destruct H as [<-|H]; [lia|]). destruct H. Qed.
Lemma accepts_wide i c : (127 < c)%N -> accepts i c = true -> wide i = true.
Proof.
  intros L. destruct i as [d|d| | | | | |l]; cbn [accepts wide].
  - rewrite (lower_wide c L). intros H. apply N.eqb_eq in H. unfold to_lower, is_upper in H. destruct (((65 <=? d) && (d <=? 90))%N) eqn:E; lia.
  - intros H. apply N.eqb_eq in H. lia.
  - intros H. apply no_fs_iff in H as [H _]. apply seps_ascii in H. lia.
  - unfold is_digit. lia.
  - reflexivity.
  - lia.
  - reflexivity.
  - rewrite (lower_wide c L). intros H. apply cmem_In in H. unfold lower in H. apply in_map_iff in H as (d & H & Hd). apply existsb_exists. exists d. split; [exact Hd|].
    unfold to_lower, is_upper in H. destruct (((65 <=? d) && (d <=? 90))%N) eqn:E; lia.
Qed.
Lemma digit_lower c : is_digit c = true -> is_digit (to_lower c) = true.
Proof. unfold is_digit, to_lower, is_upper. destruct (((65 <=? c) && (c <=? 90))%N) eqn:E; lia. Qed.
Lemma compat_true i j c : accepts i c = true -> accepts j c = true -> compat i j = true.
Proof.
  intros H1 H2.
  assert (G : existsb (fun c => accepts i c && accepts j c) ascii || (wide i && wide j) = true).
  { destruct (N.lt_ge_cases c 128) as [L|L].
  - apply Bool.orb_true_iff; left. apply existsb_exists. exists c. split; [apply in_ascii, L|]. rewrite H1, H2. reflexivity.
  - rewrite (accepts_wide i c) by (exact H1 || lia). rewrite (accepts_wide j c) by (exact H2 || lia). apply Bool.orb_true_r. }
  destruct i, j; try exact G; cbn [compat accepts] in *; try (apply N.eqb_eq in H1); try (apply N.eqb_eq in H2).
  - apply N.eqb_eq. congruence.
  - rewrite <- H1. apply digit_lower; assumption.
  - rewrite <- H2. apply digit_lower; assumption.
Qed.
Lemma sepish_true i c : In c seps -> accepts i c = true -> sepish i = true.
Proof. intros H1 H2. apply existsb_exists. eauto. Qed.
Lemma overlap_true s i x y : items_ok s i x = true -> items_ok s i y = true -> overlap x y = true.
Proof.
  revert i y. induction x as [|a x IH]; intros i [|b y]; try reflexivity. cbn [items_ok overlap]. destruct (nth_error s i) as [c|]; [|discriminate]. rewrite !Bool.andb_true_iff. intros [A X] [B Y].
  rewrite (compat_true a b c A B). exact (IH (S i) y X Y).
Qed.
Lemma clash_true s i x y : items_ok s i x = true -> items_ok s i y = true -> List.length x <> List.length y -> (forall c, nth_error s (i + List.length y) = Some c -> In c seps) -> clash x y = true.
Proof.
  revert i y. induction x as [|a x IH]; intros i [|b y]; cbn [items_ok clash List.length]; try congruence.
  - intros H _ _ S. destruct (nth_error s i) as [c|] eqn:E; [|discriminate]. apply Bool.andb_true_iff in H as [H _]. apply (sepish_true a c); [apply S; rewrite Nat.add_0_r; exact E|exact H].
  - destruct (nth_error s i) as [c|]; [|discriminate]. rewrite !Bool.andb_true_iff. intros [A X] [B Y] L S. rewrite (compat_true a b c A B). apply (IH (Datatypes.S i) y X Y); [lia|].
    intros d Ed. apply S. replace (i + Datatypes.S (List.length y)) with (Datatypes.S i + List.length y) by lia. exact Ed.
Qed.
Lemma shorter_true s i x y : items_ok s i x = true -> items_ok s i y = true -> List.length x < List.length y -> shorter x y = true.
Proof.
  revert i y. induction x as [|a x IH]; intros i [|b y]; cbn [items_ok shorter List.length]; try lia; try reflexivity.
  destruct (nth_error s i) as [c|]; [|discriminate]. rewrite !Bool.andb_true_iff. intros [A X] [B Y] L. rewrite (compat_true a b c A B). apply (IH (Datatypes.S i) y X Y). lia.
Qed.
Lemma longest_pair l u x v y : longest_first l = true -> l = u ++ x :: v -> In y v -> shorter x y = false.
Proof.
  revert l. induction u as [|z u IH]; intros l H -> Hy; cbn [app longest_first] in H; apply Bool.andb_true_iff in H as [H1 H2].
  - rewrite forallb_forall in H1. specialize (H1 y Hy). apply Bool.negb_true_iff in H1. exact H1.
  - exact (IH _ H2 eq_refl Hy).
Qed.
Lemma hides_true s i x y a : items_ok s i x = true -> items_ok s a y = true -> i < a < i + List.length x -> (forall c, nth_error s (a - 1) = Some c -> In c seps) -> hides x y = true.
Proof.
  revert i. induction x as [|it x IH]; intros i; cbn [items_ok hides List.length]; [lia|]. destruct (nth_error s i) as [c|] eqn:E; [|discriminate]. rewrite Bool.andb_true_iff. intros [A X] Y L S.
  destruct (Nat.eq_dec a (Datatypes.S i)) as [->|N].
  - rewrite (sepish_true it c); [|apply S; replace (Datatypes.S i - 1) with i by lia; exact E|exact A]. destruct x as [|j x]; [cbn in L; lia|]. rewrite (overlap_true s (Datatypes.S i) (j :: x) y X Y). reflexivity.
  - destruct (if sepish it then _ else _); [reflexivity|]. apply (IH (Datatypes.S i) X Y); [lia|exact S].
Qed.
Lemma orderly_pair l u x v y : orderly l = true -> l = u ++ x :: v -> In y v -> clash x y = false.
Proof.
  revert l. induction u as [|z u IH]; intros l H -> Hy; cbn [app orderly] in H; apply Bool.andb_true_iff in H as [H1 H2].
  - rewrite forallb_forall in H1. specialize (H1 y Hy). apply Bool.negb_true_iff in H1. exact H1.
  - exact (IH _ H2 eq_refl Hy).
Qed.
Lemma unhidden_pair l x y : unhidden l = true -> In x l -> In y l -> hides x y = false.
Proof. unfold unhidden. rewrite forallb_forall. intros H Hx Hy. specialize (H x Hx). rewrite forallb_forall in H. specialize (H y Hy). apply Bool.negb_true_iff in H. exact H. Qed.

Section Found.
  Context (s : str) (k : kre).
  Lemma solid_parts : solid k = true -> forall x, In x (alts k) -> al_items x <> [].
  Proof. unfold solid. rewrite forallb_forall. intros H x Hx E. specialize (H x Hx). rewrite E in H. discriminate. Qed.
  Lemma kre_ok_parts : kre_ok k = true -> solid k = true /\ orderly (map al_items (alts k)) = true /\ unhidden (map al_items (alts k)) = true.
  Proof. unfold kre_ok. cbv zeta. rewrite !Bool.andb_true_iff. tauto. Qed.
  Context (Hs : solid k = true).
  Lemma kre_consumes : consumes s (kre_re k).
  Proof.
    intros i c j d H. destruct (M_mono _ _ _ _ _ _ H) as [L _]. destruct (Nat.eq_dec i j) as [->|]; [|lia]. exfalso. 
    destruct (Nat.le_gt_cases j (List.length s)) as [Lj|Lj].
    - destruct (mtch_complete s (kre_re k) j c j d H Lj (fun m _ => if Nat.eqb m j then Some m else None) j) as [y E]; [rewrite Nat.eqb_refl; reflexivity|].
      rewrite mtch_alts in E. apply first_some_inv in E as (u & x & v & E & F & _). unfold taken in F. destruct (alt_ok s j x) eqn:Ex; [|discriminate].
      destruct (Nat.eqb_spec (j + List.length (al_items x)) j) as [e|]; [|discriminate]. apply (solid_parts Hs x); [rewrite E; apply in_or_app; right; left; reflexivity|]. destruct (al_items x); [reflexivity|cbn in e; lia].
    - (* beyond the end nothing is read *)
      (* an item cannot be read there, so some alternative is empty *)
      assert (Q : forall k' i c j d, M s (kre_re k') i c j d -> List.length s < i -> exists x, In x (alts k') /\ al_items x = []).
      { induction k' as [|it|a IHa b IHb|a IHa b IHb|a IHa|n nm a IHa| |it|a IHa]; intros i0 c0 j0 d0 H0 L0; cbn [kre_re alts] in *.
        - eexists; split; [left; reflexivity|reflexivity].
        - apply M_chr_inv in H0 as (_ & _ & x & E & _). apply nth_error_lt in E. lia.
        - apply M_seq_inv in H0 as (m & e & H1 & H2). pose proof (M_mono _ _ _ _ _ _ H1) as [L1 _]. destruct (IHa _ _ _ _ H1 L0) as (x & Hx & Ex), (IHb _ _ _ _ H2 ltac:(lia)) as (y & Hy & Ey).
          exists (join x y). split; [apply in_flat_map; exists x; split; [exact Hx|apply in_map; exact Hy]|]. cbn. rewrite Ex, Ey. reflexivity.
        - apply M_alt_inv in H0 as [H0|H0]; [destruct (IHa _ _ _ _ H0 L0) as (x & Hx & Ex)|destruct (IHb _ _ _ _ H0 L0) as (x & Hx & Ex)]; exists x; (split; [apply in_or_app; auto|exact Ex]).
        - eexists; split; [apply in_or_app; right; left; reflexivity|reflexivity].
        - apply M_grp_inv in H0 as (e & _ & H0). destruct (IHa _ _ _ _ H0 L0) as (x & Hx & Ex). eexists. split; [apply in_map; exact Hx|exact Ex].
        - eexists; split; [left; reflexivity|reflexivity].
        - eexists; split; [left; reflexivity|reflexivity].
        - eexists; split; [left; reflexivity|reflexivity]. }
      destruct (Q k j c j d H Lj) as (x & Hx & Ex). exact (solid_parts Hs x Hx Ex).
  Qed.
  (** the longest is found, if nothing that starts before reaches it *)
  Lemma kre_longest a b d : greedy k = true -> a <= List.length s -> M s (kre_re k) a [] b d ->
    (forall a' b' e, a' < a -> M s (kre_re k) a' [] b' e -> b' <= a) -> (forall b' e, M s (kre_re k) a [] b' e -> b' <= b) -> exists c, In (a, b, c) (finditer s (kre_re k)).
  Proof.
    intros G La HM F1 F2. destruct (finditer_complete s (kre_re k) kre_consumes a b d La HM F1) as (b' & c' & Hf).
    pose proof (M_alt s k a b d HM La) as (y & Hy & Oy & Eb). pose proof Oy as Oy'. unfold alt_ok in Oy'. apply Bool.andb_true_iff in Oy' as [Iy _].
    pose proof Hf as Hf'. apply finditer_sound in Hf' as (_ & E & HM'); [|exact kre_consumes]. pose proof (F2 b' c' HM') as Lb.
    unfold match_at in E. rewrite mtch_alts in E. apply first_some_inv in E as (u & x & v & El & F & Fu). unfold taken in F. destruct (alt_ok s a x) eqn:Ox; [|discriminate]. injection F as Eb' Ec'.
    unfold alt_ok in Ox. apply Bool.andb_true_iff in Ox as [Ix _]. destruct (Nat.eq_dec b' b) as [->|Ne]; [eauto|exfalso].
    rewrite El in Hy. apply in_app_or in Hy as [Hy|[->|Hy]]; [|lia|].
    - specialize (Fu y Hy). unfold taken in Fu. rewrite Oy in Fu. discriminate.
    - assert (h : shorter (al_items x) (al_items y) = true) by (apply (shorter_true s a); auto; lia).
      rewrite (longest_pair (map al_items (alts k)) (map al_items u) (al_items x) (map al_items v) (al_items y) G) in h; [discriminate|rewrite El, map_app; reflexivity|apply in_map, Hy].
  Qed.
  Lemma kre_found a b d : kre_ok k = true -> alone s a b -> a <= List.length s -> M s (kre_re k) a [] b d -> exists c, In (a, b, c) (finditer s (kre_re k)).
  Proof.
    intros Hk [A B] La HM. destruct (kre_ok_parts Hk) as (_ & O & U). pose proof (M_alt s k a b d HM La) as (y & Hy & Oy & Eb).
    unfold alt_ok in Oy. apply Bool.andb_true_iff in Oy as [Iy Cy].
    destruct (finditer_complete s (kre_re k) kre_consumes a b d La HM) as (b' & c' & Hf).
    { intros a' b' e La' HM'. destruct (M_alt s k a' b' e HM' ltac:(lia)) as (x & Hx & Ox & ->). unfold alt_ok in Ox. apply Bool.andb_true_iff in Ox as [Ix _].
      destruct (Nat.le_gt_cases (a' + List.length (al_items x)) a) as [|G]; [assumption|exfalso].
      assert (h : hides (al_items x) (al_items y) = true) by (apply (hides_true s a' (al_items x) (al_items y) a Ix Iy); [lia|]; intros c E; apply (A c); [lia|exact E]).
      rewrite (unhidden_pair _ (al_items x) (al_items y) U) in h; [discriminate|apply in_map, Hx|apply in_map, Hy]. }
    pose proof Hf as Hf'. apply finditer_sound in Hf' as (_ & E & _); [|exact kre_consumes]. unfold match_at in E. rewrite mtch_alts in E.
    apply first_some_inv in E as (u & x & v & El & F & Fu). unfold taken in F. destruct (alt_ok s a x) eqn:Ox; [|discriminate]. injection F as Eb' Ec'.
    pose proof Ox as Ox'. unfold alt_ok in Ox'. apply Bool.andb_true_iff in Ox' as [Ix _].
    assert (b' = b) as ->; [|eauto]. destruct (Nat.eq_dec (List.length (al_items x)) (List.length (al_items y))) as [|Ne]; [lia|exfalso].
    rewrite El in Hy. apply in_app_or in Hy as [Hy|[->|Hy]]; [|congruence|].
    - specialize (Fu y Hy). unfold taken in Fu. assert (alt_ok s a y = true) as Oy by (unfold alt_ok; rewrite Iy, Cy; reflexivity). rewrite Oy in Fu. discriminate.
    - assert (h : clash (al_items x) (al_items y) = true) by (apply (clash_true s a); auto; intros c E; apply B; rewrite Eb; exact E).
      rewrite (orderly_pair (map al_items (alts k)) (map al_items u) (al_items x) (map al_items v) (al_items y) O) in h; [discriminate|rewrite El, map_app; reflexivity|apply in_map, Hy].
  Qed.
  (** the alternatives that nothing hides between separators *)
  Definition is_safe (all u : list (list item)) (y : list item) : bool := forallb (fun x => negb (clash x y)) u && forallb (fun x => negb (hides x y)) all.
  (** two readings of the same text have the same groups *)
  Lemma kre_found_alt a u y v : alts k = u ++ y :: v -> is_safe (map al_items (alts k)) (map al_items u) (al_items y) = true ->
    (forall x, In x (alts k) -> List.length (al_items x) = List.length (al_items y) -> overlap (al_items x) (al_items y) = true -> al_grps x = al_grps y) ->
    alone s a (a + List.length (al_items y)) -> a <= List.length s -> alt_ok s a y = true ->
    In (a, a + List.length (al_items y), shift a (al_grps y)) (finditer s (kre_re k)).
  Proof.
    intros Ek Sy Un [A B] La Oy. apply Bool.andb_true_iff in Sy as [S1 S2]. rewrite forallb_forall in S1, S2.
    pose proof Oy as Oy'. unfold alt_ok in Oy'. apply Bool.andb_true_iff in Oy' as [Iy _].
    assert (Hy : In y (alts k)) by (rewrite Ek; apply in_or_app; right; left; reflexivity).
    assert (exists d, M s (kre_re k) a [] (a + List.length (al_items y)) d) as [d HM].
    { destruct (first_some_In (taken s a [] (fun j e => if Nat.eqb j (a + List.length (al_items y)) then Some (j, e) else None)) (alts k) y (a + List.length (al_items y), shift a (al_grps y) ++ []) Hy) as [[z w] E].
      - unfold taken. rewrite Oy, Nat.eqb_refl. reflexivity.
      - rewrite <- mtch_alts in E. apply mtch_sound in E as (j & e & HM & E). destruct (Nat.eqb_spec j (a + List.length (al_items y))) as [->|]; [eauto|discriminate]. }
    destruct (finditer_complete s (kre_re k) kre_consumes a _ d La HM) as (b' & c' & Hf).
    { intros a' b' e La' HM'. destruct (M_alt s k a' b' e HM' ltac:(lia)) as (x & Hx & Ox & ->). unfold alt_ok in Ox. apply Bool.andb_true_iff in Ox as [Ix _].
      destruct (Nat.le_gt_cases (a' + List.length (al_items x)) a) as [|G]; [assumption|exfalso].
      assert (h : hides (al_items x) (al_items y) = true) by (apply (hides_true s a' (al_items x) (al_items y) a Ix Iy); [lia|]; intros c E; apply (A c); [lia|exact E]).
      specialize (S2 (al_items x) (in_map al_items _ _ Hx)). rewrite h in S2. discriminate. }
    pose proof Hf as Hf'. apply finditer_sound in Hf' as (_ & E & _); [|exact kre_consumes]. unfold match_at in E. rewrite mtch_alts in E.
    apply first_some_inv in E as (u' & x & v' & El & F & Fu). unfold taken in F. destruct (alt_ok s a x) eqn:Ox; [|discriminate]. injection F as Eb' Ec'.
    pose proof Ox as Ox'. unfold alt_ok in Ox'. apply Bool.andb_true_iff in Ox' as [Ix _].
    assert (Hx : In x (alts k)) by (rewrite El; apply in_or_app; right; left; reflexivity).
    assert (Lx : List.length (al_items x) = List.length (al_items y)).
    { (* [x] is not after [y] *)
      destruct (Nat.eq_dec (List.length (al_items x)) (List.length (al_items y))) as [|Ne]; [assumption|exfalso].
      assert (Hu : In x u).
      { assert (Q : ~ In y u') by (intros Hu; specialize (Fu y Hu); unfold taken in Fu; rewrite Oy in Fu; discriminate).
        rewrite Ek in El. clear - El Q Ne. revert u' El Q. induction u as [|z u IH]; intros [|z' u'] El Q; cbn [app] in El.
        - injection El as -> _. congruence.
        - injection El as -> _. destruct Q. left; reflexivity.
        - injection El as -> _. left; reflexivity.
        - injection El as -> El. right. apply (IH u' El). intros H. apply Q. right; exact H. }
      specialize (S1 (al_items x) (in_map al_items _ _ Hu)).
      rewrite (clash_true s a (al_items x) (al_items y) Ix Iy Ne) in S1; [discriminate|]. intros c E. apply B. exact E. }
    rewrite Lx in Eb'. rewrite <- Ec' in Hf. rewrite <- Eb' in Hf. rewrite app_nil_r in Hf. rewrite (Un x Hx Lx (overlap_true s a _ _ Ix Iy)) in Hf. exact Hf.
  Qed.
End Found.
