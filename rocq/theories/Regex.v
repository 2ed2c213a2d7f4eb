(** A backtracking matcher for the regular expressions of /repo that are modelled.
    It is the vocabulary for Python's [re]/[regex] module (not in /repo): ordered
    alternatives, greedy repetition, numbered capture groups, [^] and [$].
    Simplifications: no flags other than those written in the character classes; an
    iteration of a star must consume at least one character. *)
From Verif Require Import Py.

Inductive re :=
| REps
| RChr (p : N -> bool)
| RSeq (a b : re)
| RAlt (a b : re)
| RStar (a : re)
| RGrp (n : nat) (a : re)
| RBol
| REol
| RNext (p : option N -> bool)       (** a test of the next character, if any: [(?!E)], [(?=[^\d]|$)] *)
| RLook (a : re).                    (** [(?=a)] *)

(** captured spans, the last one first *)
Definition caps := list (nat * (nat * nat)).

Section Match.
  Context (s : str).
  (** [$]: the end, or before a final newline *)
  Definition at_eol (i : nat) : bool :=
    Nat.eqb i (List.length s) ||
    (Nat.eqb (S i) (List.length s) && match nth_error s i with Some c => N.eqb c 10 | None => false end).

  Fixpoint mtch {A} (r : re) (i : nat) (c : caps) (k : nat -> caps -> option A) {struct r} : option A :=
    match r with
    | REps => k i c
    | RChr p => match nth_error s i with Some x => if p x then k (S i) c else None | None => None end
    | RSeq a b => mtch a i c (fun j c' => mtch b j c' k)
    | RAlt a b => match mtch a i c k with Some x => Some x | None => mtch b i c k end
    | RStar a =>
        (fix star (fuel : nat) (i : nat) (c : caps) {struct fuel} : option A :=
           match fuel with
           | O => k i c
           | S f => match mtch a i c (fun j c' => if j <=? i then None else star f j c') with
                    | Some x => Some x
                    | None => k i c
                    end
           end) (List.length s - i) i c
    | RGrp n a => mtch a i c (fun j c' => k j ((n, (i, j)) :: c'))
    | RBol => if Nat.eqb i 0 then k i c else None
    | REol => if at_eol i then k i c else None
    | RNext p => if p (nth_error s i) then k i c else None
    | RLook a => match mtch a i c (fun _ _ => Some tt) with Some _ => k i c | None => None end
    end.

  (** [pattern.match(s, pos)] *)
  Definition match_at (r : re) (i : nat) : option (nat * caps) := mtch r i [] (fun j c => Some (j, c)).
  (** [pattern.search(s, pos)]: start, end, groups *)
  Fixpoint search_loop (r : re) (n i : nat) : option (nat * nat * caps) :=
    match match_at r i with
    | Some (j, c) => Some (i, j, c)
    | None => match n with O => None | S n' => search_loop r n' (S i) end
    end.
  Definition search (r : re) (pos : nat) : option (nat * nat * caps) :=
    if List.length s <? pos then None else search_loop r (List.length s - pos) pos.
  (** [pattern.finditer(s)], for a pattern that never matches the empty string *)
  Fixpoint finditer_loop (r : re) (fuel pos : nat) : list (nat * nat * caps) :=
    match fuel with
    | O => []
    | S f => match search r pos with
             | Some (a, b, c) => (a, b, c) :: finditer_loop r f b
             | None => []
             end
    end.
  Definition finditer (r : re) : list (nat * nat * caps) := finditer_loop r (S (List.length s)) 0.
End Match.

(** span of a group of a match: [m.span(n)] *)
Fixpoint group (n : nat) (c : caps) : option (nat * nat) :=
  match c with
  | [] => None
  | (m, sp) :: r => if Nat.eqb n m then Some sp else group n r
  end.

(** [a{m}], [a{m,n}], [a{m,}], [a?] *)
Fixpoint rrep (a : re) (m : nat) : re := match m with O => REps | S m' => RSeq a (rrep a m') end.
Fixpoint ropt (a : re) (n : nat) : re := match n with O => REps | S n' => RAlt (RSeq a (ropt a n')) REps end.
Definition rrange (a : re) (m n : nat) : re := RSeq (rrep a m) (ropt a (n - m)).
Definition ratleast (a : re) (m : nat) : re := RSeq (rrep a m) (RStar a).

(** * Declarative meaning *)
Inductive M (s : str) : re -> nat -> caps -> nat -> caps -> Prop :=
| M_eps i c : M s REps i c i c
| M_chr p i c x : nth_error s i = Some x -> p x = true -> M s (RChr p) i c (S i) c
| M_seq a b i c j d k e : M s a i c j d -> M s b j d k e -> M s (RSeq a b) i c k e
| M_alt_l a b i c j d : M s a i c j d -> M s (RAlt a b) i c j d
| M_alt_r a b i c j d : M s b i c j d -> M s (RAlt a b) i c j d
| M_star_0 a i c : M s (RStar a) i c i c
| M_star_S a i c j d k e : i < j -> M s a i c j d -> M s (RStar a) j d k e -> M s (RStar a) i c k e
| M_grp n a i c j d : M s a i c j d -> M s (RGrp n a) i c j ((n, (i, j)) :: d)
| M_bol c : M s RBol 0 c 0 c
| M_eol i c : at_eol s i = true -> M s REol i c i c
| M_next p i c : p (nth_error s i) = true -> M s (RNext p) i c i c
| M_look a i c j d : M s a i c j d -> M s (RLook a) i c i c.

Lemma mtch_sound {A} s r : forall i c (k : nat -> caps -> option A) x,
  mtch s r i c k = Some x -> exists j d, M s r i c j d /\ k j d = Some x.
Proof.
  revert A. induction r as [|p|a IHa b IHb|a IHa b IHb|a IHa|n a IHa| | |p|a IHa]; intros A i c k x; cbn [mtch].
  - intros H. exists i, c. split; [constructor|exact H].
  - destruct (nth_error s i) as [y|] eqn:E; [|discriminate]. destruct (p y) eqn:Ep; [|discriminate].
    intros H. exists (S i), c. split; [econstructor; eassumption|exact H].
  - intros H. apply IHa in H as (j & d & Ha & H). apply IHb in H as (l & e & Hb & H).
    exists l, e. split; [econstructor; eassumption|exact H].
  - destruct (mtch s a i c k) as [y|] eqn:E.
    + intros H; injection H as ->. apply IHa in E as (j & d & Ha & H). exists j, d. split; [apply M_alt_l; exact Ha|exact H].
    + intros H. apply IHb in H as (j & d & Hb & H). exists j, d. split; [apply M_alt_r; exact Hb|exact H].
  - generalize (List.length s - i) as fuel. intros fuel. revert i c. induction fuel as [|f IHf]; intros i c.
    + intros H. exists i, c. split; [constructor|exact H].
    + destruct (mtch s a i c _) as [y|] eqn:E.
      * intros H; injection H as ->. apply IHa in E as (j & d & Ha & H).
        destruct (j <=? i) eqn:Ej; [discriminate|]. apply Nat.leb_gt in Ej.
        apply IHf in H as (l & e & Hs & H). exists l, e. split; [econstructor; eassumption|exact H].
      * intros H. exists i, c. split; [constructor|exact H].
  - intros H. apply IHa in H as (j & d & Ha & H). exists j, ((n, (i, j)) :: d). split; [constructor; exact Ha|exact H].
  - destruct i; simpl; [|discriminate]. intros H. exists 0, c. split; [constructor|exact H].
  - destruct (at_eol s i) eqn:E; [|discriminate]. intros H. exists i, c. split; [constructor; exact E|exact H].
  - destruct (p (nth_error s i)) eqn:E; [|discriminate]. intros H. exists i, c. split; [constructor; exact E|exact H].
  - destruct (mtch s a i c (fun _ _ => Some tt)) as [u|] eqn:E; [|discriminate]. intros H. apply IHa in E as (j & d & Ha & _). exists i, c. split; [econstructor; exact Ha|exact H].
Qed.

Lemma M_mono s r i c j d : M s r i c j d -> i <= j /\ (i <= List.length s -> j <= List.length s).
Proof.
  induction 1; try lia.
  assert (i < List.length s) by (apply nth_error_Some; congruence). lia.
Qed.

Lemma mtch_complete {A} s r : forall i c j d, M s r i c j d -> i <= List.length s ->
  forall (k : nat -> caps -> option A) x, k j d = Some x -> exists y, mtch s r i c k = Some y.
Proof.
  revert A. induction r as [|p|a IHa b IHb|a IHa b IHb|a IHa|n a IHa| | |p|a IHa]; intros A i c j d H Hi k y Hk; cbn [mtch].
  - inversion H; subst. eauto.
  - inversion H as [|p' i' c' x E Ep| | | | | | | | | |]; subst. rewrite E, Ep. eauto.
  - inversion H as [| |a' b' i' c' j1 d1 k' e' H1 H2| | | | | | | | |]; subst.
    destruct (IHb _ _ _ _ _ H2 (proj2 (M_mono _ _ _ _ _ _ H1) Hi) k y Hk) as [z Hz].
    exact (IHa _ _ _ _ _ H1 Hi (fun j c' => mtch s b j c' k) z Hz).
  - destruct (mtch s a i c k) as [w|] eqn:E; [eauto|].
    inversion H as [| | |a' b' i' c' j' d' H1|a' b' i' c' j' d' H1| | | | | | |]; subst; [|exact (IHb _ _ _ _ _ H1 Hi k y Hk)].
    destruct (IHa _ _ _ _ _ H1 Hi k y Hk) as [z Hz]. congruence.
  - match goal with |- exists z, ?f _ _ _ = _ => set (star := f) end.
    assert (G : forall fuel, List.length s - i <= fuel -> exists z, star fuel i c = Some z); [|apply G; lia].
    remember (RStar a) as r eqn:Er. revert Hi Hk. induction H as [| | | | |a' i c|a' i c j d l e Hij H1 _ H2 IH2| | | | |]; intros Hi Hk fuel Hf; try discriminate.
    + destruct fuel as [|f]; [exists y; exact Hk|]. unfold star. cbn [mtch]. fold star.
      match goal with |- context [match ?e with Some _ => _ | None => _ end] => destruct e as [w|] end; eauto.
    + injection Er as ->. pose proof (proj2 (M_mono _ _ _ _ _ _ H1) Hi) as Hj.
      destruct fuel as [|f]; [lia|]. destruct (IH2 eq_refl Hj Hk f ltac:(lia)) as [z Hz].
      destruct (IHa _ _ _ _ _ H1 Hi (fun j c' => if j <=? i then None else star f j c') z) as [w Hw].
      { cbv beta. destruct (Nat.leb_spec j i); [lia|exact Hz]. }
      exists w. change (match mtch s a i c (fun j c' => if j <=? i then None else star f j c') with Some x => Some x | None => k i c end = Some w).
      rewrite Hw. reflexivity.
  - inversion H as [| | | | | | |n' a' i' c' j' d' H1| | | |]; subst. exact (IHa _ _ _ _ _ H1 Hi (fun j c' => k j ((n, (i, j)) :: c')) y Hk).
  - inversion H; subst. simpl. eauto.
  - inversion H as [| | | | | | | | |i' c' E| |]; subst. rewrite E. eauto.
  - inversion H as [| | | | | | | | | |p' i' c' E|]; subst. rewrite E. eauto.
  - inversion H as [| | | | | | | | | | |a' i' c' j' d' H1]; subst. destruct (IHa unit _ _ _ _ H1 Hi (fun _ _ => Some tt) tt eq_refl) as [z Hz]. rewrite Hz. eauto.
Qed.

(** * search: the leftmost position that matches *)
Lemma search_loop_spec s r n : forall i,
  match search_loop s r n i with
  | Some (a, b, c) => i <= a <= i + n /\ M s r a [] b c /\ (forall a', i <= a' < a -> match_at s r a' = None)
  | None => forall a, i <= a <= i + n -> match_at s r a = None
  end.
Proof.
  induction n as [|n IH]; intros i; cbn [search_loop].
  - destruct (match_at s r i) as [[j c]|] eqn:E.
    + unfold match_at in E. apply mtch_sound in E as (j' & d & H & E). injection E as -> ->. split; [lia|]. split; [exact H|intros a' Ha; lia].
    + intros a Ha. replace a with i by lia. exact E.
  - destruct (match_at s r i) as [[j c]|] eqn:E.
    + unfold match_at in E. apply mtch_sound in E as (j' & d & H & E). injection E as -> ->. split; [lia|]. split; [exact H|intros a' Ha; lia].
    + specialize (IH (S i)). destruct (search_loop s r n (S i)) as [[[a b] c]|].
      * destruct IH as (H1 & H2 & H3). split; [lia|]. split; [exact H2|]. intros a' Ha. destruct (Nat.eq_dec a' i) as [->|]; [exact E|apply H3; lia].
      * intros a Ha. destruct (Nat.eq_dec a i) as [->|]; [exact E|apply IH; lia].
Qed.
Lemma no_match_at s r a : a <= List.length s -> match_at s r a = None <-> forall b c, ~ M s r a [] b c.
Proof.
  intros Ha. split.
  - intros E b c H. destruct (mtch_complete s r a [] b c H Ha (fun j c => Some (j, c)) (b, c) eq_refl) as [y Hy]. unfold match_at in E. congruence.
  - intros H. destruct (match_at s r a) as [[j c]|] eqn:E; [|reflexivity]. apply mtch_sound in E as (j' & d & HM & E). destruct (H j' d HM).
Qed.
Lemma search_spec s r pos :
  match search s r pos with
  | Some (a, b, c) => pos <= a <= b /\ b <= List.length s /\ M s r a [] b c /\ (forall a' b' c', pos <= a' < a -> ~ M s r a' [] b' c')
  | None => forall a b c, pos <= a <= List.length s -> ~ M s r a [] b c
  end.
Proof.
  unfold search. destruct (Nat.ltb_spec (List.length s) pos) as [H|H]; [intros a b c Ha; lia|].
  pose proof (search_loop_spec s r (List.length s - pos) pos) as Hs. destruct (search_loop _ _ _ _) as [[[a b] c]|].
  - destruct Hs as (H1 & H2 & H3). pose proof (M_mono _ _ _ _ _ _ H2) as [H4 H5]. split; [lia|]. split; [apply H5; lia|]. split; [exact H2|].
    intros a' b' c' Ha'. apply no_match_at; [lia|apply H3; exact Ha'].
  - intros a b c Ha. apply no_match_at; [lia|apply Hs; lia].
Qed.
(** what is captured lies within the match *)
Lemma M_caps s r i c j d : M s r i c j d -> exists e, d = e ++ c /\ Forall (fun g => i <= fst (snd g) <= snd (snd g) /\ snd (snd g) <= j) e.
Proof.
  induction 1 as [i c|p i c x E Ep|a b i c j d l e H1 IH1 H2 IH2|a b i c j d H IH|a b i c j d H IH|a i c|a i c j d l e Hij H1 IH1 H2 IH2|n a i c j d H IH|c|i c E|p i c E|a i c j d H IH];
    try (exists []; split; [reflexivity|constructor]); try assumption.
  - destruct IH1 as (e1 & -> & F1), IH2 as (e2 & -> & F2). exists (e2 ++ e1). split; [apply app_assoc|].
    apply M_mono in H1, H2. apply Forall_app; split; (eapply Forall_impl; [|eassumption]); cbv beta; intros [m [x y]]; simpl; lia.
  - destruct IH1 as (e1 & -> & F1), IH2 as (e2 & -> & F2). exists (e2 ++ e1). split; [apply app_assoc|].
    apply M_mono in H1, H2. apply Forall_app; split; (eapply Forall_impl; [|eassumption]); cbv beta; intros [m [x y]]; simpl; lia.
  - destruct IH as (e1 & -> & F1). exists ((n, (i, j)) :: e1). split; [reflexivity|]. apply M_mono in H. constructor; [simpl; lia|exact F1].
Qed.
Lemma group_In n c sp : group n c = Some sp -> In (n, sp) c.
Proof. induction c as [|[m sp'] r IH]; simpl; [discriminate|]. destruct (Nat.eqb_spec n m) as [->|]; [intros H; injection H as ->; auto|auto]. Qed.
Lemma group_within s r i j d n a b : M s r i [] j d -> group n d = Some (a, b) -> i <= a <= b /\ b <= j.
Proof.
  intros H Hg. apply M_caps in H as (e & -> & F). rewrite app_nil_r in Hg. apply group_In in Hg. rewrite Forall_forall in F. exact (F _ Hg).
Qed.
