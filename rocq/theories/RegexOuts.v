(** All the ways a regular expression can match at a position, in the order in which the matcher of Regex.v tries
    them; and the characters a match reads. *)
From Verif Require Import Py Text TextFacts WordsProofs Regex CrcProofs DateProofs RegexFacts Date.
From Coq Require Import Arith.
Local Open Scope nat_scope.

Section Outs.
  Context (s : str).
  Fixpoint outs (r : re) (i : nat) (c : caps) : list (nat * caps) :=
    match r with
    | REps => [(i, c)]
    | RChr p => match nth_error s i with Some x => if p x then [(S i, c)] else [] | None => [] end
    | RSeq a b => flat_map (fun o => outs b (fst o) (snd o)) (outs a i c)
    | RAlt a b => outs a i c ++ outs b i c
    | RStar a =>
        (fix star (fuel : nat) (i : nat) (c : caps) {struct fuel} : list (nat * caps) :=
           match fuel with
           | O => [(i, c)]
           | S f => flat_map (fun o => if fst o <=? i then [] else star f (fst o) (snd o)) (outs a i c) ++ [(i, c)]
           end) (List.length s - i) i c
    | RGrp n a => map (fun o => (fst o, (n, (i, fst o)) :: snd o)) (outs a i c)
    | RBol => if Nat.eqb i 0 then [(i, c)] else []
    | REol => if at_eol s i then [(i, c)] else []
    | RNext p => if p (nth_error s i) then [(i, c)] else []
    | RLook a => match outs a i c with [] => [] | _ => [(i, c)] end
    end.
  Fixpoint first_of {A} (k : nat -> caps -> option A) (l : list (nat * caps)) : option A :=
    match l with [] => None | o :: r => match k (fst o) (snd o) with Some x => Some x | None => first_of k r end end.
  Lemma first_app {A} (k : nat -> caps -> option A) l l' : first_of k (l ++ l') = match first_of k l with Some x => Some x | None => first_of k l' end.
  Proof. induction l as [|o l IH]; [reflexivity|]. cbn [app first_of]. destruct (k (fst o) (snd o)); [reflexivity|exact IH]. Qed.
  Lemma first_flat {A} (k : nat -> caps -> option A) f l : first_of k (flat_map f l) = first_of (fun j d => first_of k (f (j, d))) l.
  Proof. induction l as [|[j d] l IH]; [reflexivity|]. cbn [flat_map first_of fst snd]. rewrite first_app, IH. reflexivity. Qed.
  Lemma first_map {A} (k : nat -> caps -> option A) f l : first_of k (map f l) = first_of (fun j d => k (fst (f (j, d))) (snd (f (j, d)))) l.
  Proof. induction l as [|[j d] l IH]; [reflexivity|]. cbn [map first_of fst snd]. rewrite IH. reflexivity. Qed.
  Lemma first_ext {A} (k k' : nat -> caps -> option A) l : (forall j d, k j d = k' j d) -> first_of k l = first_of k' l.
  Proof. intros H. induction l as [|[j d] l IH]; [reflexivity|]. cbn [first_of fst snd]. rewrite H, IH. reflexivity. Qed.
  Lemma mtch_outs r : forall {A} i c (k : nat -> caps -> option A), mtch s r i c k = first_of k (outs r i c).
  Proof.
    induction r as [|p|a IHa b IHb|a IHa b IHb|a IHa|n a IHa| | |p|a IHa]; intros A i c k; cbn [mtch outs].
    - cbn [first_of fst snd]. destruct (k i c); reflexivity.
    - destruct (nth_error s i) as [x|]; [|reflexivity]. destruct (p x); [|reflexivity]. cbn [first_of fst snd]. destruct (k (S i) c); reflexivity.
    - rewrite IHa, first_flat. apply first_ext. intros j d. cbn [fst snd]. apply IHb.
    - rewrite first_app, <- IHa, <- IHb. reflexivity.
    - generalize (List.length s - i) as fuel. intros fuel. revert i c. induction fuel as [|f IHf]; intros i c.
      + cbn [first_of fst snd]. destruct (k i c); reflexivity.
      + rewrite first_app. rewrite first_flat. cbn [first_of fst snd]. rewrite IHa.
        rewrite (first_ext _ (fun j d => first_of k (if j <=? i then [] else (fix star (fuel : nat) (i : nat) (c : caps) {struct fuel} : list (nat * caps) :=
           match fuel with
           | O => [(i, c)]
           | S f => flat_map (fun o => if fst o <=? i then [] else star f (fst o) (snd o)) (outs a i c) ++ [(i, c)]
           end) f j d))).
        * match goal with |- match ?x with _ => _ end = _ => destruct x; [reflexivity|] end. destruct (k i c); reflexivity.
        * intros j d. destruct (j <=? i); [reflexivity|]. apply IHf.
    - rewrite IHa, first_map. reflexivity.
    - destruct (Nat.eqb i 0); [|reflexivity]. cbn [first_of fst snd]. destruct (k i c); reflexivity.
    - destruct (at_eol s i); [|reflexivity]. cbn [first_of fst snd]. destruct (k i c); reflexivity.
    - destruct (p (nth_error s i)); [|reflexivity]. cbn [first_of fst snd]. destruct (k i c); reflexivity.
    - rewrite IHa. destruct (outs a i c) as [|o l]; cbn [first_of fst snd]; [reflexivity|]. destruct (k i c); reflexivity.
  Qed.

  (** the first way *)
  Definition best (r : re) (i : nat) (c : caps) : option (nat * caps) := hd_error (outs r i c).
  Lemma best_match r i : match_at s r i = best r i [].
  Proof. unfold match_at, best. rewrite mtch_outs. destruct (outs r i []) as [|[j d] l]; reflexivity. Qed.
  Lemma mtch_total {A} r i c (k : nat -> caps -> option A) : (forall j d, k j d <> None) -> mtch s r i c k = match best r i c with Some (j, d) => k j d | None => None end.
  Proof. intros H. rewrite mtch_outs. unfold best. destruct (outs r i c) as [|[j d] l]; [reflexivity|]. cbn [first_of fst snd hd_error]. destruct (k j d) eqn:E; [reflexivity|]. destruct (H j d E). Qed.
  Lemma best_alt a b i c : best (RAlt a b) i c = match best a i c with Some o => Some o | None => best b i c end.
  Proof. unfold best. cbn [outs]. destruct (outs a i c); reflexivity. Qed.
  Lemma best_grp n a i c : best (RGrp n a) i c = match best a i c with Some (j, d) => Some (j, (n, (i, j)) :: d) | None => None end.
  Proof. unfold best. cbn [outs]. destruct (outs a i c) as [|[j d] l]; reflexivity. Qed.
  Lemma best_seq a b i c : (forall j d, best b j d <> None) -> best (RSeq a b) i c = match best a i c with Some (j, d) => best b j d | None => None end.
  Proof.
    intros H. unfold best in *. cbn [outs]. destruct (outs a i c) as [|[j d] l]; [reflexivity|]. cbn [flat_map fst snd hd_error]. specialize (H j d).
    destruct (outs b j d); [contradiction|reflexivity].
  Qed.
  Lemma best_seq_one a b i c j d : outs a i c = [(j, d)] -> best (RSeq a b) i c = best b j d.
  Proof. intros H. unfold best. cbn [outs]. rewrite H. cbn [flat_map fst snd]. rewrite app_nil_r. reflexivity. Qed.
  Lemma best_seq_none a b i c : best a i c = None -> best (RSeq a b) i c = None.
  Proof. unfold best. cbn [outs]. destruct (outs a i c); [reflexivity|discriminate]. Qed.
  Lemma best_look a i c : best (RLook a) i c = match best a i c with Some _ => Some (i, c) | None => None end.
  Proof. unfold best. cbn [outs]. destruct (outs a i c); reflexivity. Qed.
  Lemma outs_M r i c j d : In (j, d) (outs r i c) -> M s r i c j d.
  Proof.
    revert i c j d. induction r as [|p|a IHa b IHb|a IHa b IHb|a IHa|n a IHa| | |p|a IHa]; intros i c j d; cbn [outs].
    - intros [E|[]]. injection E as <- <-. constructor.
    - destruct (nth_error s i) as [x|] eqn:E; [|intros []]. destruct (p x) eqn:Ep; [|intros []]. intros [H|[]]. injection H as <- <-. econstructor; eassumption.
    - intros H. apply in_flat_map in H as ([k e] & H1 & H2). cbn [fst snd] in H2. econstructor; [apply IHa, H1|apply IHb, H2].
    - intros H. apply in_app_iff in H as [H|H]; [apply M_alt_l, IHa, H|apply M_alt_r, IHb, H].
    - generalize (List.length s - i) as fuel. intros fuel. revert i c. induction fuel as [|f IHf]; intros i c.
      + intros [E|[]]. injection E as <- <-. constructor.
      + intros H. apply in_app_iff in H as [H|[E|[]]]; [|injection E as <- <-; constructor].
        apply in_flat_map in H as ([k e] & H1 & H2). cbn [fst snd] in H2. destruct (k <=? i) eqn:L; [destruct H2|]. apply Nat.leb_gt in L.
        econstructor; [exact L|apply IHa, H1|apply IHf, H2].
    - intros H. apply in_map_iff in H as ([k e] & E & H). cbn [fst snd] in E. injection E as <- <-. constructor. apply IHa, H.
    - destruct (Nat.eqb_spec i 0); [|intros []]. intros [E|[]]. injection E as <- <-. subst. constructor.
    - destruct (at_eol s i) eqn:E; [|intros []]. intros [E'|[]]. injection E' as <- <-. constructor. exact E.
    - destruct (p (nth_error s i)) eqn:E; [|intros []]. intros [E'|[]]. injection E' as <- <-. constructor. exact E.
    - destruct (outs a i c) as [|[k e] l] eqn:E; [intros []|]. intros [E'|[]]. injection E' as <- <-. apply (M_look s a i c k e). apply IHa. rewrite E. left. reflexivity.
  Qed.

  (** the characters a match reads *)
  Fixpoint only (P : N -> Prop) (r : re) : Prop :=
    match r with
    | RChr p => forall x, p x = true -> P x
    | RSeq a b | RAlt a b => only P a /\ only P b
    | RStar a | RGrp _ a => only P a
    | _ => True
    end.
  Lemma M_only P r i c j d : M s r i c j d -> only P r -> forall k, i <= k < j -> exists x, nth_error s k = Some x /\ P x.
  Proof.
    induction 1 as [i c|p i c x E Ep|a b i c j d k e Ha IHa Hb IHb|a b i c j d Ha IHa|a b i c j d Ha IHa|a i c|a i c j d k e L Ha IHa Hs IHs|n a i c j d Ha IHa|c|i c H|p i c H|a i c j d Ha IHa]; cbn [only]; intros O m Hm; try lia.
    - exists x. replace m with i by lia. auto.
    - destruct O as [Oa Ob]. destruct (Nat.lt_ge_cases m j); [apply IHa; [exact Oa|lia]|apply IHb; [exact Ob|lia]].
    - apply IHa; [tauto|exact Hm].
    - apply IHa; [tauto|exact Hm].
    - destruct (Nat.lt_ge_cases m j); [apply IHa; [exact O|lia]|apply IHs; [exact O|lia]].
    - apply IHa; [exact O|exact Hm].
  Qed.
  Lemma only_rrep P a n : only P a -> only P (rrep a n).
  Proof. intros H. induction n as [|n IH]; cbn [rrep only]; auto. Qed.
  Lemma only_ropt P a n : only P a -> only P (ropt a n).
  Proof. intros H. induction n as [|n IH]; cbn [ropt only]; auto. Qed.
  Lemma only_range P a m n : only P a -> only P (rrange a m n).
  Proof. intros H. split; [apply only_rrep|apply only_ropt]; exact H. Qed.
  Lemma only_rlit (P : N -> Prop) w : (forall x, In (to_lower x) w -> P x) -> only P (rlit w).
  Proof.
    intros H. assert (G : forall v, (forall y, In y v -> In y w) -> only P (rlit v)); [|apply G; auto].
    induction v as [|y v IH]; intros Hv; cbn [rlit only]; [exact I|]. split; [|apply IH; intros z Hz; apply Hv; right; exact Hz].
    intros x E. apply N.eqb_eq in E. apply H, Hv. left. symmetry. exact E.
  Qed.
End Outs.
