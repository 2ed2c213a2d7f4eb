(** C111: which texts the website patterns find. *)
From Verif Require Import Py PyFacts Text TextFacts WordsProofs Regex CrcProofs DateProofs RegexFacts RegexOuts Date Rebulk RebulkFacts Episodes Patterns PatternsProps SxxProps Sites.
From Coq Require Import Arith ZifyBool ZifyNat ZifyN.
Local Open Scope nat_scope.

(** ** Specification *)
Definition letter_or_digit (c : N) : Prop := (97 <= c <= 122)%N \/ (65 <= c <= 90)%N \/ (48 <= c <= 57)%N.
(** one of the words, in any case *)
Definition listed (l : list str) (t : str) : Prop := exists w, In w l /\ lower t = lower w.
(** a part of the name of a host *)
Definition label (t : str) : Prop := t <> [] /\ forall c, In c t -> letter_or_digit c \/ c = 45%N.
Definition dotted (l : list str) : str := List.concat (map (fun u => u ++ [46%N]) l).
(** [www.] one or several times, labels, a domain *)
Definition site1 (subs tlds : list str) (t : str) : Prop :=
  exists us ls z, us <> [] /\ Forall (listed subs) us /\ ls <> [] /\ Forall label ls /\ listed tlds z /\ t = dotted us ++ dotted ls ++ z.
(** [www.] any number of times, a label, a sure domain *)
Definition site2 (subs safe : list str) (t : str) : Prop :=
  exists us l z, Forall (listed subs) us /\ label l /\ listed safe z /\ t = dotted us ++ dotted [l] ++ z.
(** [www.] any number of times, a label, sure words, a domain *)
Definition site3 (subs prefixes tlds : list str) (t : str) : Prop :=
  exists us l ps z, Forall (listed subs) us /\ label l /\ ps <> [] /\ Forall (listed prefixes) ps /\ listed tlds z /\ t = dotted us ++ dotted [l] ++ dotted ps ++ z.
Definition site (subs safe prefixes tlds : list str) (t : str) : Prop := site1 subs tlds t \/ site2 subs safe t \/ site3 subs prefixes tlds t.
(** no letter or digit touches it *)
Definition bounded (s : str) (a b : nat) : Prop :=
  (forall c, 0 < a -> nth_error s (a - 1) = Some c -> ~ letter_or_digit c) /\ (forall c, nth_error s b = Some c -> ~ letter_or_digit c).
(** a character of the name of a host *)
Definition of_host (c : N) : Prop := letter_or_digit c \/ c = 45%N \/ c = 46%N.
(** two characters before it and one after it cannot be in the name of a host, and it does not begin with a hyphen if nothing is before it *)
Definition apart (s : str) (a b : nat) : Prop :=
  (forall k c, k < a <= k + 2 -> nth_error s k = Some c -> ~ of_host c) /\ (forall c, nth_error s b = Some c -> ~ of_host c) /\ (a = 0 -> nth_error s 0 <> Some 45%N).
(** words made of letters and digits *)
Definition plain (l : list str) : Prop := forall w c, In w l -> In c w -> letter_or_digit c.

(** ** Lemmas *)
Lemma alnum_iff c : is_alpha c || is_digit c = true <-> letter_or_digit c.
Proof. unfold letter_or_digit, is_alpha, is_upper, is_lower, is_digit. lia. Qed.
Lemma no_alnum_iff c : no_alnum c = true <-> ~ letter_or_digit c.
Proof. unfold no_alnum. rewrite <- alnum_iff. destruct (is_alpha c || is_digit c); cbn [negb]; intuition congruence. Qed.
Lemma host_iff c : host_char c = true <-> letter_or_digit c \/ c = 45%N.
Proof. unfold host_char. rewrite orb_true_iff, alnum_iff, N.eqb_eq. reflexivity. Qed.
Lemma lower_alnum c : letter_or_digit (to_lower c) -> letter_or_digit c.
Proof. unfold letter_or_digit, to_lower, is_upper. destruct ((65 <=? c)%N && (c <=? 90)%N) eqn:E; lia. Qed.
Lemma plain_listed l t c : plain l -> listed l t -> In c t -> letter_or_digit c.
Proof.
  intros P (w & Iw & E) I. apply lower_alnum. assert (H : In (to_lower c) (lower w)) by (rewrite <- E; apply in_map, I).
  apply in_map_iff in H as (y & Ey & Iy). specialize (P w y Iw Iy). rewrite <- Ey. revert P. unfold letter_or_digit, to_lower, is_upper. destruct ((65 <=? y)%N && (y <=? 90)%N) eqn:E1; lia.
Qed.
Lemma dotted_app u v : dotted (u ++ v) = dotted u ++ dotted v.
Proof. unfold dotted. rewrite map_app, concat_app. reflexivity. Qed.
Lemma dotted_cons u v : dotted (u :: v) = u ++ 46%N :: dotted v.
Proof. unfold dotted. cbn [map List.concat]. rewrite <- app_assoc. reflexivity. Qed.

Section Star.
  Context (s : str) (X : re).
  Definition starf {A} (k : nat -> caps -> option A) : nat -> nat -> caps -> option A :=
    fix star (fuel : nat) (i : nat) (c : caps) {struct fuel} : option A :=
    match fuel with
    | O => k i c
    | S f => match mtch s X i c (fun j c' => if j <=? i then None else star f j c') with Some x => Some x | None => k i c end
    end.
  Lemma starf_O {A} (k : nat -> caps -> option A) i c : starf k 0 i c = k i c.
  Proof. reflexivity. Qed.
  Lemma starf_S {A} (k : nat -> caps -> option A) f i c :
    starf k (S f) i c = match mtch s X i c (fun j c' => if j <=? i then None else starf k f j c') with Some x => Some x | None => k i c end.
  Proof. reflexivity. Qed.
  Lemma mtch_star {A} i c (k : nat -> caps -> option A) : mtch s (RStar X) i c k = starf k (List.length s - i) i c.
  Proof. reflexivity. Qed.
  Lemma starf_some {A} (k : nat -> caps -> option A) i c j d : M s (RStar X) i c j d -> forall f, i <= List.length s -> List.length s - i <= f -> k j d <> None -> starf k f i c <> None.
  Proof.
    intros H. remember (RStar X) as r eqn:Er. induction H as [| | | | |a i c|a i c j d k' e L Ha _ Hs IHs| | | | |]; try discriminate; injection Er as ->; intros f Li Lf Hk.
    - destruct f as [|f]; [rewrite starf_O; exact Hk|rewrite starf_S]. destruct (mtch _ _ _ _ _); [discriminate|exact Hk].
    - pose proof (M_mono _ _ _ _ _ _ Ha) as [_ M2]. specialize (M2 Li). destruct f as [|f]; [lia|]. rewrite starf_S.
      assert (G : starf k f j d <> None) by (apply (IHs eq_refl); [lia|lia|exact Hk]).
      destruct (starf k f j d) as [y|] eqn:Ey; [|congruence].
      destruct (mtch_complete (A := A) s X i c j d Ha Li (fun j c' => if j <=? i then None else starf k f j c') y) as [z Ez]; [cbn; destruct (Nat.leb_spec j i); [lia|exact Ey]|].
      rewrite Ez. discriminate.
  Qed.
  (** the first way a star succeeds cannot be lengthened *)
  Lemma starf_first {A} (k : nat -> caps -> option A) x : forall f i c, i <= List.length s -> List.length s - i <= f -> starf k f i c = Some x ->
    exists j d, M s (RStar X) i c j d /\ k j d = Some x /\ forall m dm j' d', j < m -> M s X j d m dm -> M s (RStar X) m dm j' d' -> k j' d' = None.
  Proof.
    induction f as [|f IH]; intros i c Li Lf; [rewrite starf_O|rewrite starf_S].
    - intros H. exists i, c. split; [constructor|]. split; [exact H|]. intros m dm j' d' L Hm _. pose proof (M_mono _ _ _ _ _ _ Hm) as [_ M2]. specialize (M2 Li). lia.
    - destruct (mtch s X i c _) as [y|] eqn:E.
      + intros H; injection H as ->. apply mtch_sound in E as (j & d & Ha & H). destruct (Nat.leb_spec j i) as [|L]; [discriminate|].
        pose proof (M_mono _ _ _ _ _ _ Ha) as [_ M2]. specialize (M2 Li). destruct (IH j d M2 ltac:(lia) H) as (j' & d' & H1 & H2 & H3).
        exists j', d'. split; [econstructor; eassumption|]. auto.
      + intros H. exists i, c. split; [constructor|]. split; [exact H|]. intros m dm j' d' L Hm Hs. destruct (k j' d') eqn:Ek; [|reflexivity]. exfalso.
        pose proof (M_mono _ _ _ _ _ _ Hm) as [_ M2]. specialize (M2 Li).
        assert (G : starf k f m dm <> None) by (apply (starf_some k m dm j' d' Hs); [lia|lia|congruence]).
        destruct (starf k f m dm) as [z|] eqn:Ez; [|congruence].
        destruct (mtch_complete (A := A) s X i c m dm Hm Li (fun j c' => if j <=? i then None else starf k f j c') z) as [z' Ez']; [cbn; destruct (Nat.leb_spec m i); [lia|exact Ez]|].
        rewrite Ez' in E. discriminate.
  Qed.
  Lemma star_first {A} i c (k : nat -> caps -> option A) x : i <= List.length s -> mtch s (RStar X) i c k = Some x ->
    exists j d, M s (RStar X) i c j d /\ k j d = Some x /\ forall m dm j' d', j < m -> M s X j d m dm -> M s (RStar X) m dm j' d' -> k j' d' = None.
  Proof. intros L. rewrite mtch_star. apply starf_first; [exact L|lia]. Qed.
End Star.

(** *** the pieces *)
Section Pieces.
  Context (s : str).
  Definition spells (X : re) (P : str -> Prop) : Prop := forall i c j d, i <= List.length s -> M s X i c j d <-> d = c /\ exists t, reads s i j t /\ P t.
  Lemma words_spells l : l <> [] -> spells (words_of l) (listed l).
  Proof.
    intros N i c j d L. unfold words_of. rewrite M_rwords; [|destruct l; [congruence|discriminate]|exact L]. split; intros (A & t & R & H); (split; [exact A|]; exists t; split; [exact R|]).
    - apply in_map_iff in H as (w & E & I). exists w. auto.
    - destruct H as (w & I & E). rewrite E. apply in_map, I.
  Qed.
  Lemma label_spells : spells label_re label.
  Proof.
    intros i c j d L. unfold label_re. rewrite M_plus. split.
    - intros (A & Lij & H). split; [exact A|]. pose proof (all_in_len s _ i j Lij H) as Lj. exists (slice i j s). split; [split; [lia|reflexivity]|]. split.
      + intros E. pose proof (slice_len s i j ltac:(lia)) as E'. rewrite E in E'. cbn [List.length] in E'. lia.
      + rewrite (all_in_forall s _ i j) in H by lia. intros x Hx. apply host_iff, H, Hx.
    - intros (A & t & R & N & H). split; [exact A|]. pose proof (reads_len s i j t R) as [Lt Lj]. split; [destruct t; [congruence|cbn [List.length] in Lt; lia]|].
      apply (reads_all s i j t host_char R). intros x Hx. apply host_iff, H, Hx.
  Qed.
  Lemma dot_M i c j d : M s dot i c j d <-> d = c /\ reads s i j [46%N].
  Proof.
    unfold dot. rewrite M_chr_iff, reads_one. split.
    - intros (A & B & x & E & Ex). apply N.eqb_eq in Ex as ->. auto.
    - intros (A & B & E). split; [exact A|]. split; [exact B|]. exists 46%N. auto.
  Qed.
  Lemma dotted_spells X P : spells X P -> spells (then_dot X) (fun t => exists u, P u /\ t = u ++ [46%N]).
  Proof.
    intros H i c j d L. unfold then_dot. split.
    - intros Hm. apply M_seq_inv in Hm as (k & e & H1 & H2). apply (H i c k e L) in H1 as (-> & t & R & Pt). apply dot_M in H2 as (-> & R2). split; [reflexivity|].
      exists (t ++ [46%N]). split; [apply reads_app; eauto|]. eauto.
    - intros (-> & t & R & u & Pu & ->). apply reads_app in R as (k & R1 & R2). apply (M_seq s X dot i c k c); [apply H; [exact L|]; eauto|]. apply dot_M. auto.
  Qed.
  Lemma star_spells X P : spells X P -> spells (RStar (then_dot X)) (fun t => exists us, Forall P us /\ t = dotted us).
  Proof.
    intros H i c j d L. split.
    - intros Hm. remember (RStar (then_dot X)) as r eqn:Er. revert L. induction Hm as [| | | | |a i c|a i c j d k e Lt Ha _ Hs IHs| | | | |]; try discriminate; injection Er as ->; intros L.
      + split; [reflexivity|]. exists []. split; [apply reads_nil; auto|]. exists []. split; [constructor|reflexivity].
      + pose proof (M_mono _ _ _ _ _ _ Ha) as [_ M2]. destruct (IHs eq_refl (M2 L)) as (-> & t & R & us & F & ->). apply (dotted_spells X P H i c j d L) in Ha as (-> & t & R1 & u & Pu & ->).
        split; [reflexivity|]. exists ((u ++ [46%N]) ++ dotted us). split; [apply reads_app; eauto|]. exists (u :: us). split; [constructor; assumption|reflexivity].
    - intros (-> & t & R & us & F & ->). revert i L R. induction us as [|u us IH]; intros i L R.
      + apply reads_nil in R as [-> _]. constructor.
      + apply Forall_cons_iff in F as [Pu F]. change (dotted (u :: us)) with ((u ++ [46%N]) ++ dotted us) in R. apply reads_app in R as (k & R1 & R2).
        pose proof (reads_len s i k _ R1) as [L1 L2]. rewrite app_length in L1. cbn [List.length] in L1.
        assert (G : M s (then_dot X) i c k c) by (apply (dotted_spells X P H i c k c L); split; [reflexivity|]; exists (u ++ [46%N]); split; [exact R1|]; exists u; auto).
        apply (M_star_S s _ i c k c); [lia|exact G|]. apply IH; [exact F|lia|exact R2].
  Qed.
  Lemma seq_spells X Y P Q : spells X P -> spells Y Q -> spells (RSeq X Y) (fun t => exists u v, P u /\ Q v /\ t = u ++ v).
  Proof.
    intros HX HY i c j d L. split.
    - intros H. apply M_seq_inv in H as (k & e & H1 & H2). pose proof (M_mono _ _ _ _ _ _ H1) as [_ M2]. apply (HX _ _ _ _ L) in H1 as (-> & t & R & Pt). apply (HY _ _ _ _ (M2 L)) in H2 as (-> & t' & R' & Qt).
      split; [reflexivity|]. exists (t ++ t'). split; [apply reads_app; eauto|eauto].
    - intros (-> & t & R & u & v & Pu & Qv & ->). apply reads_app in R as (k & R1 & R2). pose proof (reads_len s i k _ R1) as [_ L2]. apply (M_seq s X Y i c k c); [apply HX; eauto|apply HY; [exact L2|eauto]].
  Qed.
  Lemma spells_ext X P Q : (forall t, P t <-> Q t) -> spells X P -> spells X Q.
  Proof. intros E H i c j d L. rewrite (H i c j d L). split; intros (A & t & R & Pt); (split; [exact A|]); exists t; (split; [exact R|]); apply E, Pt. Qed.
  Lemma eps_spells : spells REps (fun t => t = []).
  Proof. intros i c j d L. split; [intros H; apply M_eps_inv in H as [-> ->]; split; [reflexivity|]; exists []; split; [apply reads_nil; auto|reflexivity]|]. intros (-> & t & R & ->). apply reads_nil in R as [-> _]. constructor. Qed.
  Lemma plus_spells X P : spells X P -> spells (ratleast (then_dot X) 1) (fun t => exists us, us <> [] /\ Forall P us /\ t = dotted us).
  Proof.
    intros H. eapply spells_ext; [|exact (seq_spells _ _ _ _ (seq_spells _ _ _ _ (dotted_spells X P H) eps_spells) (star_spells X P H))]. intros t. split.
    - intros (u & v & (u1 & u2 & (w & Pw & ->) & -> & ->) & (us & F & ->) & ->). exists (w :: us). split; [discriminate|]. split; [constructor; assumption|]. rewrite app_nil_r. reflexivity.
    - intros (us & N & F & ->). destruct us as [|w us]; [congruence|]. apply Forall_cons_iff in F as [Pw F]. exists (w ++ [46%N]), (dotted us). split; [exists (w ++ [46%N]), []; rewrite app_nil_r; eauto|]. split; [eauto|reflexivity].
  Qed.
  Lemma body1_spells subs tlds : subs <> [] -> tlds <> [] -> spells (body1 subs tlds) (site1 subs tlds).
  Proof.
    intros N1 N2. eapply spells_ext; [|exact (seq_spells _ _ _ _ (plus_spells _ _ (words_spells _ N1)) (seq_spells _ _ _ _ (plus_spells _ _ label_spells) (words_spells _ N2)))]. intros t. split.
    - intros (u & v & (us & A & B & ->) & (u' & v' & (ls & C & D & ->) & E & ->) & ->). exists us, ls, v'. auto 10.
    - intros (us & ls & z & A & B & C & D & E & ->). exists (dotted us), (dotted ls ++ z). split; [eauto 10|]. split; [exists (dotted ls), z; eauto 10|reflexivity].
  Qed.
  Lemma one_dotted l : dotted [l] = l ++ [46%N].
  Proof. unfold dotted. cbn [map List.concat]. apply app_nil_r. Qed.
  Lemma body2_spells subs safe : subs <> [] -> safe <> [] -> spells (body2 subs safe) (site2 subs safe).
  Proof.
    intros N1 N2. eapply spells_ext; [|exact (seq_spells _ _ _ _ (star_spells _ _ (words_spells _ N1)) (seq_spells _ _ _ _ (dotted_spells _ _ label_spells) (words_spells _ N2)))]. intros t. split.
    - intros (u & v & (us & B & ->) & (u' & v' & (l & D & ->) & E & ->) & ->). exists us, l, v'. rewrite one_dotted. auto 10.
    - intros (us & l & z & A & B & C & ->). rewrite one_dotted. exists (dotted us), ((l ++ [46%N]) ++ z). split; [eauto 10|]. split; [exists (l ++ [46%N]), z; eauto 10|reflexivity].
  Qed.
  Lemma body3_spells subs prefixes tlds : subs <> [] -> prefixes <> [] -> tlds <> [] -> spells (body3 subs prefixes tlds) (site3 subs prefixes tlds).
  Proof.
    intros N1 N2 N3. eapply spells_ext; [|exact (seq_spells _ _ _ _ (star_spells _ _ (words_spells _ N1)) (seq_spells _ _ _ _ (dotted_spells _ _ label_spells) (seq_spells _ _ _ _ (plus_spells _ _ (words_spells _ N2)) (words_spells _ N3))))]. intros t. split.
    - intros (u & v & (us & B & ->) & (u' & v' & (l & D & ->) & (u2 & v2 & (ps & E1 & E2 & ->) & E & ->) & ->) & ->). exists us, l, ps, v2. rewrite one_dotted. auto 10.
    - intros (us & l & ps & z & A & B & C1 & C2 & C & ->). rewrite one_dotted. exists (dotted us), ((l ++ [46%N]) ++ dotted ps ++ z). split; [eauto 10|]. split; [|reflexivity].
      exists (l ++ [46%N]), (dotted ps ++ z). split; [eauto 10|]. split; [exists (dotted ps), z; eauto 10|reflexivity].
  Qed.
End Pieces.

(** *** cutting a text at its dots *)
Definition dotless (t : str) : Prop := ~ In 46%N t.
Lemma dotless_label t : label t -> dotless t.
Proof. intros [_ H] I. destruct (H _ I) as [E|E]; [|discriminate]. unfold letter_or_digit in E. lia. Qed.
Lemma dotless_listed l t : plain l -> listed l t -> dotless t.
Proof. intros P H I. pose proof (plain_listed l t _ P H I) as E. unfold letter_or_digit in E. lia. Qed.
Lemma first_dot u v r z : dotless u -> dotless v -> u ++ 46%N :: r = v ++ 46%N :: z -> u = v /\ r = z.
Proof.
  revert v. induction u as [|x u IH]; intros [|y v] Du Dv E; cbn [app] in E.
  - injection E as E. auto.
  - injection E as E1 E2. subst y. exfalso. apply Dv. left. reflexivity.
  - injection E as E1 E2. subst x. exfalso. apply Du. left. reflexivity.
  - injection E as E1 E2. subst y. destruct (IH v) as [-> ->]; [intros I; apply Du; right; exact I|intros I; apply Dv; right; exact I|exact E2|auto].
Qed.
Lemma no_dot u r z : dotless z -> u ++ 46%N :: r <> z.
Proof. intros D E. apply D. rewrite <- E. apply in_or_app. right. left. reflexivity. Qed.
Lemma cut us : forall cs r z, Forall dotless us -> Forall dotless cs -> dotless z -> dotted us ++ r = dotted cs ++ z -> exists rest, cs = us ++ rest /\ r = dotted rest ++ z.
Proof.
  induction us as [|u us IH]; intros cs r z Fu Fc Dz E; [exists cs; auto|].
  apply Forall_cons_iff in Fu as [Du Fu]. rewrite dotted_cons, <- app_assoc in E. cbn [app] in E. destruct cs as [|c cs].
  - exfalso. exact (no_dot _ _ _ Dz E).
  - apply Forall_cons_iff in Fc as [Dc Fc]. rewrite dotted_cons, <- app_assoc in E. cbn [app] in E. apply first_dot in E as [-> E]; [|assumption|assumption].
    apply IH in E as (rest & -> & ->); [|assumption|assumption|assumption]. exists rest. auto.
Qed.
Lemma cut_lists {A} (u0 : list A) : forall v0 u v, u0 ++ v0 = u ++ v -> exists m, (u = u0 ++ m /\ v0 = m ++ v) \/ (u0 = u ++ m /\ v = m ++ v0).
Proof.
  induction u0 as [|x u0 IH]; intros v0 u v E; [exists u; left; auto|]. destruct u as [|y u]; [exists (x :: u0); right; auto|].
  cbn [app] in E. injection E as -> E. destruct (IH _ _ _ E) as (m & [[-> ->]|[-> ->]]); exists m; [left|right]; auto.
Qed.
Lemma forall_dotless (P : str -> Prop) us : (forall t, P t -> dotless t) -> Forall P us -> Forall dotless us.
Proof. intros H. apply Forall_impl. exact H. Qed.

  Lemma sub_label subs u : plain subs -> (forall w, In w subs -> w <> []) -> listed subs u -> label u.
  Proof.
    intros Ps Wsubs H. split; [|intros c I; left; apply (plain_listed subs u c Ps H I)]. intros ->. destruct H as (w & Iw & E). apply (Wsubs w Iw). destruct w; [reflexivity|discriminate].
  Qed.
  Lemma only_words l : plain l -> only of_host (words_of l).
  Proof.
    intros P. unfold words_of. assert (G : forall l', (forall w, In w l' -> forall x, In (to_lower x) w -> of_host x) -> only of_host (rwords l')).
    { induction l' as [|w [|w' l'] IH]; intros H; cbn [rwords only]; [exact I|apply only_rlit; intros x; apply (H w); left; reflexivity|]. split.
      - apply only_rlit. intros x. apply (H w). left. reflexivity.
      - apply IH. intros v Hv. apply H. right. exact Hv. }
    apply G. intros w Hw x Hx. apply in_map_iff in Hw as (v & <- & Iv). apply in_map_iff in Hx as (y & E & Iy). left. apply lower_alnum. rewrite <- E.
    specialize (P v y Iv Iy). revert P. unfold letter_or_digit, to_lower, is_upper. destruct ((65 <=? y)%N && (y <=? 90)%N) eqn:E1; lia.
  Qed.
  Lemma only_dot : only of_host dot.
  Proof. intros x E. apply N.eqb_eq in E as ->. right. right. reflexivity. Qed.
  Lemma only_label : only of_host label_re.
  Proof. assert (H : forall x, host_char x = true -> of_host x) by (intros x E; apply host_iff in E as [E| ->]; [left; exact E|right; left; reflexivity]). unfold label_re, ratleast, rrep. cbn [only]. auto. Qed.
  Lemma only_body1 subs tlds : plain subs -> plain tlds -> only of_host (body1 subs tlds).
  Proof. intros Ps Pt. pose proof only_dot. pose proof only_label. pose proof (only_words subs Ps). pose proof (only_words tlds Pt). unfold body1, ratleast, then_dot, rrep. cbn [only]. tauto. Qed.
  Lemma only_body2 subs safe : plain subs -> plain safe -> only of_host (body2 subs safe).
  Proof. intros Ps Psafe. pose proof only_dot. pose proof only_label. pose proof (only_words subs Ps). pose proof (only_words safe Psafe). unfold body2, then_dot. cbn [only]. tauto. Qed.
  Lemma only_body3 subs prefixes tlds : plain subs -> plain prefixes -> plain tlds -> only of_host (body3 subs prefixes tlds).
  Proof. intros Ps Pp Pt. pose proof only_dot. pose proof only_label. pose proof (only_words subs Ps). pose proof (only_words prefixes Pp). pose proof (only_words tlds Pt). unfold body3, ratleast, then_dot, rrep. cbn [only]. tauto. Qed.


Section First.
  Context (s : str) (a b : nat) (k : nat -> caps -> option (nat * caps)).
  (** the continuation accepts a place exactly if no letter or digit follows *)
  Hypothesis Kends : forall j d, j <= List.length s -> k j d <> None <-> (forall c, nth_error s j = Some c -> ~ letter_or_digit c).
  Hypothesis Lb : b <= List.length s.
  Hypothesis Eb : forall c, nth_error s b = Some c -> ~ letter_or_digit c.

  (** reaching the last part, the end is found *)
  Lemma last_part tlds p c e d z t : plain tlds -> listed tlds z -> reads s p b z -> reads s p e t -> e <= b -> k e d <> None -> d = c -> e = b.
  Proof.
    intros Pl Hz R R' Le Ke ->. destruct (Nat.eq_dec e b) as [|Ne]; [assumption|exfalso].
    pose proof (reads_len s p e t R') as [Lt Le2]. destruct (nth_error s e) as [x|] eqn:Ex; [|apply nth_error_None in Ex; lia].
    apply (proj1 (Kends e c Le2) Ke x Ex). apply (plain_listed tlds z x Pl Hz). destruct R as [R1 <-]. apply (nth_in_slice s p b e x); [lia|exact Ex].
  Qed.
  Lemma dead {A} r i c (q : nat -> caps -> option A) j d : mtch s r i c q = None -> i <= List.length s -> M s r i c j d -> q j d = None.
  Proof. intros E L H. destruct (q j d) as [x|] eqn:Eq; [|reflexivity]. destruct (mtch_complete s r i c j d H L q x Eq) as [y Ey]. congruence. Qed.
  (** the parts that remain *)
  Lemma rest_at p us cs z : a <= List.length s -> reads s a b (dotted cs ++ z) -> reads s a p (dotted us) -> p <= b -> Forall dotless us -> Forall dotless cs -> dotless z ->
    exists rest, cs = us ++ rest /\ reads s p b (dotted rest ++ z).
  Proof.
    intros La R R1 Lp Fu Fc Dz. assert (E : exists r, dotted us ++ r = dotted cs ++ z /\ reads s p b r).
    { exists (slice p b s). assert (R2 : reads s p b (slice p b s)) by (split; [split; [exact Lp|exact Lb]|reflexivity]). split; [|exact R2].
      assert (R3 : reads s a b (dotted us ++ slice p b s)) by (apply reads_app; eauto). destruct R as [_ <-], R3 as [_ R3]. symmetry. exact R3. }
    destruct E as (r & E & R2). apply cut in E as (rest & -> & ->); [|assumption|assumption|assumption]. eauto.
  Qed.
  (** a chain can be followed when its parts are there *)
  Lemma follow X P p c us z : spells s X P -> p <= List.length s -> us <> [] -> Forall P us -> reads s p b (dotted us ++ z) ->
    exists m q, p < m /\ M s (then_dot X) p c m c /\ M s (RStar (then_dot X)) m c q c /\ reads s q b z /\ q <= List.length s.
  Proof.
    intros H L N F R. destruct us as [|u us]; [congruence|]. apply Forall_cons_iff in F as [Pu F]. change (dotted (u :: us)) with ((u ++ [46%N]) ++ dotted us) in R.
    rewrite <- app_assoc in R. apply reads_app in R as (m & R1 & R2). apply reads_app in R2 as (q & R2 & R3).
    pose proof (reads_len s p m _ R1) as [L1 L2]. rewrite app_length in L1. cbn [List.length] in L1. pose proof (reads_len s m q _ R2) as [_ L3]. exists m, q.
    split; [lia|]. split; [apply (dotted_spells s X P H p c m c L); split; [reflexivity|]; exists (u ++ [46%N]); split; [exact R1|eauto]|].
    split; [apply (star_spells s X P H m c q c L2); split; [reflexivity|]; exists (dotted us); split; [exact R2|eauto]|]. auto.
  Qed.

  Context (subs safe prefixes tlds : list str).
  Hypothesis Ns : subs <> [].
  Hypothesis Nsafe : safe <> [].
  Hypothesis Np : prefixes <> [].
  Hypothesis Nt : tlds <> [].
  Hypothesis Ps : plain subs.
  Hypothesis Psafe : plain safe.
  Hypothesis Pp : plain prefixes.
  Hypothesis Pt : plain tlds.
  Hypothesis Wsubs : forall w, In w subs -> w <> [].
  Hypothesis Zone : forall r c e d, M s r a c e d -> only (fun x => of_host x) r -> e <= b.
  Hypothesis La : a <= List.length s.

  Lemma first1 c x : site1 subs tlds (slice a b s) -> a <= b -> mtch s (body1 subs tlds) a c k = Some x -> k b c = Some x.
  Proof.
    intros (us0 & ls0 & z & N1 & F1 & N2 & F2 & Hz & Ew) Lab. unfold body1. intros E.
    assert (R : reads s a b (dotted (us0 ++ ls0) ++ z)) by (split; [lia|]; rewrite dotted_app, <- app_assoc; exact Ew).
    assert (FL : Forall label (us0 ++ ls0)) by (apply Forall_app; split; [eapply Forall_impl; [exact (fun u => sub_label subs u Ps Wsubs)|exact F1]|exact F2]).
    pose proof (forall_dotless _ _ dotless_label FL) as FD. pose proof (dotless_listed _ _ Pt Hz) as Dz.
    change (mtch s (ratleast (then_dot (words_of subs)) 1) a c (fun j d => mtch s (rrep (then_dot label_re) 1) j d (fun j d => mtch s (RStar (then_dot label_re)) j d (fun j d => mtch s (words_of tlds) j d k))) = Some x) in E.
    apply mtch_sound in E as (p1 & d1 & H1 & E). pose proof (M_mono _ _ _ _ _ _ H1) as [_ L1]. specialize (L1 La).
    apply mtch_sound in E as (p2 & d2 & H2 & E). pose proof (M_mono _ _ _ _ _ _ H2) as [_ L2]. specialize (L2 L1).
    apply (star_first s (then_dot label_re) p2 d2 _ x L2) in E as (p3 & d3 & H3 & E & Mx). pose proof (M_mono _ _ _ _ _ _ H3) as [_ L3]. specialize (L3 L2).
    apply mtch_sound in E as (e & d4 & H4 & E).
    pose proof (M_seq _ _ _ _ _ _ _ _ _ H1 (M_seq _ _ _ _ _ _ _ _ _ (M_seq _ _ _ _ _ _ _ _ _ H2 H3) H4)) as HB.
    pose proof (Zone _ _ _ _ HB (only_body1 subs tlds Ps Pt)) as Le.
    apply (plus_spells s _ _ (words_spells s subs Ns) a c p1 d1 La) in H1 as (-> & t1 & R1 & us & _ & FU & ->).
    assert (H23 : M s (ratleast (then_dot label_re) 1) p1 c p3 d3) by (econstructor; eassumption).
    apply (plus_spells s _ _ (label_spells s) p1 c p3 d3 L1) in H23 as (-> & t2 & R2 & ls & _ & FLs & ->).
    apply (words_spells s tlds Nt p3 c e d4 L3) in H4 as (-> & t4 & R4 & Ht4). pose proof (M_mono _ _ _ _ _ _ H3) as [L23 _]. pose proof (reads_len s p3 e t4 R4) as [Lt4 Le4].
    assert (RR : reads s a p3 (dotted (us ++ ls))) by (rewrite dotted_app; apply reads_app; eauto).
    destruct (rest_at p3 (us ++ ls) (us0 ++ ls0) z La R RR ltac:(lia)) as (rest & Er & R5); [|exact FD|exact Dz|].
    { apply Forall_app. split; [apply (forall_dotless _ _ (fun t => dotless_listed _ t Ps) FU)|apply (forall_dotless _ _ dotless_label FLs)]. }
    destruct rest as [|r0 rest].
    - cbn [dotted map List.concat app] in R5. rewrite <- (last_part tlds p3 c e c z t4 Pt Hz R5 R4 Le ltac:(congruence) eq_refl). exact E.
    - exfalso. rewrite Er in FL. apply Forall_app in FL as [_ FL]. destruct (follow label_re label p3 c (r0 :: rest) z (label_spells s) L3 ltac:(discriminate) FL R5) as (m & q & Lm & G1 & G2 & R6 & Lq).
      pose proof (Mx m c q c Lm G1 G2) as Dead. pose proof (dead _ _ _ _ b c Dead Lq) as Dk. cbn beta in Dk.
      apply (proj2 (Kends b c Lb) Eb). apply Dk. apply (words_spells s tlds Nt q c b c Lq). split; [reflexivity|]. eauto.
  Qed.
  Lemma first2 c x : site2 subs safe (slice a b s) -> a <= b -> mtch s (body2 subs safe) a c k = Some x -> k b c = Some x.
  Proof.
    intros (us0 & l0 & z & F1 & Hl & Hz & Ew) Lab. unfold body2. intros E.
    assert (R : reads s a b (dotted (us0 ++ [l0]) ++ z)) by (split; [lia|]; rewrite dotted_app, <- app_assoc; exact Ew).
    assert (FL : Forall label (us0 ++ [l0])) by (apply Forall_app; split; [eapply Forall_impl; [exact (fun u => sub_label subs u Ps Wsubs)|exact F1]|constructor; [exact Hl|constructor]]).
    pose proof (forall_dotless _ _ dotless_label FL) as FD. pose proof (dotless_listed _ _ Psafe Hz) as Dz.
    change (mtch s (RStar (then_dot (words_of subs))) a c (fun j d => mtch s (RSeq (then_dot label_re) (words_of safe)) j d k) = Some x) in E.
    apply (star_first s (then_dot (words_of subs)) a c _ x La) in E as (p1 & d1 & H1 & E & Mx). pose proof (M_mono _ _ _ _ _ _ H1) as [_ L1]. specialize (L1 La).
    change (mtch s (then_dot label_re) p1 d1 (fun j d => mtch s (words_of safe) j d k) = Some x) in E.
    apply mtch_sound in E as (p2 & d2 & H2 & E). pose proof (M_mono _ _ _ _ _ _ H2) as [_ L2]. specialize (L2 L1).
    apply mtch_sound in E as (e & d3 & H3 & E).
    pose proof (M_seq _ _ _ _ _ _ _ _ _ H1 (M_seq _ _ _ _ _ _ _ _ _ H2 H3)) as HB.
    pose proof (Zone _ _ _ _ HB (only_body2 subs safe Ps Psafe)) as Le.
    apply (star_spells s _ _ (words_spells s subs Ns) a c p1 d1 La) in H1 as (-> & t1 & R1 & us & FU & ->).
    pose proof (M_mono _ _ _ _ _ _ H2) as [L12 _].
    apply (dotted_spells s _ _ (label_spells s) p1 c p2 d2 L1) in H2 as (-> & t2 & R2 & l & Pl & ->).
    apply (words_spells s safe Nsafe p2 c e d3 L2) in H3 as (-> & t4 & R4 & Ht4). pose proof (reads_len s p2 e t4 R4) as [Lt4 Le4].
    assert (FU' : Forall dotless us) by (apply (forall_dotless _ _ (fun t => dotless_listed _ t Ps) FU)).
    assert (RR : reads s a p2 (dotted (us ++ [l]))) by (rewrite dotted_app, one_dotted; apply reads_app; eauto).
    destruct (rest_at p2 (us ++ [l]) (us0 ++ [l0]) z La R RR ltac:(lia)) as (rest & Er & R5); [|exact FD|exact Dz|].
    { apply Forall_app. split; [exact FU'|constructor; [apply dotless_label, Pl|constructor]]. }
    destruct rest as [|r0 rest].
    - cbn [dotted map List.concat app] in R5. rewrite <- (last_part safe p2 c e c z t4 Psafe Hz R5 R4 Le ltac:(congruence) eq_refl). exact E.
    - exfalso. destruct (rest_at p1 us (us0 ++ [l0]) z La R R1 ltac:(lia) FU' FD Dz) as (rest1 & Er1 & R6).
      assert (E1 : rest1 = l :: r0 :: rest) by (rewrite Er1, <- app_assoc in Er; apply app_inv_head in Er; exact Er). subst rest1.
      destruct (cut_lists _ _ _ _ Er1) as (m & [[-> Em]|[-> Em]]).
      + destruct m as [|y m]; [discriminate|]. injection Em as _ Em. destruct m; discriminate.
      + destruct m as [|y m]; [discriminate|]. apply Forall_app in F1 as [_ F1]. rewrite Em, dotted_app, <- app_assoc in R6.
        destruct (follow _ _ p1 c (y :: m) (dotted [l0] ++ z) (words_spells s subs Ns) L1 ltac:(discriminate) F1 R6) as (m1 & q & Lm & G1 & G2 & R7 & Lq).
        pose proof (Mx m1 c q c Lm G1 G2) as Dead. pose proof (dead _ _ _ _ b c Dead Lq) as Dk.
        apply (proj2 (Kends b c Lb) Eb). apply Dk.
        apply (seq_spells s _ _ _ _ (dotted_spells s _ _ (label_spells s)) (words_spells s safe Nsafe) q c b c Lq). split; [reflexivity|].
        exists (dotted [l0] ++ z). split; [exact R7|]. rewrite one_dotted. exists (l0 ++ [46%N]), z. eauto.
  Qed.
  Lemma first3 c x : site3 subs prefixes tlds (slice a b s) -> a <= b -> mtch s (body3 subs prefixes tlds) a c k = Some x -> k b c = Some x.
  Proof.
    intros (us0 & l0 & ps0 & z & F1 & Hl & Nps & F3 & Hz & Ew) Lab. unfold body3. intros E.
    assert (R : reads s a b (dotted (us0 ++ l0 :: ps0) ++ z)) by (split; [lia|]; rewrite dotted_app, <- app_assoc; change (l0 :: ps0) with ([l0] ++ ps0); rewrite dotted_app, <- app_assoc; exact Ew).
    assert (FD : Forall dotless (us0 ++ l0 :: ps0)).
    { apply Forall_app. split; [exact (forall_dotless _ _ (fun t => dotless_listed _ t Ps) F1)|]. constructor; [apply dotless_label, Hl|exact (forall_dotless _ _ (fun t => dotless_listed _ t Pp) F3)]. }
    pose proof (dotless_listed _ _ Pt Hz) as Dz.
    change (mtch s (RStar (then_dot (words_of subs))) a c (fun j d => mtch s (RSeq (then_dot label_re) (RSeq (ratleast (then_dot (words_of prefixes)) 1) (words_of tlds))) j d k) = Some x) in E.
    apply (star_first s (then_dot (words_of subs)) a c _ x La) in E as (p1 & d1 & H1 & E & Mx). pose proof (M_mono _ _ _ _ _ _ H1) as [_ L1]. specialize (L1 La).
    change (mtch s (then_dot label_re) p1 d1 (fun j d => mtch s (rrep (then_dot (words_of prefixes)) 1) j d (fun j d => mtch s (RStar (then_dot (words_of prefixes))) j d (fun j d => mtch s (words_of tlds) j d k))) = Some x) in E.
    apply mtch_sound in E as (p2 & d2 & H2 & E). pose proof (M_mono _ _ _ _ _ _ H2) as [_ L2]. specialize (L2 L1).
    apply mtch_sound in E as (p3 & d3 & H3 & E). pose proof (M_mono _ _ _ _ _ _ H3) as [_ L3]. specialize (L3 L2).
    apply (star_first s (then_dot (words_of prefixes)) p3 d3 _ x L3) in E as (p4 & d4 & H4 & E & My). pose proof (M_mono _ _ _ _ _ _ H4) as [_ L4]. specialize (L4 L3).
    apply mtch_sound in E as (e & d5 & H5 & E).
    pose proof (M_seq _ _ _ _ _ _ _ _ _ H1 (M_seq _ _ _ _ _ _ _ _ _ H2 (M_seq _ _ _ _ _ _ _ _ _ (M_seq _ _ _ _ _ _ _ _ _ H3 H4) H5))) as HB.
    pose proof (Zone _ _ _ _ HB (only_body3 subs prefixes tlds Ps Pp Pt)) as Le.
    pose proof (M_mono _ _ _ _ _ _ H2) as [L12 _]. pose proof (M_mono _ _ _ _ _ _ H3) as [L23 _]. pose proof (M_mono _ _ _ _ _ _ H4) as [L34 _].
    apply (star_spells s _ _ (words_spells s subs Ns) a c p1 d1 La) in H1 as (-> & t1 & R1 & us & FU & ->).
    apply (dotted_spells s _ _ (label_spells s) p1 c p2 d2 L1) in H2 as (-> & t2 & R2 & l & Pl & ->).
    assert (H34 : M s (ratleast (then_dot (words_of prefixes)) 1) p2 c p4 d4) by (econstructor; eassumption).
    apply (plus_spells s _ _ (words_spells s prefixes Np) p2 c p4 d4 L2) in H34 as (-> & t3 & R3 & ps & Npp & FP & ->).
    apply (words_spells s tlds Nt p4 c e d5 L4) in H5 as (-> & t4 & R4 & Ht4). pose proof (reads_len s p4 e t4 R4) as [Lt4 Le4].
    assert (FU' : Forall dotless us) by (apply (forall_dotless _ _ (fun t => dotless_listed _ t Ps) FU)).
    assert (FP' : Forall dotless ps) by (apply (forall_dotless _ _ (fun t => dotless_listed _ t Pp) FP)).
    assert (RR : reads s a p4 (dotted (us ++ [l] ++ ps))) by (rewrite !dotted_app, one_dotted; apply reads_app; exists p1; split; [exact R1|]; apply reads_app; eauto).
    destruct (rest_at p4 (us ++ [l] ++ ps) _ z La R RR ltac:(lia)) as (rest & Er & R5); [|exact FD|exact Dz|].
    { apply Forall_app. split; [exact FU'|constructor; [apply dotless_label, Pl|exact FP']]. }
    destruct rest as [|r0 rest].
    - cbn [dotted map List.concat app] in R5. rewrite <- (last_part tlds p4 c e c z t4 Pt Hz R5 R4 Le ltac:(congruence) eq_refl). exact E.
    - exfalso. rewrite <- !app_assoc in Er. cbn [app] in Er.
      destruct (cut_lists _ _ _ _ Er) as (m & [[-> Em]|[-> Em]]).
      + (* all the words of the beginning were taken: the words that remain are sure ones *)
        assert (FR : Forall (listed prefixes) (r0 :: rest)).
        { destruct m as [|y m]; cbn [app] in Em; injection Em as _ Em; subst ps0.
          - apply Forall_app in F3. tauto.
          - apply Forall_app in F3 as [_ F3]. apply Forall_cons_iff in F3 as [_ F3]. apply Forall_app in F3. tauto. }
        destruct (follow _ _ p4 c (r0 :: rest) z (words_spells s prefixes Np) L4 ltac:(discriminate) FR R5) as (m1 & q & Lm & G1 & G2 & R7 & Lq).
        pose proof (My m1 c q c Lm G1 G2) as Dead. pose proof (dead _ _ _ _ b c Dead Lq) as Dk. cbn beta in Dk.
        apply (proj2 (Kends b c Lb) Eb). apply Dk. apply (words_spells s tlds Nt q c b c Lq). split; [reflexivity|]. eauto.
      + destruct m as [|y m].
        * cbn [app] in Em. injection Em as <- <-. 
          assert (FR : Forall (listed prefixes) (r0 :: rest)) by (apply Forall_app in F3; tauto).
          destruct (follow _ _ p4 c (r0 :: rest) z (words_spells s prefixes Np) L4 ltac:(discriminate) FR R5) as (m1 & q & Lm & G1 & G2 & R7 & Lq).
          pose proof (My m1 c q c Lm G1 G2) as Dead. pose proof (dead _ _ _ _ b c Dead Lq) as Dk. cbn beta in Dk.
          apply (proj2 (Kends b c Lb) Eb). apply Dk. apply (words_spells s tlds Nt q c b c Lq). split; [reflexivity|]. eauto.
        * (* one of the words of the beginning was taken for the label *)
          destruct (rest_at p1 us _ z La R R1 ltac:(lia) FU' FD Dz) as (rest1 & Er1 & R6). rewrite <- app_assoc in Er1. apply app_inv_head in Er1. subst rest1.
          apply Forall_app in F1 as [_ F1]. rewrite dotted_app, <- app_assoc in R6.
          destruct (follow _ _ p1 c (y :: m) (dotted (l0 :: ps0) ++ z) (words_spells s subs Ns) L1 ltac:(discriminate) F1 R6) as (m1 & q & Lm & G1 & G2 & R7 & Lq).
          pose proof (Mx m1 c q c Lm G1 G2) as Dead. pose proof (dead _ _ _ _ b c Dead Lq) as Dk.
          apply (proj2 (Kends b c Lb) Eb). apply Dk.
          apply (seq_spells s _ _ _ _ (dotted_spells s _ _ (label_spells s)) (seq_spells s _ _ _ _ (plus_spells s _ _ (words_spells s prefixes Np)) (words_spells s tlds Nt)) q c b c Lq). split; [reflexivity|].
          exists (dotted (l0 :: ps0) ++ z). split; [exact R7|]. change (l0 :: ps0) with ([l0] ++ ps0). rewrite dotted_app, one_dotted, <- app_assoc. exists (l0 ++ [46%N]), (dotted ps0 ++ z).
          split; [exists l0; auto|]. split; [|reflexivity]. exists (dotted ps0), z. split; [exists ps0; auto|]. split; [exact Hz|reflexivity].
  Qed.
End First.

(** *** the edges *)
Section Edges.
  Context (s : str) (body : re) (S0 : str -> Prop).
  Hypothesis Sp : spells s body S0.
  Hypothesis On : only of_host body.
  Hypothesis Ne : forall t, S0 t -> t <> [].
  Definition before (p x : nat) : Prop := (x = S p /\ exists c, nth_error s p = Some c /\ ~ letter_or_digit c) \/ (x = 0 /\ p = 0).
  Definition after (y e : nat) : Prop := (e = S y /\ exists c, nth_error s y = Some c /\ ~ letter_or_digit c) \/ (e = y /\ at_eol s y = true).
  Lemma edge_M p c x d : M s (RAlt (RChr no_alnum) RBol) p c x d <-> d = c /\ before p x.
  Proof.
    unfold before. split.
    - intros H. apply M_alt_inv in H as [H|H].
      + apply M_chr_iff in H as (-> & -> & y & E & Ey). split; [reflexivity|]. left. split; [reflexivity|]. exists y. split; [exact E|apply no_alnum_iff, Ey].
      + inversion H; subst. split; [reflexivity|right; auto].
    - intros (-> & [(-> & y & E & Ey)|(-> & ->)]).
      + apply M_alt_l. apply M_chr_iff. split; [reflexivity|]. split; [reflexivity|]. exists y. split; [exact E|apply no_alnum_iff, Ey].
      + apply M_alt_r. constructor.
  Qed.
  Lemma edge_after_M y c e d : M s (RAlt (RChr no_alnum) REol) y c e d <-> d = c /\ after y e.
  Proof.
    unfold after. split.
    - intros H. apply M_alt_inv in H as [H|H].
      + apply M_chr_iff in H as (-> & -> & x & E & Ey). split; [reflexivity|]. left. split; [reflexivity|]. exists x. split; [exact E|apply no_alnum_iff, Ey].
      + inversion H; subst. split; [reflexivity|right; auto].
    - intros (-> & [(-> & x & E & Ey)|(-> & A)]).
      + apply M_alt_l. apply M_chr_iff. split; [reflexivity|]. split; [reflexivity|]. exists x. split; [exact E|apply no_alnum_iff, Ey].
      + apply M_alt_r. constructor. exact A.
  Qed.
  Lemma after_bounded y e : y <= List.length s -> after y e -> forall c, nth_error s y = Some c -> ~ letter_or_digit c.
  Proof.
    intros L [(_ & x & E & Ex)|(_ & A)] c Ec; [congruence|]. unfold at_eol in A. apply orb_true_iff in A as [A|A].
    - apply Nat.eqb_eq in A. apply nth_error_lt in Ec. lia.
    - apply andb_true_iff in A as [_ A]. rewrite Ec in A. apply N.eqb_eq in A as ->. unfold letter_or_digit. lia.
  Qed.
  Lemma bounded_after y : y <= List.length s -> (forall c, nth_error s y = Some c -> ~ letter_or_digit c) -> exists e, after y e.
  Proof.
    intros L H. destruct (nth_error s y) as [c|] eqn:E.
    - exists (S y). left. split; [reflexivity|]. exists c. split; [exact E|apply H; reflexivity].
    - apply nth_error_None in E. exists y. right. split; [reflexivity|]. unfold at_eol. replace (Nat.eqb y (List.length s)) with true by (symmetry; apply Nat.eqb_eq; lia). reflexivity.
  Qed.
  Lemma site_M p c e d : p <= List.length s -> M s (site_re body) p c e d <-> exists x y, before p x /\ d = (1, (x, y)) :: c /\ (exists t, reads s x y t /\ S0 t) /\ after y e.
  Proof.
    intros L. unfold site_re. split.
    - intros H. apply M_seq_inv in H as (x & d1 & H1 & H). pose proof (M_mono _ _ _ _ _ _ H1) as [_ Lx]. apply edge_M in H1 as [-> B]. apply M_seq_inv in H as (y & d2 & H2 & H3).
      apply edge_after_M in H3 as [-> A]. inversion H2 as [| | | | | | |n r i c0 j d0 Hb| | | |]; subst. apply (Sp x c y d0 (Lx L)) in Hb as (-> & T). exists x, y. auto.
    - intros (x & y & B & -> & T & A). assert (H1 : M s (RAlt (RChr no_alnum) RBol) p c x c) by (apply edge_M; auto).
      pose proof (M_mono _ _ _ _ _ _ H1) as [_ Lx]. econstructor; [exact H1|]. econstructor; [constructor; apply (Sp x c y c (Lx L)); split; [reflexivity|exact T]|]. apply edge_after_M. auto.
  Qed.
  Lemma reads_nonempty x y t : reads s x y t -> S0 t -> x < y <= List.length s.
  Proof. intros R H. pose proof (reads_len s x y t R) as [L1 L2]. pose proof (Ne t H). destruct t; [congruence|]. cbn [List.length] in L1. lia. Qed.
  Lemma reads_host x y t k : x <= List.length s -> reads s x y t -> S0 t -> x <= k < y -> exists c, nth_error s k = Some c /\ of_host c.
  Proof. intros L R H Hk. assert (Hm : M s body x [] y []) by (apply (Sp x [] y [] L); eauto). exact (M_only s of_host body x [] y [] Hm On k Hk). Qed.
  Lemma site_consumes : consumes s (site_re body).
  Proof.
    intros p c e d H. assert (L : p <= List.length s).
    { unfold site_re in H. apply M_seq_inv in H as (x & d1 & H1 & _). apply edge_M in H1 as [_ [[_ (z & E & _)]|[_ ->]]]; [apply nth_error_lt in E; lia|lia]. }
    apply (site_M p c e d L) in H as (x & y & B & _ & (t & R & T) & A). pose proof (reads_nonempty x y t R T).
    destruct B as [[-> _]|[-> ->]]; destruct A as [[-> _]|[-> _]]; lia.
  Qed.
  Lemma site_sound p e d : In (p, e, d) (finditer s (site_re body)) -> exists x y t, d = [(1, (x, y))] /\ reads s x y t /\ S0 t /\ bounded s x y.
  Proof.
    intros H. apply (finditer_sound s _ site_consumes) in H as (L & _ & H). apply (site_M p [] e d ltac:(lia)) in H as (x & y & B & -> & (t & R & T) & A).
    exists x, y, t. split; [reflexivity|]. split; [exact R|]. split; [exact T|]. pose proof (reads_nonempty x y t R T). split; [|apply (after_bounded y e ltac:(lia) A)].
    intros c Lx E. destruct B as [[-> (z & Ez & Nz)]|[-> _]]; [|lia]. replace (S p - 1) with p in E by lia. congruence.
  Qed.
  Hypothesis NoDotFirst : forall a b, S0 (slice a b s) -> nth_error s a <> Some 46%N.
  Hypothesis First : forall a b (k : nat -> caps -> option (nat * caps)) x,
    (forall j d, j <= List.length s -> k j d <> None <-> (forall c, nth_error s j = Some c -> ~ letter_or_digit c)) ->
    b <= List.length s -> (forall c, nth_error s b = Some c -> ~ letter_or_digit c) -> (forall r c e d, M s r a c e d -> only of_host r -> e <= b) -> a <= List.length s ->
    S0 (slice a b s) -> a <= b -> mtch s body a [] k = Some x -> k b [] = Some x.
  Lemma site_found a b : a < b <= List.length s -> apart s a b -> S0 (slice a b s) -> exists p e, In (p, e, [(1, (a, b))]) (finditer s (site_re body)).
  Proof.
    intros L (Ab & Aa & A0) T. assert (R : reads s a b (slice a b s)) by (split; [lia|reflexivity]).
    assert (Nb : forall c, nth_error s b = Some c -> ~ letter_or_digit c) by (intros c E H; apply (Aa c E); left; exact H).
    destruct (bounded_after b ltac:(lia) Nb) as [e0 E0].
    set (p := a - 1).
    assert (B0 : before p a).
    { unfold before, p. destruct a as [|a']; [right; auto|left]. split; [lia|]. replace (S a' - 1) with a' by lia. destruct (nth_error s a') as [c|] eqn:E; [|apply nth_error_None in E; lia].
      exists c. split; [reflexivity|]. intros H. apply (Ab a' c ltac:(lia) E). left. exact H. }
    assert (M0 : M s (site_re body) p [] e0 [(1, (a, b))]) by (apply site_M; [lia|]; exists a, b; eauto 10).
    (* a match begins nowhere else at [p] *)
    assert (Only : forall x y t, before p x -> reads s x y t -> S0 t -> x = a).
    { intros x y t B Rx Tx. pose proof (reads_nonempty x y t Rx Tx) as Ly. unfold before, p in B. destruct a as [|a'].
      - destruct B as [[-> (c & E & Nc)]|[-> _]]; [|reflexivity]. exfalso. change (0 - 1) with 0 in E. destruct (reads_host 0 b _ 0 ltac:(lia) R T ltac:(lia)) as (c' & E' & Hc').
        rewrite E in E'. injection E' as <-. destruct Hc' as [Hc'|[-> | ->]]; [exact (Nc Hc')|exact (A0 eq_refl E)|].
        exact (NoDotFirst 0 b T E).
      - replace (S a' - 1) with a' in B by lia. destruct B as [[-> _]|[-> Ea]]; [reflexivity|]. exfalso.
        destruct (reads_host 0 y t 0 ltac:(lia) Rx Tx ltac:(lia)) as (c & E & Hc). apply (Ab 0 c ltac:(lia) E Hc). }
    destruct (finditer_complete s _ site_consumes p e0 [(1, (a, b))] ltac:(lia) M0) as (e & d & I).
    - intros p' e' c' Lp H. apply (site_M p' [] e' c' ltac:(lia)) in H as (x & y & B & -> & (t & Rx & Tx) & A). pose proof (reads_nonempty x y t Rx Tx) as Ly.
      assert (Lxp : x <= p) by (destruct B as [[-> _]|[-> _]]; lia).
      assert (Ly1 : y <= p). { destruct (Nat.le_gt_cases y p); [assumption|exfalso]. destruct (reads_host x y t p ltac:(lia) Rx Tx ltac:(lia)) as (c & E & Hc). apply (Ab p c ltac:(lia) E Hc). }
      destruct (reads_host x y t (y - 1) ltac:(lia) Rx Tx ltac:(lia)) as (c & E & Hc).
      assert (y <> p) by (intros ->; apply (Ab (p - 1) c ltac:(lia) E Hc)). destruct A as [[-> _]|[-> _]]; lia.
    - exists p, e. pose proof (finditer_sound s _ site_consumes p e d I) as (_ & Hm & _).
      unfold match_at, site_re in Hm. set (fin := fun j c => Some (j, c)) in Hm.
      change (mtch s (RAlt (RChr no_alnum) RBol) p [] (fun x c1 => mtch s body x c1 (fun y c2 => mtch s (RAlt (RChr no_alnum) REol) y ((1, (x, y)) :: c2) fin)) = Some (e, d)) in Hm.
      apply mtch_sound in Hm as (x & c1 & H1 & Hm). apply edge_M in H1 as [-> B].
      assert (x = a). { apply mtch_sound in Hm as (y & c2 & H2 & _). pose proof (fun L' => proj1 (Sp x [] y c2 L') H2) as H3.
        assert (Lx : x <= List.length s) by (destruct B as [[-> (z & Ez & _)]|[-> _]]; [apply nth_error_lt in Ez; lia|lia]). destruct (H3 Lx) as (_ & t & Rx & Tx). apply (Only x y t B Rx Tx). }
      subst x. apply (First a b) in Hm; try lia; try exact T; try exact Nb.
      + apply mtch_sound in Hm as (e1 & c3 & H3 & Hm). apply edge_after_M in H3 as [-> _]. unfold fin in Hm. injection Hm as -> ->. exact I.
      + intros j d0 Lj. split.
        * intros Hk. destruct (mtch s (RAlt (RChr no_alnum) REol) j ((1, (a, j)) :: d0) fin) as [z|] eqn:Ez; [|congruence]. apply mtch_sound in Ez as (e1 & c3 & H3 & _). apply edge_after_M in H3 as [_ A].
          apply (after_bounded j e1 Lj A).
        * intros Hj. destruct (bounded_after j Lj Hj) as [e1 A]. assert (H3 : M s (RAlt (RChr no_alnum) REol) j ((1, (a, j)) :: d0) e1 ((1, (a, j)) :: d0)) by (apply edge_after_M; auto).
          destruct (mtch_complete s _ _ _ _ _ H3 Lj fin _ eq_refl) as [z Ez]. rewrite Ez. discriminate.
      + intros r c0 e1 d1 Hr Or. destruct (Nat.le_gt_cases e1 b) as [|G]; [assumption|exfalso]. destruct (M_only s of_host r a c0 e1 d1 Hr Or b ltac:(lia)) as (z & Ez & Hz). exact (Aa z Ez Hz).
  Qed.
End Edges.

Lemma site_first subs safe prefixes tlds t : plain subs -> (forall w, In w subs -> w <> []) -> site subs safe prefixes tlds t -> exists c r, t = c :: r /\ c <> 46%N.
Proof.
  intros Ps Ws H. assert (Lb : forall u r, label u -> exists c r', u ++ r = c :: r' /\ c <> 46%N).
  { intros [|c u] r [N Hu]; [congruence|]. exists c, (u ++ r). split; [reflexivity|]. intros ->. destruct (Hu 46%N (or_introl eq_refl)) as [E|E]; [unfold letter_or_digit in E; lia|discriminate]. }
  assert (Fs : forall us u r, Forall (listed subs) us -> label u -> exists c r', dotted us ++ (u ++ r) = c :: r' /\ c <> 46%N).
  { intros [|u' us] u r F Lu; [change (dotted [] ++ (u ++ r)) with (u ++ r); apply Lb, Lu|]. apply Forall_cons_iff in F as [F _]. rewrite dotted_cons, <- app_assoc. apply Lb, (sub_label subs _ Ps Ws), F. }
  destruct H as [(us & ls & z & _ & F & N & Fl & _ & ->)|[(us & l & z & F & Hl & _ & ->)|(us & l & ps & z & F & Hl & _ & _ & _ & ->)]].
  - destruct ls as [|l ls]; [congruence|]. apply Forall_cons_iff in Fl as [Hl _]. rewrite dotted_cons, <- !app_assoc. apply Fs; assumption.
  - rewrite one_dotted, <- !app_assoc. apply Fs; assumption.
  - rewrite one_dotted, <- !app_assoc. apply Fs; assumption.
Qed.

Section Websites.
  Context (subs safe prefixes tlds : list str).
  Hypothesis Nonempty : subs <> [] /\ safe <> [] /\ prefixes <> [] /\ tlds <> [].
  Lemma site_ne t : site subs safe prefixes tlds t -> t <> [].
  Proof.
    intros H ->. assert (D : forall u l v, u ++ dotted [l] ++ v <> []) by (intros u l v E; rewrite one_dotted in E; apply app_eq_nil in E as [_ E]; apply app_eq_nil in E as [E _]; destruct l; discriminate).
    destruct H as [(us & ls & z & _ & _ & N & _ & _ & E)|[(us & l & z & _ & _ & _ & E)|(us & l & ps & z & _ & _ & _ & _ & _ & E)]].
    - destruct ls as [|l ls]; [congruence|]. change (l :: ls) with ([l] ++ ls) in E. rewrite dotted_app, <- app_assoc in E. symmetry in E. exact (D _ _ _ E).
    - symmetry in E. exact (D _ _ _ E).
    - symmetry in E. exact (D _ _ _ E).
  Qed.
  Lemma rx_shows body s a b v : shows (rx_matches (site_rx body) s) a b (lit "website") v <->
    exists p e c, In (p, e, c) (finditer s (site_re body)) /\ group 1 c = Some (a, b) /\ v = MvStr (slice a b s).
  Proof.
    split.
    - intros (m & I & E1 & E2 & E3 & E4 & E5). apply rx_In in I as (p & e & c & If & Im). exists p, e, c. split; [exact If|].
      unfold rx_one, rx_kids, site_rx in Im. cbn [rx_children rx_validate_all rx_valid rx_child_valid rx_private_parent negb orb andb rx_names flat_map fst snd] in Im.
      destruct (group 1 c) as [[x y]|] eqn:G.
      + cbn [map forallb app] in Im. change (always s _ && true) with true in Im. cbv iota in Im. destruct Im as [<-|[]]. cbn in E1, E2, E4. subst. auto.
      + cbn [map forallb app] in Im. destruct Im.
    - intros (p & e & c & If & G & ->). exists (rx_child (site_rx body) p e (mk_c a b (lit "website") (MvStr (slice a b s)))).
      split; [|cbn; auto]. apply rx_In. exists p, e, c. split; [exact If|]. unfold rx_one, rx_kids, site_rx.
      cbn [rx_children rx_validate_all rx_valid rx_child_valid rx_private_parent negb orb andb rx_names flat_map fst snd]. rewrite G. cbn [map forallb app].
      change (always s _ && true) with true. cbv iota. left. reflexivity.
  Qed.
  Lemma shows_site s a b v : shows (site_matches subs safe prefixes tlds s) a b (lit "website") v <->
    v = MvStr (slice a b s) /\ exists body p e c, (body = body1 subs tlds \/ body = body2 subs safe \/ body = body3 subs prefixes tlds) /\ In (p, e, c) (finditer s (site_re body)) /\ group 1 c = Some (a, b).
  Proof.
    unfold site_matches. rewrite !shows_app, !rx_shows. split.
    - intros [H|[H|H]]; destruct H as (p & e & c & H1 & H2 & H3); (split; [exact H3|]); eexists; exists p, e, c; (split; [|split; [exact H1|exact H2]]); auto.
    - intros (E & body & p & e & c & [-> |[-> | ->]] & H1 & H2); [left|right; left|right; right]; exists p, e, c; auto.
  Qed.

  (** C111: what is found is written as a website, and no letter or digit touches it *)
  Theorem C111_found s a b v : shows (site_matches subs safe prefixes tlds s) a b (lit "website") v ->
    a < b <= List.length s /\ v = MvStr (slice a b s) /\ site subs safe prefixes tlds (slice a b s) /\ bounded s a b.
  Proof.
    destruct Nonempty as (N1 & N2 & N3 & N4). intros H. apply shows_site in H as (-> & body & p & e & c & Hb & If & G).
    assert (Q : exists S0, spells s body S0 /\ (forall t, S0 t -> site subs safe prefixes tlds t)).
    { destruct Hb as [-> |[-> | ->]]; [exists (site1 subs tlds)|exists (site2 subs safe)|exists (site3 subs prefixes tlds)]; (split; [|unfold site; auto]).
      - apply body1_spells; assumption.
      - apply body2_spells; assumption.
      - apply body3_spells; assumption. }
    destruct Q as (S0 & Sp & Sx). assert (Ne : forall t, S0 t -> t <> []) by (intros t Ht; apply site_ne, Sx, Ht).
    apply (site_sound s body S0 Sp Ne) in If as (x & y & t & -> & R & T & B). cbn [group Nat.eqb] in G. injection G as <- <-.
    pose proof (reads_nonempty s S0 Ne x y t R T). split; [lia|]. split; [reflexivity|]. destruct R as [_ ->]. auto.
  Qed.

  (** C111: apart from the rest of the input, a text is a website exactly if it is written as one *)
  Theorem C111_apart s a b v : (forall w, In w subs -> w <> []) -> plain subs -> plain safe -> plain prefixes -> plain tlds ->
    a < b <= List.length s -> apart s a b ->
    shows (site_matches subs safe prefixes tlds s) a b (lit "website") v <-> site subs safe prefixes tlds (slice a b s) /\ v = MvStr (slice a b s).
  Proof.
    intros Ws Ps Psafe Pp Pt L A. split; [intros H; apply C111_found in H; tauto|]. intros [T ->]. apply shows_site. split; [reflexivity|].
    destruct Nonempty as (N1 & N2 & N3 & N4).
    assert (Nd : forall S0 : str -> Prop, (forall t, S0 t -> site subs safe prefixes tlds t) -> forall a b, S0 (slice a b s) -> nth_error s a <> Some 46%N).
    { intros S0 Sx a' b' H E. destruct (site_first subs safe prefixes tlds _ Ps Ws (Sx _ H)) as (c & r & E' & Nc). pose proof (slice_nth a' b' s 0) as E2. rewrite E' in E2. cbn [nth_error] in E2.
      destruct (0 <? b' - a'); [|discriminate]. rewrite Nat.add_0_r in E2. congruence. }
    assert (Q : forall body S0, spells s body S0 -> only of_host body -> (forall t, S0 t -> site subs safe prefixes tlds t) -> S0 (slice a b s) ->
      (forall a b (k : nat -> caps -> option (nat * caps)) x,
        (forall j d, j <= List.length s -> k j d <> None <-> (forall c, nth_error s j = Some c -> ~ letter_or_digit c)) ->
        b <= List.length s -> (forall c, nth_error s b = Some c -> ~ letter_or_digit c) -> (forall r c e d, M s r a c e d -> only of_host r -> e <= b) -> a <= List.length s ->
        S0 (slice a b s) -> a <= b -> mtch s body a [] k = Some x -> k b [] = Some x) ->
      exists p e c, In (p, e, c) (finditer s (site_re body)) /\ group 1 c = Some (a, b)).
    { intros body S0 Sp On Sx T0 F. assert (Ne : forall t, S0 t -> t <> []) by (intros t Ht; apply site_ne, Sx, Ht).
      destruct (site_found s body S0 Sp On Ne (Nd S0 Sx) F a b L A T0) as (p & e & I). exists p, e, [(1, (a, b))]. split; [exact I|reflexivity]. }
    destruct T as [T|[T|T]].
    - destruct (Q (body1 subs tlds) (site1 subs tlds)) as (p & e & c & I & G); [apply body1_spells; assumption|apply only_body1; assumption|unfold site; auto|exact T| |exists (body1 subs tlds), p, e, c; auto].
      intros a' b' k x K1 K2 K3 K4 K5 K6 K7 K8. apply (first1 s a' b' k K1 K2 K3 subs tlds N1 N4 Ps Pt Ws K4 K5 [] x K6 K7 K8).
    - destruct (Q (body2 subs safe) (site2 subs safe)) as (p & e & c & I & G); [apply body2_spells; assumption|apply only_body2; assumption|unfold site; auto|exact T| |exists (body2 subs safe), p, e, c; auto].
      intros a' b' k x K1 K2 K3 K4 K5 K6 K7 K8. apply (first2 s a' b' k K1 K2 K3 subs safe N1 N2 Ps Psafe Ws K4 K5 [] x K6 K7 K8).
    - destruct (Q (body3 subs prefixes tlds) (site3 subs prefixes tlds)) as (p & e & c & I & G); [apply body3_spells; assumption|apply only_body3; assumption|unfold site; auto|exact T| |exists (body3 subs prefixes tlds), p, e, c; auto].
      intros a' b' k x K1 K2 K3 K4 K5 K6 K7 K8. apply (first3 s a' b' k K1 K2 K3 subs prefixes tlds N1 N3 N4 Ps Pp Pt Ws K4 K5 [] x K6 K7 K8).
  Qed.
End Websites.
Print Assumptions C111_found.
Print Assumptions C111_apart.

(** *** the list of domains *)
Definition double_hyphen (l : str) : Prop := exists u v, l = u ++ 45%N :: 45%N :: v.
Lemma split_lines_app l : forall cur r, ~ In 10%N l -> split_lines cur (l ++ 10%N :: r) = (rev cur ++ l) :: split_lines [] r.
Proof.
  induction l as [|c l IH]; intros cur r H; cbn [app split_lines].
  - rewrite app_nil_r. reflexivity.
  - destruct (N.eqb_spec c 10) as [->|_]; [exfalso; apply H; left; reflexivity|]. rewrite IH by (intros I; apply H; right; exact I). cbn [rev]. rewrite <- app_assoc. reflexivity.
Qed.
Lemma split_lines_end l : forall cur, ~ In 10%N l -> split_lines cur l = [rev cur ++ l].
Proof.
  induction l as [|c l IH]; intros cur H; cbn [split_lines]; [rewrite app_nil_r; reflexivity|].
  destruct (N.eqb_spec c 10) as [->|_]; [exfalso; apply H; left; reflexivity|]. rewrite IH by (intros I; apply H; right; exact I). cbn [rev]. rewrite <- app_assoc. reflexivity.
Qed.
Lemma split_lines_concat ls : forall l, (forall x, In x (l :: ls) -> ~ In 10%N x) -> split_lines [] (concat_with [10%N] (l :: ls)) = l :: ls.
Proof.
  induction ls as [|l' ls IH]; intros l H; cbn [concat_with flat_map].
  - rewrite app_nil_r. apply (split_lines_end l []), H. left. reflexivity.
  - cbn [app]. rewrite (split_lines_app l []) by (apply H; left; reflexivity). cbn [rev app]. f_equal. apply (IH l'). intros x Hx. apply H. right. exact Hx.
Qed.
Lemma no_double l : match find_sub (lit "--") l 0 with Some _ => false | None => true end = true <-> ~ double_hyphen l.
Proof.
  unfold double_hyphen. pose proof (find_sub_spec (lit "--") l 0 ltac:(discriminate)) as H. destruct (find_sub (lit "--") l 0) as [i|].
  - split; [discriminate|]. intros N. exfalso. apply N. destruct H as (_ & H & _). unfold occurs in H. apply startswith_app in H as [r H]. exists (firstn i l), r. rewrite <- (firstn_skipn i l) at 1. rewrite H. reflexivity.
  - split; [|reflexivity]. intros _ (u & v & E). apply (H (List.length u)); [lia|]. unfold occurs. rewrite E, skipn_app, skipn_all, Nat.sub_diag. cbn [app skipn]. apply startswith_app. exists v. reflexivity.
Qed.

(** C111: the domains are the lines of the file but the first, without those of two hyphens *)
Theorem C111_domains first ls t : (forall l, In l (first :: ls) -> ~ In 10%N l) -> ~ double_hyphen first ->
  In t (read_tlds (concat_with [10%N] (first :: ls))) <-> exists l, In l ls /\ ~ double_hyphen l /\ t = strip is_space l.
Proof.
  intros H N. unfold read_tlds. rewrite split_lines_concat by exact H. cbn [filter]. rewrite (proj2 (no_double first) N). cbn [map skipn]. rewrite in_map_iff. split.
  - intros (l & <- & I). apply filter_In in I as [I D]. apply no_double in D. eauto.
  - intros (l & I & D & ->). exists l. split; [reflexivity|]. apply filter_In. split; [exact I|apply no_double, D].
Qed.
Print Assumptions C111_domains.
(** ... so that the end of the last line makes the empty text a domain *)
Corollary C111_empty_domain first ls : (forall l, In l (first :: ls) -> ~ In 10%N l) -> ~ double_hyphen first -> In [] (read_tlds (concat_with [10%N] (first :: ls ++ [[]]))).
Proof.
  intros H N. apply C111_domains.
  - intros l [<-|I]; [apply H; left; reflexivity|]. apply in_app_iff in I as [I|[<-|[]]]; [apply H; right; exact I|intros []].
  - exact N.
  - exists []. split; [apply in_app_iff; right; left; reflexivity|]. split; [|reflexivity]. intros (u & v & E). destruct u; discriminate.
Qed.
(** ... and [www.anything.] a website *)
Theorem C111_trailing_dot subs safe prefixes tlds w l : In [] tlds -> In w subs -> label l -> site subs safe prefixes tlds (w ++ [46%N] ++ l ++ [46%N]).
Proof.
  intros Ht Hw Hl. left. exists [w], [l], []. split; [discriminate|]. split; [constructor; [exists w; auto|constructor]|]. split; [discriminate|]. split; [constructor; [exact Hl|constructor]|].
  split; [exists []; auto|]. rewrite !one_dotted, app_nil_r, <- !app_assoc. reflexivity.
Qed.
Print Assumptions C111_trailing_dot.

(** the default configuration, with a few of the domains *)
Definition default_sites (s : str) : list mt :=
  site_matches [lit "www"] [lit "com"; lit "net"; lit "org"] [lit "co"; lit "com"; lit "net"; lit "org"]
    (read_tlds (lit "# Version" ++ 10%N :: lit "COM" ++ 10%N :: lit "XN--P1AI" ++ 10%N :: lit "UK" ++ [10%N])) s.
Definition spans (ms : list mt) : list (nat * nat * mval) := map (fun m => (m_start m, m_end m, m_value m)) ms.
Example C111_ex : spans (default_sites (lit "[ www.Some-Site.co.uk ] Title")) =
  [(2, 21, MvStr (lit "www.Some-Site.co.uk")); (2, 21, MvStr (lit "www.Some-Site.co.uk"))].
Proof. vm_compute. reflexivity. Qed.
Example C111_ex_apart : let s := lit "[ www.Some-Site.co.uk ] Title" in
  apart s 2 21 /\ site [lit "www"] [lit "com"] [lit "co"] [lit "uk"] (slice 2 21 s) /\ plain [lit "www"; lit "com"; lit "co"; lit "uk"].
Proof.
  cbv zeta. split; [|split].
  - split; [|split; [|discriminate]].
    + intros k c L E. assert (k = 0 \/ k = 1) as [-> | ->] by lia; vm_compute in E; injection E as <-; unfold of_host, letter_or_digit; lia.
    + intros c E. vm_compute in E. injection E as <-. unfold of_host, letter_or_digit. lia.
  - right. right. exists [lit "www"], (lit "Some-Site"), [lit "co"], (lit "uk"). split; [constructor; [exists (lit "www"); split; [left; reflexivity|reflexivity]|constructor]|]. split; [|split; [discriminate|split; [constructor; [exists (lit "co"); split; [left; reflexivity|reflexivity]|constructor]|split; [exists (lit "uk"); split; [left; reflexivity|reflexivity]|vm_compute; reflexivity]]]].
    split; [discriminate|]. intros c H. vm_compute in H. unfold letter_or_digit. repeat (destruct H as [<-|H]; [lia|]). destruct H.
  - intros w c Hw Hc. vm_compute in Hw. unfold letter_or_digit. repeat (destruct Hw as [<-|Hw]; [vm_compute in Hc; repeat (destruct Hc as [<-|Hc]; [lia|]); destruct Hc|]). destruct Hw.
Qed.
(** the empty domain: a name between dots after [www.] is a website *)
Example C111_dot_ex : spans (default_sites (lit "www.title. 2010")) = [(0, 10, MvStr (lit "www.title."))].
Proof. vm_compute. reflexivity. Qed.
(** C111, limit: a website that only one character separates from the one before it is not found *)
Theorem C111_next_lost : exists s a b, a < b <= List.length s /\ bounded s a b /\ site2 [lit "www"] [lit "com"; lit "net"; lit "org"] (slice a b s) /\
  spans (default_sites s) = [(0, 7, MvStr (lit "foo.com"))] /\ a = 8.
Proof.
  exists (lit "foo.com bar.org"), 8, 15. split; [cbn; lia|]. split; [|split; [|split; [vm_compute; reflexivity|reflexivity]]].
  - split; intros c; [intros _ E|intros E]; vm_compute in E; [injection E as <-; unfold letter_or_digit; lia|discriminate].
  - exists [], (lit "bar"), (lit "org"). split; [constructor|]. split; [|split; [exists (lit "org"); split; [right; right; left; reflexivity|reflexivity]|vm_compute; reflexivity]].
    split; [discriminate|]. intros c H. vm_compute in H. unfold letter_or_digit. repeat (destruct H as [<-|H]; [lia|]). destruct H.
Qed.
Print Assumptions C111_next_lost.
