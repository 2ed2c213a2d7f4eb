(** C93, continued: episodes written with a word and a numeral, when the type is [episode]. *)
From Verif Require Import Py PyFacts Text TextFacts WordsProofs Regex CrcProofs DateProofs RegexFacts RegexOuts Numeral NumeralProofs Date Rebulk RebulkFacts Episodes EpisodeRules EpisodeRulesProps IntProps Patterns PatternsProps DiscProps SxxProps Chain EpisodeChains NumeralRe NumeralReProofs PartProps EpisodeWords EpisodeWordsProofs EpisodeWordsProps.
From Coq Require Import Arith ZifyBool ZifyNat ZifyN.
Local Open Scope nat_scope.

(** ** Specification *)
(** from [k] to [b], alone: a word, perhaps a separator, a number [n] written [t] from [x] to [y], perhaps a version up to [z], perhaps
    a count; a number that is not in digits stands alone *)
Definition numbered (s : str) (k x y z b : nat) (w t : str) (n : Z) (ver cnt : option str) : Prop :=
  (exists p, reads s k y (w ++ p ++ t) /\ maybe_sep p) /\ In (lower w) (map lit ["episode"; "episodes"; "eps"; "ep"; "capitulo"; "capitulos"]%string) /\
  x = y - List.length t /\ written_number t n /\ (number t \/ alone s x y) /\
  perhaps version_text s y z ver /\ perhaps count_text s z b cnt /\ alone s k b.

(** ** Lemmas *)
(** expressions without groups *)
Fixpoint groupless (r : re) : bool :=
  match r with RSeq a b | RAlt a b => groupless a && groupless b | RStar a => groupless a | RGrp _ _ => false | _ => true end.
Lemma groupless_M s r i c j d : M s r i c j d -> groupless r = true -> d = c.
Proof.
  induction 1 as [i c|p i c x E Ep|a b i c j d k e Ha IHa Hb IHb|a b i c j d Ha IHa|a b i c j d Ha IHa|a i c|a i c j d k e L Ha IHa Hs IHs|n a i c j d Ha IHa|c|i c H|p i c H|a i c j d Ha IHa]; cbn [groupless]; intros G; try reflexivity; try discriminate.
  - apply Bool.andb_true_iff in G as [G1 G2]. rewrite (IHb G2). auto.
  - apply Bool.andb_true_iff in G as [G1 G2]. auto.
  - apply Bool.andb_true_iff in G as [G1 G2]. auto.
  - rewrite (IHs G). auto.
Qed.
Lemma numeral_groupless : groupless (numeral_re dash) = true.
Proof. vm_compute. reflexivity. Qed.

Section Numeral.
  Context (s : str).
  Definition num_at (x y : nat) : Prop := x <= y <= List.length s /\ M s (numeral_re dash) x [] y [].
  Lemma num_M x c y d : M s (numeral_re dash) x c y d -> d = c /\ (x <= List.length s -> exists e f, M s (numeral_re dash) x e y f /\ x <= y <= List.length s).
  Proof.
    intros H. split; [exact (groupless_M _ _ _ _ _ _ H numeral_groupless)|]. intros L. exists c, d. split; [exact H|]. apply M_mono in H as [H1 H2]. split; [exact H1|apply H2, L].
  Qed.
  Definition numat (x y : nat) : Prop := exists e f, M s (numeral_re dash) x e y f /\ x <= y <= List.length s.
  Lemma numat_le x y : numat x y -> x <= y <= List.length s.
  Proof. intros (e & f & _ & H). exact H. Qed.
  (** the kinds of numerals *)
  Lemma numeral_kinds x c y d : M s (numeral_re dash) x c y d ->
    (x < y /\ all_in s is_digit x y) \/
    ((exists q, nth_error s x = Some q /\ In (to_lower q) roman_letters) /\ forall k, x <= k < y -> exists q, nth_error s k = Some q /\ In (to_lower q) roman_letters) \/
    exists w, In w number_words_listed /\ y = x + List.length w /\ forall n v, nth_error w n = Some v -> exists q, nth_error s (x + n) = Some q /\ (v = 45%N /\ In q seps \/ v <> 45%N /\ to_lower q = v).
  Proof.
    intros H. unfold numeral_re in H. apply M_alt_inv in H as [H|H]; [|apply M_alt_inv in H as [H|H]].
    - left. unfold digital_re, digit in H. apply M_range_iff in H as (-> & L & H); [|lia]. split; [lia|exact H].
    - right; left. split.
      + unfold roman_re in H. apply M_sq in H as (j & e & H & _). inversion H as [| | | | | | | | | | |a i0 c0 j0 d0 H0]; subst. unfold ratleast, rrep in H0. apply M_sq in H0 as (j1 & e1 & H0 & _). apply M_sq in H0 as (j2 & e2 & H0 & _). apply M_chr_inv in H0 as (_ & _ & q & Eq & Pq). exists q. split; [exact Eq|apply cmem_In, Pq].
      + intros k Hk. apply (M_only s (fun x => In (to_lower x) roman_letters) roman_re x c y d H); [|exact Hk].
        assert (One : forall u l : str, (forall z, In z u -> In z l) -> only (fun x => In (to_lower x) l) (one_of u)) by (intros u l Hu z Hz; apply Hu, cmem_In, Hz).
        assert (Lit : forall u l : str, (forall z, In z u -> In z l) -> only (fun x => In (to_lower x) l) (rlit u)) by (intros u l Hu; apply only_rlit; intros z Hz; apply Hu, Hz).
        assert (Gr : forall o f t, In o roman_letters -> In f roman_letters -> In t roman_letters -> only (fun x => In (to_lower x) roman_letters) (group_re o f t)).
        { intros o f t Ho Hf Ht. unfold group_re. split; [apply Lit; intros z [<-|[<-|[]]]; assumption|]. split; [apply Lit; intros z [<-|[<-|[]]]; assumption|].
          split; [apply only_ropt, One; intros z [<-|[]]; assumption|apply only_range, One; intros z [<-|[]]; assumption]. }
        unfold roman_re. split; [exact I|]. split; [apply only_range, One; intros z [<-|[]]; vm_compute; tauto|].
        split; [apply Gr; vm_compute; tauto|]. split; apply Gr; vm_compute; tauto.
    - right; right. apply alts_M in H as (w & Hw & c' & d' & H); [|discriminate]. apply word_lit_M in H as [-> H]. exists w. split; [exact Hw|]. split; [reflexivity|exact H].
  Qed.
  Lemma roman_plain q : In (to_lower q) roman_letters -> is_alpha q = true /\ is_digit q = false /\ ~ In q seps.
  Proof.
    intros H. assert (A : is_alpha q = true). { apply roman_letter_lower in H. unfold to_lower in H. unfold is_alpha. destruct (is_upper q); [apply Bool.orb_true_l|exact H]. }
    split; [exact A|]. split; [apply alpha_nodigit, A|apply alpha_nosep, A].
  Qed.
  (** a numeral does not end at a separator, and after a separator in it comes neither [e] nor [c]; one that begins with [e] does not begin with [ep] *)
  Lemma numeral_away k q : nth_error s k = Some q -> to_lower q = 101%N \/ to_lower q = 99%N -> (forall c, 0 < k -> nth_error s (k - 1) = Some c -> In c seps) ->
    forall x y, numat x y -> x < k -> ~ k <= y.
  Proof.
    intros Eq Lq Sq x y (c & d & H & _) Lx Ly. destruct (nth_error s (k - 1)) as [r|] eqn:Er; [|apply nth_error_None in Er; apply nth_error_lt in Eq; lia]. specialize (Sq r ltac:(lia) eq_refl).
    apply numeral_kinds in H as [[L D]|[[_ R]|(w & Hw & -> & R)]].
    - destruct (D (k - 1) ltac:(lia)) as (z & Ez & Dz). rewrite Er in Ez. injection Ez as <-. exact (digit_nosep r Dz Sq).
    - destruct (R (k - 1) ltac:(lia)) as (z & Ez & Dz). rewrite Er in Ez. injection Ez as <-. apply roman_plain in Dz. tauto.
    - assert (G : forallb (fun w => forallb (fun n => match nth_error w n with Some v => negb (N.eqb v 45 || cmem v seps) || match nth_error w (S n) with Some u => negb (N.eqb u 101) && negb (N.eqb u 99) && negb (N.eqb u 45) | None => false end | None => true end) (seq 0 12)) number_words_listed = true) by (vm_compute; reflexivity).
      assert (Lw : forallb (fun w => List.length w <=? 10) number_words_listed = true) by (vm_compute; reflexivity). rewrite forallb_forall in Lw. specialize (Lw w Hw).
      rewrite forallb_forall in G. specialize (G w Hw). rewrite forallb_forall in G. assert (In (k - 1 - x) (seq 0 12)) as I by (apply in_seq; lia). specialize (G _ I).
      destruct (nth_error w (k - 1 - x)) as [v|] eqn:Ev; [|apply nth_error_None in Ev; lia]. destruct (R _ _ Ev) as (r' & Er' & Hr). replace (x + (k - 1 - x)) with (k - 1) in Er' by lia. rewrite Er in Er'. injection Er' as <-.
      assert (V : N.eqb v 45 || cmem v seps = true). { destruct Hr as [[-> _]|[_ <-]]; [reflexivity|]. rewrite (sep_lower r Sq). rewrite (proj2 (cmem_In _ _) Sq). apply Bool.orb_true_r. }
      rewrite V in G. cbn [negb orb] in G. destruct (nth_error w (S (k - 1 - x))) as [u|] eqn:Eu; [|discriminate]. destruct (R _ _ Eu) as (q' & Eq' & Hq). replace (x + S (k - 1 - x)) with k in Eq' by lia. rewrite Eq in Eq'. injection Eq' as <-.
      destruct Hq as [[-> _]|[_ <-]]; [discriminate|]. destruct Lq as [Lq|Lq]; rewrite Lq in G; discriminate.
  Qed.
  Lemma numeral_no_ep k q q' y : nth_error s k = Some q -> to_lower q = 101%N -> nth_error s (S k) = Some q' -> to_lower q' = 112%N -> ~ numat k y.
  Proof.
    intros Eq Lq Eq' Lq' (c & d & H & _). apply numeral_kinds in H as [[L D]|[[(z & Ez & R) _]|(w & Hw & -> & R)]].
    - destruct (D k ltac:(lia)) as (z & Ez & Dz). rewrite Eq in Ez. injection Ez as <-. apply lower_is in Lq; [|reflexivity]. destruct Lq as [->| ->]; discriminate.
    - rewrite Eq in Ez. injection Ez as <-. rewrite Lq in R. vm_compute in R. intuition discriminate.
    - assert (G : forallb (fun w => match w with a :: b :: _ => negb (N.eqb a 101) || negb (N.eqb b 112) && negb (N.eqb b 45) | _ => false end && match w with a :: _ => negb (N.eqb a 45) | _ => false end) number_words_listed = true) by (vm_compute; reflexivity).
      rewrite forallb_forall in G. specialize (G w Hw). destruct w as [|a [|b w]]; [discriminate|discriminate|]. destruct (R 0 a eq_refl) as (z & Ez & Hz). rewrite Nat.add_0_r, Eq in Ez. injection Ez as <-. destruct (R 1 b eq_refl) as (z & Ez & Hz'). replace (k + 1) with (S k) in Ez by lia. rewrite Eq' in Ez. injection Ez as <-.
      apply Bool.andb_true_iff in G as [G1 G2]. destruct Hz as [[-> _]|[_ <-]]; [discriminate|]. rewrite Lq in G1. cbn [N.eqb Pos.eqb negb orb] in G1. destruct Hz' as [[-> _]|[_ <-]]; [discriminate|]. rewrite Lq' in G1. discriminate.
  Qed.

  (** what the expression takes *)
  Definition num_pick (x : nat) : option nat := option_map (fun n => x + n) (numeral_pick (at_ s x)).
  Lemma num_best x c : best s (numeral_re dash) x c = option_map (fun y => (y, c)) (num_pick x).
  Proof. rewrite best_numeral. unfold num_pick. destruct (numeral_pick (at_ s x)); reflexivity. Qed.
  Lemma num_pick_sep x y : nth_error s x = Some y -> In y seps -> num_pick x = None.
  Proof.
    intros E S. pose proof (no_numeral_at_sep s dash x y [] E S) as H. pose proof (num_best x []) as B. unfold best in B. rewrite H in B. destruct (num_pick x); [discriminate|reflexivity].
  Qed.
  Lemma num_pick_at x y : x <= List.length s -> num_pick x = Some y -> numat x y.
  Proof.
    intros L P. pose proof (num_best x []) as B. rewrite P in B. apply best_M in B. exists [], []. split; [exact B|]. apply M_mono in B as [B1 B2]. split; [exact B1|apply B2, L].
  Qed.
  (** digits: as many as there are, up to four *)
  Lemma digits_lead x y : x < y <= List.length s -> y <= x + 4 -> all_in s is_digit x y -> (y = x + 4 \/ stops s is_digit y) -> num_pick x = Some y.
  Proof.
    intros L L4 D St. assert (C : at_ s x = slice x y s ++ at_ s y).
    { rewrite <- (firstn_skipn (y - x) (at_ s x)), at_slice, at_skip. replace (x + (y - x)) with y by lia. f_equal. apply lower_digits. intros c Hc. apply (proj1 (all_in_forall s is_digit x y ltac:(lia)) D c Hc). }
    assert (Dt : forall c, In c (slice x y s) -> is_digit c = true) by (apply (proj1 (all_in_forall s is_digit x y ltac:(lia))), D). pose proof (slice_len s x y ltac:(lia)) as Ls.
    unfold num_pick. rewrite C. set (t := slice x y s) in *. assert (Hd : lead is_digit 4 (t ++ at_ s y) = List.length t).
    { apply lead_app; [exact Dt|lia|]. destruct St as [->|St]; [left; lia|right]. destruct (nth_error s y) as [c|] eqn:Ec; [rewrite (at_cons s y c Ec), to_lower_digit; apply St, Ec|rewrite (at_nil s y Ec); exact I]. }
    destruct t as [|c t0] eqn:Et; [cbn [List.length] in Ls; lia|]. unfold numeral_pick. cbn [app]. rewrite (Dt c (or_introl eq_refl)). change (c :: t0 ++ at_ s y) with ((c :: t0) ++ at_ s y). rewrite Hd, Ls. cbn [option_map]. f_equal. lia.
  Qed.
  Lemma num_pick_digits x y q : nth_error s x = Some q -> is_digit q = true -> num_pick x = Some y -> x < y <= x + 4 /\ all_in s is_digit x y.
  Proof.
    intros E D P. unfold num_pick in P. rewrite (at_cons s x q E) in P. unfold numeral_pick in P. rewrite to_lower_digit, D in P. cbn [option_map] in P. apply some_inj in P. rewrite <- (at_cons s x q E) in P.
    pose proof (lead_le is_digit 4 (at_ s x)) as [L1 L2]. pose proof (lead_all is_digit 4 (at_ s x)) as LA. rewrite at_len in L2. pose proof (nth_error_lt _ _ _ E) as Lx.
    assert (L0 : 0 < lead is_digit 4 (at_ s x)) by (rewrite (at_cons s x q E); cbn [lead]; rewrite to_lower_digit, D; lia). subst y. split; [lia|].
    apply all_in_forall; [lia|]. intros c Hc. rewrite at_slice in LA. rewrite <- to_lower_digit. apply LA. unfold lower. apply in_map, Hc.
  Qed.
End Numeral.

Definition numeral_kids (s : str) (k j x y z b : nat) (ver cnt : option str) : list child :=
  [mk_c k j (lit "episodeMarker") (MvStr (slice k j s)); mk_c x y (lit "episode") (numeral_of_text (slice x y s))] ++
  match ver with Some n => [mk_c (z - List.length n) z (lit "version") (int_of_text (slice (z - List.length n) z s))] | None => [] end ++
  match cnt with Some n => [mk_c (b - List.length n) b (lit "count") (int_of_text (slice (b - List.length n) b s))] | None => [] end.
Lemma numeral_kids_eq cfg s k j x y z b ver cnt : rx_kids (numeral_episode_rx cfg) s (caps_of k j x y z b ver cnt) = numeral_kids s k j x y z b ver cnt.
Proof. destruct ver, cnt; reflexivity. Qed.
Lemma numeral_parent cfg s k j x y z b ver cnt : ep_parent_valid cfg s (rx_parent (numeral_episode_rx cfg) s k b (caps_of k j x y z b ver cnt)) = true <-> alone s k b.
Proof.
  rewrite (kids_ordered cfg s _ k j x y z b ver cnt (fun c => if str_eqb (c_name c) (lit "episode") then mk_c (c_start c) (c_end c) (c_name c) (numeral_of_text (slice x y s)) else c)).
  - rewrite seps_alone. reflexivity.
  - cbn [rx_parent m_children]. rewrite numeral_kids_eq. destruct ver, cnt; reflexivity.
  - intros c. destruct (str_eqb (c_name c) (lit "episode")); reflexivity.
Qed.
Lemma written_at s x y : x <= y <= List.length s -> numat s x y -> alone s x y -> num_pick s x = Some y -> exists n, written_number (slice x y s) n.
Proof. intros L _ A P. apply (pick_iff s x y L (proj2 A)). unfold num_pick in P. destruct (numeral_pick (at_ s x)) as [m|]; [|discriminate]. cbn [option_map] in P. apply some_inj in P. f_equal. lia. Qed.
(** a numeral that does not begin with a digit has none *)
Lemma numeral_letters s x y q : numat s x y -> nth_error s x = Some q -> is_digit q = false -> int_coercable (slice x y s) = false.
Proof.
  intros (c & d & H & L) E D. apply letters_not_int. intros z Hz. apply In_nth_error in Hz as (n & Hn). rewrite slice_nth in Hn. destruct (Nat.ltb_spec n (y - x)) as [Ln|]; [|discriminate].
  apply numeral_kinds in H as [[L1 D1]|[[_ R]|(w & Hw & Ey & R)]].
  - destruct (D1 x ltac:(lia)) as (q' & Eq & Dq). rewrite E in Eq. injection Eq as <-. congruence.
  - destruct (R (x + n) ltac:(lia)) as (q' & Eq & Rq). rewrite Hn in Eq. injection Eq as <-. apply roman_plain in Rq. tauto.
  - destruct (nth_error w n) as [v|] eqn:Ev; [|apply nth_error_None in Ev; lia]. destruct (R n v Ev) as (q' & Eq & [[_ Sq]|[Nv Lq]]); rewrite Hn in Eq; injection Eq as <-; [apply sep_nodigit, Sq|].
    assert (G : forallb (fun w => forallb (fun v => negb (is_digit v)) w) number_words_listed = true) by (vm_compute; reflexivity). rewrite forallb_forall in G. specialize (G w Hw). rewrite forallb_forall in G. apply nth_error_In in Ev. specialize (G v Ev). rewrite <- Lq, to_lower_digit in G. destruct (is_digit z); [discriminate|reflexivity].
Qed.
(** Episodio is never the word taken *)
Lemma never_episodio s k w : chosen s episode_words (num_pick s) k = Some w -> In w (map lit ["episode"; "episodes"; "eps"; "ep"; "capitulo"; "capitulos"]%string).
Proof.
  intros H. destruct (chosen_some s episode_words ep_letters (numeral_re dash) (num_pick s) (num_best s) (num_pick_sep s) k w H) as (I & _ & W & F).
  assert (K : forall r, w = lit "epi" ++ r -> (exists v, episode_words = map lit ["episode"; "episodes"; "eps"; "ep"]%string ++ w :: v /\ ~ In w (map lit ["episode"; "episodes"; "eps"; "ep"]%string) ) -> False).
  { intros r E (v & Ev & Nw). assert (Hs : startswith w (at_ s k) = true).
    { unfold chosen in H. apply find_some in H as [_ H]. apply Bool.andb_true_iff in H. apply H. }
    apply startswith_app in Hs as [u Hu]. rewrite E in Hu. change (lit "epi") with [101; 112; 105]%N in Hu. cbn [app] in Hu.
    specialize (F _ v (lit "ep") Ev Nw (or_intror (or_intror (or_intror (or_introl eq_refl))))). rewrite Hu in F. specialize (F eq_refl). change (List.length (lit "ep")) with 2 in F.
    assert (A : at_ s (k + 2) = 105%N :: r ++ u) by (rewrite <- at_skip, Hu; reflexivity).
    destruct (nth_error s (k + 2)) as [q|] eqn:Eq; [|rewrite (at_nil s _ Eq) in A; discriminate]. assert (Lq : to_lower q = 105%N) by (rewrite (at_cons s _ q Eq) in A; congruence).
    assert (Ad : after_dash s (k + 2) = k + 2). { unfold after_dash. rewrite Eq. destruct (cmem q seps_no_fs) eqn:C; [exfalso|reflexivity]. apply no_fs_iff in C as (C & _). rewrite (sep_lower q C) in Lq. subst q. vm_compute in C. intuition discriminate. }
    rewrite Ad in F. unfold num_pick in F. rewrite A in F. discriminate. }
  unfold episode_words in I. cbn [map In] in I. destruct I as [<-|[<-|[<-|[<-|[<-|[<-|[<-|[<-|[]]]]]]]]]; try (vm_compute; tauto); exfalso.
  - apply (K (lit "sodio") eq_refl). exists (map lit ["episodios"; "capitulo"; "capitulos"]%string). split; [reflexivity|]. vm_compute. intuition discriminate.
  - refine (_ : False). clear K.
    assert (Hs : startswith (lit "episodios") (at_ s k) = true).
    { unfold chosen in H. apply find_some in H as [_ H]. apply Bool.andb_true_iff in H. apply H. }
    apply startswith_app in Hs as [u Hu]. change (lit "episodios") with ([101; 112; 105]%N ++ lit "sodios") in Hu. cbn [app] in Hu.
    specialize (F (map lit ["episode"; "episodes"; "eps"; "ep"; "episodio"]%string) (map lit ["capitulo"; "capitulos"]%string) (lit "ep") eq_refl). assert (N : ~ In (lit "episodios") (map lit ["episode"; "episodes"; "eps"; "ep"; "episodio"]%string)) by (vm_compute; intuition discriminate).
    specialize (F N (or_intror (or_intror (or_intror (or_introl eq_refl))))). rewrite Hu in F. specialize (F eq_refl). change (List.length (lit "ep")) with 2 in F.
    assert (A : exists r, at_ s (k + 2) = 105%N :: r) by (rewrite <- at_skip, Hu; eexists; reflexivity). destruct A as (r & A).
    destruct (nth_error s (k + 2)) as [q|] eqn:Eq; [|rewrite (at_nil s _ Eq) in A; discriminate]. assert (Lq : to_lower q = 105%N) by (rewrite (at_cons s _ q Eq) in A; congruence).
    assert (Ad : after_dash s (k + 2) = k + 2). { unfold after_dash. rewrite Eq. destruct (cmem q seps_no_fs) eqn:C; [exfalso|reflexivity]. apply no_fs_iff in C as (C & _). rewrite (sep_lower q C) in Lq. subst q. vm_compute in C. intuition discriminate. }
    rewrite Ad in F. unfold num_pick in F. rewrite A in F. discriminate.
Qed.
(** the other words are *)
Lemma s_no_number r : match r with [] => True | x :: _ => is_alpha x = false end -> numeral_pick (115%N :: r) = None.
Proof.
  intros H. cbn [numeral_pick]. change (is_digit 115) with false. change (cmem 115 roman_letters) with false. cbv iota. destruct (pick_word number_words_listed (115%N :: r)) as [w|] eqn:P; [exfalso|reflexivity]. unfold pick_word in P. apply find_some in P as [Hw Sw].
  assert (G : forallb (fun w => match w with a :: b :: _ => negb (N.eqb a 115) || is_alpha b | _ => false end) number_words_listed = true) by (vm_compute; reflexivity). rewrite forallb_forall in G. specialize (G w Hw). destruct w as [|a [|b w]]; [discriminate|discriminate|].
  cbn [startswith] in Sw. apply Bool.andb_true_iff in Sw as [Sa Sw]. apply N.eqb_eq in Sa. subst a. cbn [N.eqb Pos.eqb negb orb] in G. destruct r as [|c r]; [discriminate|]. cbn [startswith] in Sw. apply Bool.andb_true_iff in Sw as [Sb _]. apply N.eqb_eq in Sb. congruence.
Qed.
Lemma word_chosen s k w y : In w (map lit ["episode"; "episodes"; "eps"; "ep"; "capitulo"; "capitulos"]%string) -> startswith w (at_ s k) = true -> (forall c, nth_error s (k + List.length w) = Some c -> is_alpha c = false) ->
  num_pick s (after_dash s (k + List.length w)) = Some y -> chosen s episode_words (num_pick s) k = Some w.
Proof.
  intros I S B P. pose proof S as S'. apply startswith_app in S' as [r Hr].
  assert (R : match r with [] => True | x :: _ => is_alpha x = false end).
  { assert (A : at_ s (k + List.length w) = r) by (rewrite <- at_skip, Hr, skipn_app, skipn_all, Nat.sub_diag; reflexivity).
    destruct (nth_error s (k + List.length w)) as [c|] eqn:E; [|rewrite (at_nil s _ E) in A; rewrite <- A; exact Logic.I].
    rewrite (at_cons s _ c E) in A. rewrite <- A. specialize (B c eq_refl). unfold to_lower. destruct (is_upper c) eqn:U; [unfold is_alpha in B; rewrite U in B; discriminate|exact B]. }
  assert (Ns : forall v : str, at_ s (k + List.length v) = 115%N :: r -> num_pick s (after_dash s (k + List.length v)) = None).
  { intros v A. destruct (nth_error s (k + List.length v)) as [q|] eqn:Eq; [|rewrite (at_nil s _ Eq) in A; discriminate]. assert (Lq : to_lower q = 115%N) by (rewrite (at_cons s _ q Eq) in A; congruence).
    assert (Ad : after_dash s (k + List.length v) = k + List.length v). { unfold after_dash. rewrite Eq. destruct (cmem q seps_no_fs) eqn:C; [exfalso|reflexivity]. apply no_fs_iff in C as (C & _). rewrite (sep_lower q C) in Lq. subst q. vm_compute in C. intuition discriminate. }
    rewrite Ad. unfold num_pick. rewrite A, s_no_number by exact R. reflexivity. }
  assert (L : forall (w' : str) x, is_alpha x = true -> match r with [] => True | c :: _ => N.eqb x c = false end).
  { intros _ x Ax. destruct r as [|c r']; [exact Logic.I|]. apply N.eqb_neq. intros ->. congruence. }
  cbn [map In] in I. destruct I as [<-|[<-|[<-|[<-|[<-|[<-|[]]]]]]].
  - apply (chosen_intro s episode_words (num_pick s) k _ [] (tl episode_words) y eq_refl S P). intros w' [].
  - apply (chosen_intro s episode_words (num_pick s) k _ [lit "episode"] (skipn 2 episode_words) y eq_refl S P). intros w' [<-|[]] _. apply Ns. rewrite <- at_skip, Hr. reflexivity.
  - apply (chosen_intro s episode_words (num_pick s) k _ (firstn 2 episode_words) (skipn 3 episode_words) y eq_refl S P). intros w' [<-|[<-|[]]] H; rewrite Hr in H; discriminate.
  - apply (chosen_intro s episode_words (num_pick s) k _ (firstn 3 episode_words) (skipn 4 episode_words) y eq_refl S P). intros w' I H. exfalso. rewrite Hr in H.
    assert (G : exists x u, w' = 101%N :: 112%N :: x :: u /\ is_alpha x = true) by (destruct I as [<-|[<-|[<-|[]]]]; do 2 eexists; split; reflexivity). destruct G as (x & u & -> & Ax). change (lit "ep") with [101; 112]%N in H. cbn [app startswith] in H. rewrite !N.eqb_refl in H. cbn [andb] in H.
    specialize (L [] x Ax). destruct r as [|c r']; [discriminate|]. rewrite L in H. discriminate.
  - apply (chosen_intro s episode_words (num_pick s) k _ (firstn 6 episode_words) (skipn 7 episode_words) y eq_refl S P). intros w' I H. exfalso. rewrite Hr in H. destruct I as [<-|[<-|[<-|[<-|[<-|[<-|[]]]]]]]; discriminate.
  - apply (chosen_intro s episode_words (num_pick s) k _ (firstn 7 episode_words) [] y eq_refl S P). intros w' I H. destruct I as [<-|[<-|[<-|[<-|[<-|[<-|[<-|[]]]]]]]]; try (rewrite Hr in H; discriminate). apply Ns. rewrite <- at_skip, Hr. reflexivity.
Qed.
Definition read_out (x y z b : nat) (n : Z) (ver cnt : option str) (x' y' : nat) (name : str) (v : mval) : Prop :=
  (name = lit "episode" /\ x' = x /\ y' = y /\ v = MvInt n) \/
  (exists m, ver = Some m /\ name = lit "version" /\ x' = z - List.length m /\ y' = z /\ v = MvInt (value_of m)) \/
  (exists m, cnt = Some m /\ name = lit "count" /\ x' = b - List.length m /\ y' = b /\ v = MvInt (value_of m)).

(** ** C93: what is reported *)
Theorem C93_numeral_sound cfg s x' y' name v : shows (word_matches (numeral_episode_rx cfg) s) x' y' name v ->
  exists k x y z b w t n ver cnt, numbered s k x y z b w t n ver cnt /\ read_out x y z b n ver cnt x' y' name v.
Proof.
  unfold word_matches. rewrite (kids_hidden (numeral_episode_rx cfg) s x' y' name v eq_refl eq_refl). cbn [rx_re numeral_episode_rx rx_valid].
  intros (Sm & k & b & c & Hf & Hv & Hc & Hk).
  assert (A : alone s k b). { unfold ep_parent_valid, ep_valid in Hv. apply Bool.andb_true_iff in Hv as [Hv _]. apply seps_alone in Hv. exact Hv. }
  apply finditer_sound in Hf as (Lk & E & _); [|exact (word_consumes s episode_words ep_letters (numeral_re dash) (numat s) (num_M s) (numat_le s))].
  rewrite best_match, (best_whole s episode_words of_words ep_letters (numeral_re dash) (num_pick s) (num_best s) (num_pick_sep s)) in E. cbv zeta in E.
  destruct (chosen s episode_words (num_pick s) k) as [w|] eqn:Ch; [|discriminate]. pose proof (never_episodio s k w Ch) as Iw.
  destruct (chosen_some s episode_words ep_letters (numeral_re dash) (num_pick s) (num_best s) (num_pick_sep s) k w Ch) as (_ & (y & P) & W & _). rewrite P in E.
  set (j := k + List.length w) in *. set (x := after_dash s j) in *. pose proof (joined_after s j) as J. fold x in J. pose proof (word_alpha s episode_words k j ep_letters W) as [Lj Aj]. pose proof (joined_le s j x ltac:(lia) J) as Lx.
  pose proof (num_pick_at s x y ltac:(lia) P) as Nt. pose proof (numat_le s x y Nt) as Ly. apply best_tail in E as (z & e & V & O); [|exact of_letters|lia].
  apply ver_iff in V as (ver & V & ->); [|lia]. pose proof (perhaps_le version_text s y z ver ltac:(lia) V) as Lz. apply ofs_iff in O as (cnt & O & Ec0); [|lia]. clearbody x.
  assert (Ec : c = caps_of k j x y z b ver cnt) by (rewrite Ec0; destruct ver, cnt; reflexivity). rewrite Ec in Hc, Hk. clear Ec0 Ec Hv. rewrite numeral_kids_eq in Hc, Hk.
  assert (Vr : validate_roman s (rx_child (numeral_episode_rx cfg) k b (mk_c x y (lit "episode") (numeral_of_text (slice x y s)))) = true) by (apply (Hc (mk_c x y (lit "episode") (numeral_of_text (slice x y s)))); right; left; reflexivity).
  unfold validate_roman, Title.m_raw in Vr. cbn [rx_child m_raw_start m_raw_end c_start c_end] in Vr.
  destruct W as (p & Rw & Hp). assert (Lp : lower p = w). { unfold chosen in Ch. apply find_some in Ch as [_ Ch]. apply Bool.andb_true_iff in Ch as [Ch _]. apply startswith_app in Ch as [r Ch]. assert (F : firstn (List.length w) (at_ s k) = w) by (rewrite Ch, firstn_app, firstn_all, Nat.sub_diag; cbn [firstn]; apply app_nil_r). rewrite at_slice in F. fold j in F. rewrite (proj2 Rw) in F. exact F. }
  assert (Wn : exists n, written_number (slice x y s) n /\ (number (slice x y s) \/ alone s x y)).
  { destruct (nth_error s x) as [q|] eqn:Eq.
    - destruct (is_digit q) eqn:Dq.
      + destruct (num_pick_digits s x y q Eq Dq P) as [L4 D]. assert (Nu : number (slice x y s)) by (apply digits_iff; [lia|lia|exact D]). exists (value_of (slice x y s)). split; [|left; exact Nu]. constructor; [exact Nu|rewrite slice_len by lia; lia].
      + rewrite (numeral_letters s x y q Nt Eq Dq) in Vr. assert (Al : alone s x y) by (apply (proj1 (seps_alone s (rx_child (numeral_episode_rx cfg) k b (mk_c x y (lit "episode") (numeral_of_text (slice x y s)))))); exact Vr). destruct (written_at s x y Ly Nt Al P) as (n & Hn). exists n. auto.
    - exfalso. unfold num_pick in P. rewrite (at_nil s x Eq) in P. discriminate. }
  destruct Wn as (n & Wn & Al). apply (joined_text s j x ltac:(lia)) in J as (q & Rq & Hq).
  exists k, x, y, z, b, p, (slice x y s), n, ver, cnt. split.
  - split; [exists q; split; [|exact Hq]; apply reads_app; exists j; split; [exact Rw|]; apply reads_app; exists x; split; [exact Rq|]; split; [lia|reflexivity]|].
    split; [rewrite Lp; exact Iw|]. split; [rewrite slice_len by lia; lia|]. auto 10.
  - pose proof (written_value _ _ Wn) as Pn. unfold numeral_kids, numeral_of_text in Hk. rewrite Pn in Hk. cbn [app] in Hk. destruct Hk as [Hk|[Hk|Hk]].
    + exfalso. assert (name = lit "episodeMarker") by congruence. subst name. discriminate.
    + left. assert (x' = x /\ y' = y /\ name = lit "episode" /\ v = MvInt n) as (-> & -> & -> & ->) by (split; [congruence|]; split; [congruence|]; split; congruence). repeat split; reflexivity.
    + right. apply in_app_iff in Hk as [Hk|Hk].
      * left. destruct ver as [m|]; [|destruct Hk]. destruct Hk as [Hk|[]]. rewrite (perhaps_version s y z m ltac:(lia) V) in Hk. exists m. split; [reflexivity|]. split; [congruence|]. split; [congruence|]. split; [congruence|]. assert (v = int_of_text m) as -> by congruence. reflexivity.
      * right. destruct cnt as [m|]; [|destruct Hk]. destruct Hk as [Hk|[]]. rewrite (perhaps_count s z b m ltac:(lia) O) in Hk. exists m. split; [reflexivity|]. split; [congruence|]. split; [congruence|]. split; [congruence|]. assert (v = int_of_text m) as -> by congruence. reflexivity.
Qed.
Print Assumptions C93_numeral_sound.

(** ** and everything so written is reported, except [capitulo] just after another of the words *)
Theorem C93_numeral_found cfg s k x y z b w t n ver cnt x' y' name v : numbered s k x y z b w t n ver cnt -> read_out x y z b n ver cnt x' y' name v ->
  (startswith (lit "ep") (lower w) = true \/ forall a u, reads s a (k - 1) u -> ~ In (lower u) episode_words) ->
  shows (word_matches (numeral_episode_rx cfg) s) x' y' name v.
Proof.
  intros ((p & R & P) & I & Ex & Wn & Al & V & O & A) Ro Hx.
  unfold word_matches. rewrite (kids_hidden (numeral_episode_rx cfg) s x' y' name v eq_refl eq_refl). cbn [rx_re numeral_episode_rx rx_valid].
  split; [destruct Ro as [(-> & _)|[(m & _ & -> & _)|(m & _ & -> & _)]]; reflexivity|].
  apply reads_app in R as (j & Rw & R). apply reads_app in R as (x0 & Rp & Rt). pose proof (reads_len s x0 y t Rt) as [Ext Ly]. assert (x0 = x) by lia. subst x0. clear Ex.
  pose proof (reads_len s k j w Rw) as [Ej Lj]. pose proof (reads_len s j x p Rp) as [Exj _]. pose proof (perhaps_le _ _ _ _ _ Ly V) as Lz.
  assert (Iw : In (lower w) episode_words) by (cbn [map In] in I; unfold episode_words; cbn [map In]; clear - I; tauto).
  assert (W : word s episode_words k j) by (exists w; auto). assert (J : joined s j x) by (apply joined_text; [lia|]; eauto).
  destruct (number_first t n Wn) as (c0 & r0 & Et & Sc). assert (Ec : nth_error s x = Some c0) by (rewrite Et in Rt; apply reads_cons in Rt; apply Rt).
  assert (Lt : x < y) by (rewrite Et in Ext; cbn [List.length] in Ext; lia).
  assert (Ad : after_dash s j = x) by (apply after_dash_joined; [exact J|intros q Eq; rewrite Ec in Eq; injection Eq as <-; exact Sc|lia]).
  assert (Sd : number t -> stops s is_digit y).
  { intros _. destruct ver as [nv|].
    * destruct V as (tv & Rv & (c & -> & Hc & _) & _). apply reads_cons in Rv as [Ev _]. intros q Eq. rewrite Ev in Eq. injection Eq as <-. destruct Hc as [->| ->]; reflexivity.
    * destruct V as [-> _]. destruct cnt as [nc|].
      -- destruct O as (tc & Rc & Tc & _). destruct (proj1 (of_iff s y b nc Ly) (ex_intro _ tc (conj Rc Tc))) as (v0 & (u & w' & J1 & W1 & _) & _). destruct (of_alpha s of_words of_letters u w' W1) as (q & Eq & Aq). exact (joined_no s is_digit y u q sep_nodigit J1 Eq (alpha_nodigit q Aq)).
      -- destruct O as [-> _]. apply stops_sep, A. }
  assert (Pk : num_pick s x = Some y).
  { destruct (number_inv t n Wn) as [[Nu _]|[Nu _]].
    - assert (D : all_in s is_digit x y) by (apply digits_iff; [lia|lia|]; rewrite (proj2 Rt); exact Nu). assert (L4 : List.length t <= 4).
      { destruct Wn as [u Hu Lu|u m Hm U|u m Hw]; [exact Lu| |]; exfalso; pose proof (proj2 (written_digits _ Nu)) as I1; [pose proof (proj2 (written_roman u m Hm U)) as I2|pose proof (proj2 (written_word u m Hw)) as I2]; congruence. }
      apply digits_lead; [lia|lia|exact D|right; apply Sd, Nu].
    - destruct Al as [Al|Al]; [contradiction|]. unfold num_pick. rewrite (proj2 (pick_iff s x y ltac:(lia) (proj2 Al))); [cbn [option_map]; f_equal; lia|]. exists n. rewrite (proj2 Rt). exact Wn. }
  assert (Na : forall c, nth_error s j = Some c -> is_alpha c = false).
  { intros c Hc. destruct P as [->|(sp & -> & Sp & _)].
    - apply reads_nil in Rp as [-> _]. rewrite Ec in Hc. injection Hc as <-. destruct Al as [[_ Nu]|Al].
      + apply digit_noalpha, is_digit_iff, Nu. rewrite Et. left. reflexivity.
      + exfalso. destruct (word_alpha s episode_words k j ep_letters W) as [Lkj Aj]. destruct (Aj (j - 1) ltac:(lia)) as (q & Eq & Aq). exact (alpha_nosep q Aq (proj1 Al q ltac:(lia) Eq)).
    - apply reads_one in Rp as [_ Es]. rewrite Es in Hc. injection Hc as <-. apply sep_noalpha, Sp. }
  assert (Sw : startswith (lower w) (at_ s k) = true).
  { apply startswith_app. exists (skipn (List.length w) (at_ s k)). rewrite <- (firstn_skipn (List.length w) (at_ s k)) at 1. f_equal. rewrite at_slice, <- Ej, (proj2 Rw). reflexivity. }
  assert (Ejl : k + List.length (lower w) = j) by (rewrite lower_length; lia).
  assert (Ch : chosen s episode_words (num_pick s) k = Some (lower w)) by (apply (word_chosen s k (lower w) y I Sw); rewrite Ejl; [exact Na|rewrite Ad; exact Pk]).
  assert (Bst : match_at s (word_ep_re episode_words of_words (numeral_re dash)) k = Some (b, caps_of k j x y z b ver cnt)).
  { rewrite best_match, (best_whole s episode_words of_words ep_letters (numeral_re dash) (num_pick s) (num_best s) (num_pick_sep s)). cbv zeta. rewrite Ch, Ejl, Ad, Pk. apply best_tail; [exact of_letters|lia|].
    exists z, (match ver with Some n => [(3, (z - List.length n, z))] | None => [] end ++ [(2, (x, y)); (1, (k, j))]). split; [apply ver_iff; [exact Ly|]; exists ver; split; [exact V|destruct ver; reflexivity]|]. apply ofs_iff; [lia|]. exists cnt. split; [exact O|]. unfold caps_of. destruct cnt; reflexivity. }
  destruct (ep_first s k j W) as (q & Eq & Aq & Oq). pose proof (nth_error_lt _ _ _ Eq) as Lk.
  exists k, b, (caps_of k j x y z b ver cnt). split.
  - apply finditer_exact; [exact (word_consumes s episode_words ep_letters (numeral_re dash) (numat s) (num_M s) (numat_le s))|lia| |exact Bst].
    intros k' b' d' L' HM. refine (word_isolated s episode_words ep_letters (numeral_re dash) (numat s) (num_M s) (numat_le s) k q Eq Aq Oq (proj1 A) _ k' b' d' L' HM).
    clear k' b' d' L' HM. intros k' j' x1 y1 W' J' N' [H1 H2]. destruct (Nat.eq_dec x1 k) as [->|Nk].
    + destruct Hx as [Hx|Hx].
      * change (lit "ep") with [101; 112]%N in Hx. destruct w as [|w0 [|w1 w]]; [discriminate|cbn [lower map startswith] in Hx; rewrite Bool.andb_false_r in Hx; discriminate|]. cbn [lower map startswith] in Hx. apply Bool.andb_true_iff in Hx as [Hx0 Hx]. apply Bool.andb_true_iff in Hx as [Hx1 _]. apply N.eqb_eq in Hx0, Hx1.
        apply reads_cons in Rw as [R0 Rw]. apply reads_cons in Rw as [R1 _]. exact (numeral_no_ep s k w0 w1 y1 R0 (eq_sym Hx0) R1 (eq_sym Hx1) N').
      * destruct (word_alpha s episode_words k' j' ep_letters W') as [Lk' Aj']. destruct J' as [E|(E & sp & Es & _)].
        -- subst j'. destruct (Aj' (k - 1) ltac:(lia)) as (q' & Eq' & Aq'). exact (alpha_nosep q' Aq' (proj1 A q' ltac:(lia) Eq')).
        -- destruct W' as (u & Ru & Iu). apply (Hx k' u); [|exact Iu]. replace (k - 1) with j' by lia. exact Ru.
    + refine (numeral_away s k q Eq _ (proj1 A) x1 y1 N' ltac:(lia) H2). clear - W Eq. destruct W as (u & Ru & Iu). assert (G : forallb (fun w => match w with c :: _ => N.eqb c 101 || N.eqb c 99 | [] => false end) episode_words = true) by (vm_compute; reflexivity). rewrite forallb_forall in G. specialize (G _ Iu).
      destruct u as [|q' u]; [discriminate|]. apply reads_cons in Ru as [E _]. rewrite Eq in E. injection E as <-. cbn [lower map] in G. lia.
  - split; [apply numeral_parent, A|]. rewrite numeral_kids_eq. pose proof (written_value _ _ Wn) as Pn. split.
    + intros kd Hkd. cbn [rx_child_valid numeral_episode_rx]. unfold numeral_kids in Hkd. cbn [app] in Hkd. destruct Hkd as [<-|[<-|Hkd]]; [reflexivity| |].
      * change (has_name (lit "episode") (rx_child (numeral_episode_rx cfg) k b (mk_c x y (lit "episode") (numeral_of_text (slice x y s))))) with true. cbv iota. unfold validate_roman, Title.m_raw. cbn [rx_child m_raw_start m_raw_end c_start c_end]. rewrite (proj2 Rt).
        destruct (number_inv t n Wn) as [[_ ->]|[Nu ->]]; [reflexivity|]. apply seps_alone. cbn [m_start m_end]. destruct Al as [Al|Al]; [contradiction|exact Al].
      * apply in_app_iff in Hkd as [Hkd|Hkd]; [destruct ver|destruct cnt]; try destruct Hkd as [<-|[]]; try destruct Hkd; reflexivity.
    + unfold numeral_kids, numeral_of_text. rewrite (proj2 Rt), Pn. cbn [app]. right. destruct Ro as [(-> & -> & -> & ->)|[(m & -> & -> & -> & -> & ->)|(m & -> & -> & -> & -> & ->)]].
      * left. reflexivity.
      * right. apply in_app_iff. left. left. rewrite (perhaps_version s y z m Ly V). reflexivity.
      * right. apply in_app_iff. right. left. rewrite (perhaps_count s z b m ltac:(lia) O). reflexivity.
Qed.
Print Assumptions C93_numeral_found.
