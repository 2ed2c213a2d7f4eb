(** What [finditer] returns, and inversion of matches (used by the theorems about patterns). *)
From Coq Require Import Sorting.Sorted ZifyBool ZifyNat ZifyN.
From Verif Require Import Py PyFacts Text TextFacts WordsProofs Regex CrcProofs Date DateProofs.

Section Find.
  Context (s : str) (r : re).
  Definition consumes : Prop := forall i c j d, M s r i c j d -> i < j.

  Lemma search_loop_at n : forall i a b c, search_loop s r n i = Some (a, b, c) -> i <= a <= i + n /\ match_at s r a = Some (b, c) /\ forall a', i <= a' < a -> match_at s r a' = None.
  Proof.
    induction n as [|n IH]; intros i a b c; cbn [search_loop].
    - destruct (match_at s r i) as [[j d]|] eqn:E; [|discriminate]. intros H; injection H as <- <- <-. split; [lia|]. split; [exact E|intros; lia].
    - destruct (match_at s r i) as [[j d]|] eqn:E; [intros H; injection H as <- <- <-; split; [lia|]; split; [exact E|intros; lia]|].
      intros H. apply IH in H as (H1 & H2 & H3). split; [lia|]. split; [exact H2|]. intros a' Ha. destruct (Nat.eq_dec a' i) as [->|]; [exact E|apply H3; lia].
  Qed.
  Lemma search_loop_none n : forall i, search_loop s r n i = None -> forall a, i <= a <= i + n -> match_at s r a = None.
  Proof.
    induction n as [|n IH]; intros i; cbn [search_loop]; (destruct (match_at s r i) as [[j d]|] eqn:E; [discriminate|]).
    - intros _ a Ha. replace a with i by lia. exact E.
    - intros H a Ha. destruct (Nat.eq_dec a i) as [->|]; [exact E|apply (IH (S i) H); lia].
  Qed.
  Lemma search_at pos a b c : search s r pos = Some (a, b, c) -> pos <= a <= List.length s /\ match_at s r a = Some (b, c) /\ forall a', pos <= a' < a -> match_at s r a' = None.
  Proof. unfold search. destruct (Nat.ltb_spec (List.length s) pos); [discriminate|]. intros E. apply search_loop_at in E as (H1 & H2 & H3). split; [lia|]. auto. Qed.
  Lemma search_none pos : search s r pos = None -> forall a, pos <= a <= List.length s -> match_at s r a = None.
  Proof. unfold search. destruct (Nat.ltb_spec (List.length s) pos); [intros _ a Ha; lia|]. intros E a Ha. apply (search_loop_none _ _ E). lia. Qed.

  Lemma match_at_M a b c : match_at s r a = Some (b, c) -> M s r a [] b c.
  Proof. intros E. apply mtch_sound in E as (j & d & H & E). injection E as -> ->. exact H. Qed.
  Lemma M_match_at a b c : a <= List.length s -> M s r a [] b c -> exists b' c', match_at s r a = Some (b', c').
  Proof. intros Ha H. destruct (mtch_complete s r a [] b c H Ha (fun j c => Some (j, c)) (b, c) eq_refl) as [[b' c'] E]. eauto. Qed.

  Context (Hc : consumes).
  Lemma match_at_len a b c : a <= List.length s -> match_at s r a = Some (b, c) -> a < b <= List.length s.
  Proof. intros Ha E. apply match_at_M in E. split; [exact (Hc _ _ _ _ E)|apply (M_mono _ _ _ _ _ _ E), Ha]. Qed.

  Lemma finditer_loop_sound fuel : forall pos a b c, In (a, b, c) (finditer_loop s r fuel pos) -> pos <= a <= List.length s /\ match_at s r a = Some (b, c).
  Proof.
    induction fuel as [|f IH]; intros pos a b c; cbn [finditer_loop]; [intros []|].
    destruct (search s r pos) as [[[a' b'] c']|] eqn:E; [|intros []]. apply search_at in E as (H1 & H2 & _).
    pose proof (match_at_len _ _ _ (proj2 H1) H2) as H3.
    intros [H|H]; [injection H as <- <- <-; split; [exact H1|exact H2]|]. apply IH in H as [H4 H5]. split; [lia|exact H5].
  Qed.
  Lemma finditer_sound a b c : In (a, b, c) (finditer s r) -> a < b <= List.length s /\ match_at s r a = Some (b, c) /\ M s r a [] b c.
  Proof. intros H. apply finditer_loop_sound in H as [H1 H2]. split; [apply (match_at_len a b c); [lia|exact H2]|]. split; [exact H2|apply match_at_M, H2]. Qed.

  (** a match that no earlier one crosses is found *)
  Lemma finditer_loop_complete fuel : forall pos a, List.length s < fuel + pos -> pos <= a <= List.length s -> match_at s r a <> None ->
    (forall a' b' c', a' < a -> match_at s r a' = Some (b', c') -> b' <= a) -> exists b c, In (a, b, c) (finditer_loop s r fuel pos).
  Proof.
    induction fuel as [|f IH]; intros pos a Hf Ha Hm Hi; [lia|]. cbn [finditer_loop].
    destruct (search s r pos) as [[[a' b'] c']|] eqn:E.
    - apply search_at in E as (H1 & H2 & H3). pose proof (match_at_len _ _ _ (proj2 H1) H2) as H4.
      destruct (Nat.lt_trichotomy a' a) as [L|[->|L]].
      + pose proof (Hi _ _ _ L H2) as H5. destruct (IH b' a ltac:(lia) ltac:(lia) Hm Hi) as (b & c & H6). exists b, c. right; exact H6.
      + exists b', c'. left; reflexivity.
      + destruct Hm. apply H3. lia.
    - destruct Hm. apply (search_none _ E). lia.
  Qed.
  Lemma finditer_complete a b c : a <= List.length s -> M s r a [] b c -> (forall a' b' c', a' < a -> M s r a' [] b' c' -> b' <= a) -> exists b' c', In (a, b', c') (finditer s r).
  Proof.
    intros Ha H Hi. apply finditer_loop_complete; [lia|lia| |].
    - destruct (M_match_at a b c Ha H) as (b' & c' & ->). discriminate.
    - intros a' b' c' L E. apply match_at_M in E. exact (Hi _ _ _ L E).
  Qed.

  (** in order, without overlap *)
  Lemma finditer_loop_sorted fuel : forall pos, StronglySorted (fun x y => snd (fst x) <= fst (fst y)) (finditer_loop s r fuel pos).
  Proof.
    induction fuel as [|f IH]; intros pos; cbn [finditer_loop]; [constructor|].
    destruct (search s r pos) as [[[a b] c]|] eqn:E; [|constructor]. constructor; [apply IH|].
    apply Forall_forall. intros [[a' b'] c'] H. cbn [fst snd]. apply finditer_loop_sound in H. lia.
  Qed.
  Lemma finditer_sorted : StronglySorted (fun x y => snd (fst x) <= fst (fst y)) (finditer s r).
  Proof. apply finditer_loop_sorted. Qed.
End Find.

(** * Inversion *)
Section Inv.
  Context (s : str).
  Lemma M_eps_inv i c j d : M s REps i c j d -> j = i /\ d = c.
  Proof. intros H. inversion H; auto. Qed.
  Lemma M_opt1_inv a i c j d : M s (ropt a 1) i c j d -> (M s a i c j d) \/ (j = i /\ d = c).
  Proof. cbn [ropt]. intros H. apply M_alt_inv in H as [H|H]; [|right; apply M_eps_inv, H]. left. apply M_seq_inv in H as (k & e & H1 & H2). apply M_eps_inv in H2 as [-> ->]. exact H1. Qed.
  Lemma M_opt1 a i c j d : M s a i c j d -> M s (ropt a 1) i c j d.
  Proof. intros H. cbn [ropt]. apply M_alt_l. econstructor; [exact H|constructor]. Qed.
  Lemma M_opt0 a i c : M s (ropt a 1) i c i c.
  Proof. cbn [ropt]. apply M_alt_r. constructor. Qed.
  Lemma M_star_intro p n : forall i c, all_in s p i (i + n) -> M s (RStar (RChr p)) i c (i + n) c.
  Proof.
    induction n as [|n IH]; intros i c H; [rewrite Nat.add_0_r; constructor|].
    destruct (H i ltac:(lia)) as (x & E & Ex). replace (i + S n) with (S i + n) by lia.
    apply (M_star_S s (RChr p) i c (S i) c); [lia|econstructor; eassumption|]. apply IH. intros k Hk. apply H. lia.
  Qed.
  Lemma M_plus p i c j d : M s (ratleast (RChr p) 1) i c j d <-> d = c /\ i < j /\ all_in s p i j.
  Proof.
    split.
    - intros H. apply M_seq_inv in H as (k & e & H1 & H2). apply M_rep in H1 as (-> & -> & H1). pose proof (M_mono _ _ _ _ _ _ H2) as [L _]. apply M_starchr in H2 as [-> H2].
      split; [reflexivity|]. split; [lia|]. intros k Hk. destruct (Nat.eq_dec k i) as [->|]; [apply H1; lia|apply H2; lia].
    - intros (-> & L & H). apply (M_seq _ _ _ i c (i + 1) c); [apply M_rep; split; [reflexivity|]; split; [reflexivity|]; intros k Hk; apply H; lia|].
      replace j with (i + 1 + (j - (i + 1))) by lia. apply M_star_intro. intros k Hk. apply H. lia.
  Qed.
  Lemma M_opt_intro p n : forall i c j, i <= j <= i + n -> all_in s p i j -> M s (ropt (RChr p) n) i c j c.
  Proof.
    induction n as [|n IH]; intros i c j L H; cbn [ropt]; [replace j with i by lia; constructor|].
    destruct (Nat.eq_dec i j) as [->|Ne]; [apply M_alt_r; constructor|]. apply M_alt_l. destruct (H i ltac:(lia)) as (x & E & Ex).
    econstructor; [econstructor; eassumption|]. apply IH; [lia|]. intros k Hk. apply H. lia.
  Qed.
  Lemma M_range_iff p m n i c j d : m <= n -> M s (rrange (RChr p) m n) i c j d <-> d = c /\ i + m <= j <= i + n /\ all_in s p i j.
  Proof.
    intros L. split; [apply M_range, L|]. intros (-> & H1 & H2). apply (M_seq _ _ _ i c (i + m) c); [apply M_rep; split; [reflexivity|]; split; [reflexivity|]; intros k Hk; apply H2; lia|].
    apply M_opt_intro; [lia|]. intros k Hk. apply H2. lia.
  Qed.
  Lemma M_chr_iff p i c j d : M s (RChr p) i c j d <-> d = c /\ j = S i /\ exists x, nth_error s i = Some x /\ p x = true.
  Proof. split; [apply M_chr_inv|]. intros (-> & -> & x & E & Ex). econstructor; eassumption. Qed.

  (** a maximal greedy repetition at the end of an expression *)
  Lemma opt_greedy {A} p n : forall i c (k : nat -> caps -> option A) x, (forall j d, k j d <> None) -> mtch s (ropt (RChr p) n) i c k = Some x ->
    exists j, i <= j <= i + n /\ all_in s p i j /\ (j = i + n \/ stops s p j) /\ k j c = Some x.
  Proof.
    induction n as [|n IH]; intros i c k x Hk; cbn [ropt mtch].
    - intros E. exists i. split; [lia|]. split; [intros l Hl; lia|]. split; [left; lia|exact E].
    - destruct (nth_error s i) as [y|] eqn:E.
      + destruct (p y) eqn:Ep.
        * destruct (mtch s (ropt (RChr p) n) (S i) c k) as [z|] eqn:Ez.
          -- intros H; injection H as ->. apply IH in Ez as (j & H1 & H2 & H3 & H4); [|exact Hk]. exists j. split; [lia|]. split; [|split; [destruct H3; [left; lia|right; assumption]|exact H4]].
             intros l Hl. destruct (Nat.eq_dec l i) as [->|]; [eauto|apply H2; lia].
          -- exfalso. clear - Ez Hk. destruct n as [|n]; cbn [ropt mtch] in Ez; [exact (Hk _ _ Ez)|].
             match type of Ez with (match ?e with _ => _ end) = _ => destruct e end; [discriminate|exact (Hk _ _ Ez)].
        * intros H. exists i. split; [lia|]. split; [intros l Hl; lia|]. split; [right; intros z Hz; congruence|exact H].
      + intros H. exists i. split; [lia|]. split; [intros l Hl; lia|]. split; [right; intros z Hz; congruence|exact H].
  Qed.
  Lemma range_greedy {A} p m n i c (k : nat -> caps -> option A) x : m <= n -> (forall j d, k j d <> None) -> mtch s (rrange (RChr p) m n) i c k = Some x ->
    exists j, i + m <= j <= i + n /\ all_in s p i j /\ (j = i + n \/ stops s p j) /\ k j c = Some x.
  Proof.
    intros L Hk H. unfold rrange in H. cbn [mtch] in H. apply mtch_rep in H as [H1 H2]. apply opt_greedy in H2 as (j & H3 & H4 & H5 & H6); [|exact Hk].
    exists j. split; [lia|]. split; [|split; [destruct H5; [left; lia|right; assumption]|exact H6]]. intros l Hl. destruct (Nat.lt_ge_cases l (i + m)); [apply H1; lia|apply H4; lia].
  Qed.
  Lemma plus_greedy i c j d : forall p, i <= List.length s -> mtch s (ratleast (RChr p) 1) i c (fun j c => Some (j, c)) = Some (j, d) -> d = c /\ i < j /\ all_in s p i j /\ stops s p j.
  Proof.
    intros p Hi H. unfold ratleast in H. cbn [mtch] in H. apply mtch_rep in H as [H1 H2].
    assert (Hl : i + 1 <= List.length s) by (destruct (H1 i ltac:(lia)) as (x & E & _); apply nth_error_lt in E; lia).
    apply (star_greedy s p (i + 1) c j d Hl) in H2 as (-> & H3 & H4 & H5). split; [reflexivity|]. split; [lia|]. split; [|exact H5].
    intros l Hl'. destruct (Nat.eq_dec l i) as [->|]; [apply H1; lia|apply H4; lia].
  Qed.

  Lemma all_in_weaken p q i j : (forall c, p c = true -> q c = true) -> all_in s p i j -> all_in s q i j.
  Proof. intros H A k Hk. destruct (A k Hk) as (x & E & Ex). eauto. Qed.
  Lemma all_in_sub p i j i' j' : i <= i' -> j' <= j -> all_in s p i j -> all_in s p i' j'.
  Proof. intros L1 L2 A k Hk. apply A. lia. Qed.
  (** two maximal runs from the same place *)
  Lemma runs_agree p i j j' : all_in s p i j -> stops s p j -> all_in s p i j' -> stops s p j' -> i <= j -> i <= j' -> j = j'.
  Proof.
    intros A B A' B' L L'. destruct (Nat.lt_trichotomy j j') as [H|[H|H]]; [|exact H|]; exfalso.
    - apply (stops_all s p j i j' B A'). lia.
    - apply (stops_all s p j' i j B' A). lia.
  Qed.
End Inv.

Section Greedy.
  Context (s : str).
  Lemma mtch_seq {A} a b i c (k : nat -> caps -> option A) x : mtch s (RSeq a b) i c k = Some x -> exists j d, M s a i c j d /\ mtch s b j d k = Some x.
  Proof. cbn [mtch]. intros H. apply mtch_sound in H. exact H. Qed.
  Lemma star_max {A} p (k : nat -> caps -> option A) i c x : (forall j d, k j d <> None) -> i <= List.length s -> mtch s (RStar (RChr p)) i c k = Some x ->
    exists j, i <= j <= List.length s /\ all_in s p i j /\ stops s p j /\ k j c = Some x.
  Proof.
    intros Hk. cbn [mtch]. remember (List.length s - i) as n eqn:En. revert i En.
    induction n as [|n IH]; intros i En Hi H.
    - exists i. split; [lia|]. split; [intros l Hl; lia|]. split; [|exact H]. intros y Hy. apply nth_error_lt in Hy. lia.
    - destruct (nth_error s i) as [y|] eqn:E; [|apply nth_error_None in E; lia].
      destruct (p y) eqn:Ep.
      + destruct (Nat.leb_spec (S i) i); [lia|].
        match type of H with context [match ?e with _ => _ end] => destruct e as [z|] eqn:Ez end.
        * injection H as ->. apply IH in Ez as (j & H1 & H2 & H3 & H4); [|lia|lia]. exists j. split; [lia|]. split; [|auto].
          intros l Hl. destruct (Nat.eq_dec l i) as [->|]; [eauto|apply H2; lia].
        * exfalso. clear - Ez Hk. destruct n as [|n]; [exact (Hk _ _ Ez)|].
          destruct (match nth_error s (S i) with Some x => _ | None => _ end); [discriminate|exact (Hk _ _ Ez)].
      + exists i. split; [lia|]. split; [intros l Hl; lia|]. split; [intros z Hz; congruence|exact H].
  Qed.
  Lemma plus_max {A} p (k : nat -> caps -> option A) i c x : (forall j d, k j d <> None) -> mtch s (ratleast (RChr p) 1) i c k = Some x ->
    exists j, i < j <= List.length s /\ all_in s p i j /\ stops s p j /\ k j c = Some x.
  Proof.
    intros Hk H. unfold ratleast in H. cbn [mtch] in H. apply mtch_rep in H as [H1 H2].
    assert (Hl : i + 1 <= List.length s) by (destruct (H1 i ltac:(lia)) as (y & E & _); apply nth_error_lt in E; lia).
    apply (star_max p k (i + 1) c x Hk Hl) in H2 as (j & H3 & H4 & H5 & H6). exists j. split; [lia|]. split; [|auto].
    intros l Hl'. destruct (Nat.eq_dec l i) as [->|]; [apply H1; lia|apply H4; lia].
  Qed.
  Lemma rlit_intro w : forall i c, i + List.length w <= List.length s -> lower (slice i (i + List.length w) s) = w -> M s (rlit w) i c (i + List.length w) c.
  Proof.
    induction w as [|x w IH]; intros i c L E; cbn [rlit List.length] in *; [rewrite Nat.add_0_r; constructor|].
    destruct (nth_error s i) as [y|] eqn:Ey; [|apply nth_error_None in Ey; lia].
    rewrite (slice_app s i (S i)) in E by lia. rewrite (slice_one s i y Ey) in E. cbn [app lower map] in E. injection E as E1 E2.
    econstructor; [econstructor; [exact Ey|apply N.eqb_eq; exact E1]|]. replace (i + S (List.length w)) with (S i + List.length w) by lia.
    apply IH; [lia|]. replace (S i + List.length w) with (i + S (List.length w)) by lia. exact E2.
  Qed.
  Lemma M_rlit w i c j d : i <= List.length s -> M s (rlit w) i c j d <-> d = c /\ j = i + List.length w /\ j <= List.length s /\ lower (slice i j s) = w.
  Proof.
    intros Li. split.
    - intros H. pose proof (proj2 (M_mono _ _ _ _ _ _ H) Li) as L. apply rlit_inv in H as (-> & H1 & H2). split; [reflexivity|].
      assert (E : List.length w = j - i) by (rewrite <- H2; unfold lower, slice; rewrite map_length, firstn_length, skipn_length; lia). split; [lia|]. auto.
    - intros (-> & -> & L & E). apply rlit_intro; assumption.
  Qed.
End Greedy.
