(** UUID detection: proofs *)
From Coq Require Import Sorting.Sorted ZifyBool ZifyNat ZifyN.
From Verif Require Import Py PyFacts Text TextFacts WordsProofs Regex Crc.

(** * the greedy repetition of a character class *)
Section Class.
  Context (s : str) (p : N -> bool).
  Definition all_in (i j : nat) : Prop := forall k, i <= k < j -> exists c, nth_error s k = Some c /\ p c = true.
  Lemma M_rep m : forall i c j d, M s (rrep (RChr p) m) i c j d <-> j = i + m /\ d = c /\ all_in i j.
  Proof.
    induction m as [|m IH]; intros i c j d; cbn [rrep].
    - split.
      + intros H; inversion H; subst. split; [lia|]. split; [reflexivity|]. intros k Hk; lia.
      + intros (-> & -> & _). rewrite Nat.add_0_r. constructor.
    - split.
      + intros H. inversion H as [| |a' b' i' c' j1 d1 k' e' H1 H2| | | | | | | | |]; subst.
        inversion H1 as [|p' i' c' x E Ep| | | | | | | | | |]; subst. apply IH in H2 as (-> & -> & H2).
        split; [lia|]. split; [reflexivity|]. intros k Hk. destruct (Nat.eq_dec k i) as [->|]; [eauto|apply H2; lia].
      + intros (-> & -> & H). destruct (H i ltac:(lia)) as (x & E & Ep). econstructor; [econstructor; eassumption|].
        apply IH. split; [lia|]. split; [reflexivity|]. intros k Hk; apply H; lia.
  Qed.
  Lemma M_starchr i c j d : M s (RStar (RChr p)) i c j d -> d = c /\ all_in i j.
  Proof.
    intros H. remember (RStar (RChr p)) as r eqn:Er. induction H as [| | | | |a' i c|a' i c j d l e Hij H1 _ H2 IH2| | | | |]; try discriminate.
    - split; [reflexivity|intros k Hk; lia].
    - injection Er as ->. inversion H1 as [|p' i' c' x E Ep| | | | | | | | | |]; subst. destruct (IH2 eq_refl) as [-> H3]. split; [reflexivity|].
      intros k Hk. destruct (Nat.eq_dec k i) as [->|]; [eauto|apply H3; lia].
  Qed.
  Definition stops (j : nat) : Prop := forall c, nth_error s j = Some c -> p c = false.
  Lemma star_greedy i c j d : i <= List.length s -> mtch s (RStar (RChr p)) i c (fun j c => Some (j, c)) = Some (j, d) -> d = c /\ i <= j /\ all_in i j /\ stops j.
  Proof.
    cbn [mtch]. intros Hi. remember (List.length s - i) as n eqn:En. revert i Hi c En.
    induction n as [|n IH]; intros i Hi c En H.
    - injection H as <- <-. split; [reflexivity|]. split; [lia|]. split; [intros k Hk; lia|]. intros x Hx. apply nth_error_lt in Hx. lia.
    - destruct (nth_error s i) as [x|] eqn:E; [|apply nth_error_None in E; lia].
      destruct (p x) eqn:Ep.
      + destruct (Nat.leb_spec (S i) i); [lia|].
        match type of H with context [match ?e with _ => _ end] => destruct e as [y|] eqn:Ey end.
        * injection H as ->. apply (IH (S i) ltac:(lia) c ltac:(lia)) in Ey as (-> & H1 & H2 & H3). split; [reflexivity|]. split; [lia|]. split; [|exact H3].
          intros k Hk. destruct (Nat.eq_dec k i) as [->|]; [eauto|apply H2; lia].
        * exfalso. clear - Ey. destruct n as [|n]; [discriminate|].
          destruct (match nth_error s (S i) with Some x => _ | None => _ end); discriminate.
      + injection H as <- <-. split; [reflexivity|]. split; [lia|]. split; [intros k Hk; lia|]. intros y Hy. congruence.
  Qed.
  Lemma mtch_rep {A} m : forall i c (k : nat -> caps -> option A) y, mtch s (rrep (RChr p) m) i c k = Some y -> all_in i (i + m) /\ k (i + m) c = Some y.
  Proof.
    induction m as [|m IH]; intros i c k y; cbn [rrep mtch].
    - rewrite Nat.add_0_r. intros H; split; [intros l Hl; lia|exact H].
    - destruct (nth_error s i) as [x|] eqn:E; [|discriminate]. destruct (p x) eqn:Ep; [|discriminate]. intros H.
      apply IH in H as [H1 H2]. replace (i + S m) with (S i + m) by lia. split; [|exact H2].
      intros l Hl. destruct (Nat.eq_dec l i) as [->|]; [eauto|apply H1; lia].
  Qed.
  Lemma match_atleast m i j d : i <= List.length s -> match_at s (ratleast (RChr p) m) i = Some (j, d) -> d = [] /\ i + m <= j /\ all_in i j /\ stops j.
  Proof.
    intros Hi. unfold match_at, ratleast. cbn [mtch]. intros H. apply mtch_rep in H as [H1 H2].
    assert (Hl : i + m <= List.length s).
    { destruct m as [|m]; [lia|]. destruct (H1 (i + m) ltac:(lia)) as (x & E & _). apply nth_error_lt in E. lia. }
    change (mtch s (RStar (RChr p)) (i + m) [] (fun j c => Some (j, c)) = Some (j, d)) in H2.
    apply star_greedy in H2 as (-> & H3 & H4 & H5); [|exact Hl]. split; [reflexivity|]. split; [lia|]. split; [|exact H5].
    intros k Hk. destruct (Nat.lt_ge_cases k (i + m)); [apply H1; lia|apply H4; lia].
  Qed.
  Lemma match_atleast_some m i : i + m <= List.length s -> all_in i (i + m) -> match_at s (ratleast (RChr p) m) i <> None.
  Proof.
    intros Hi H E. assert (HM : M s (ratleast (RChr p) m) i [] (i + m) []).
    { econstructor; [apply M_rep; split; [reflexivity|]; split; [reflexivity|exact H]|constructor]. }
    exact (proj1 (no_match_at s _ i ltac:(lia)) E _ _ HM).
  Qed.

  (** a maximal run of the class *)
  Definition run (a b : nat) : Prop := maximal_run (fun c => p c = false) s a b.
  Lemma run_intro a b : a < b -> all_in a b -> (a = 0 \/ stops (a - 1)) -> stops b -> run a b.
  Proof.
    intros Hab Hin Ha Hb. assert (Hlen : b <= List.length s) by (destruct (Hin (b - 1) ltac:(lia)) as (x & E & _); apply nth_error_lt in E; lia).
    split; [lia|]. split; [|split].
    - intros k c Hk Hc. destruct (Hin k Hk) as (x & E & Ep). congruence.
    - destruct (Nat.eq_dec a 0) as [->|Hn]; [left; reflexivity|]. destruct Ha as [->|Ha]; [left; reflexivity|right].
      destruct (nth_error s (a - 1)) as [c|] eqn:E; [|apply nth_error_None in E; lia]. exists c. split; [reflexivity|apply Ha; exact E].
    - destruct (Nat.eq_dec b (List.length s)) as [->|Hn]; [left; reflexivity|right].
      destruct (nth_error s b) as [c|] eqn:E; [|apply nth_error_None in E; lia]. exists c. split; [reflexivity|apply Hb; exact E].
  Qed.
  Lemma run_elim a b : run a b -> a < b <= List.length s /\ all_in a b /\ (a = 0 \/ stops (a - 1)) /\ stops b.
  Proof.
    intros (H1 & H2 & H3 & H4). split; [exact H1|]. split; [|split].
    - intros k Hk. destruct (nth_error s k) as [c|] eqn:E; [|apply nth_error_None in E; lia]. exists c. split; [reflexivity|].
      specialize (H2 k c Hk E). destruct (p c); congruence.
    - destruct H3 as [->|(c & E & Hc)]; [left; reflexivity|right]. intros d Hd. congruence.
    - destruct H4 as [->|(c & E & Hc)]; intros d Hd; [apply nth_error_lt in Hd; lia|congruence].
  Qed.
  Lemma stops_all k i j : stops k -> all_in i j -> i <= k < j -> False.
  Proof. intros H1 H2 Hk. destruct (H2 k Hk) as (c & E & Ep). rewrite (H1 c E) in Ep. discriminate. Qed.

  Context (m : nat) (Hm : 0 < m).
  Lemma search_loop_some n : forall i a b c, search_loop s (ratleast (RChr p) m) n i = Some (a, b, c) -> i <= a <= i + n /\ match_at s (ratleast (RChr p) m) a = Some (b, c).
  Proof.
    induction n as [|n IH]; intros i a b c; cbn [search_loop].
    - destruct (match_at s _ i) as [[j d]|] eqn:E; [|discriminate]. intros H; injection H as <- <- <-. split; [lia|exact E].
    - destruct (match_at s _ i) as [[j d]|] eqn:E; [intros H; injection H as <- <- <-; split; [lia|exact E]|].
      intros H. apply IH in H as [H1 H2]. split; [lia|exact H2].
  Qed.
  Lemma finditer_runs fuel : forall pos, List.length s < fuel + pos -> (pos = 0 \/ stops pos) ->
    let l := map fst (finditer_loop s (ratleast (RChr p) m) fuel pos) in
    StronglySorted (fun x y => snd x < fst y) l /\
    forall a b, In (a, b) l <-> pos <= a /\ run a b /\ m <= b - a.
  Proof.
    induction fuel as [|f IH]; intros pos Hf Hpos l.
    { subst l. cbn [finditer_loop map]. split; [constructor|]. intros a b. split; [intros []|].
      intros (H1 & H2 & H3). apply run_elim in H2. lia. }
    subst l. cbn [finditer_loop].
    pose proof (search_spec s (ratleast (RChr p) m) pos) as Hs.
    destruct (search s (ratleast (RChr p) m) pos) as [[[a b] c]|] eqn:Es.
    - destruct Hs as (H1 & H2 & _ & Hleft).
      unfold search in Es. destruct (Nat.ltb_spec (List.length s) pos) as [|Hle]; [discriminate|].
      apply search_loop_some in Es as [_ Ea]. pose proof Ea as Ea'. apply match_atleast in Ea as (-> & H3 & H4 & H5); [|lia].
      assert (Hrun : run a b).
      { apply run_intro; [lia|exact H4| |exact H5]. destruct (Nat.eq_dec a 0) as [->|Hn]; [left; reflexivity|right]. intros x Hx.
        destruct (p x) eqn:Ep; [exfalso|reflexivity].
        destruct (Nat.eq_dec a pos) as [->|Hn2].
        - destruct Hpos as [->|Hpos]; [lia|]. apply (stops_all pos pos b Hpos H4). lia.
        - assert (Hm' : M s (ratleast (RChr p) m) (a - 1) [] b []).
          { assert (match_at s (ratleast (RChr p) m) (a - 1) <> None).
            { apply match_atleast_some; [lia|]. intros k Hk. destruct (Nat.eq_dec k (a - 1)) as [->|]; [eauto|apply H4; lia]. }
            destruct (match_at s (ratleast (RChr p) m) (a - 1)) as [[j d]|] eqn:E; [|congruence].
            pose proof E as E'. apply mtch_sound in E' as (j' & d' & HM & Hk). destruct (Hleft (a - 1) j' d' ltac:(lia) HM). }
          exact (Hleft (a - 1) b [] ltac:(lia) Hm'). }
      destruct (IH b ltac:(lia) (or_intror H5)) as [IH1 IH2].
      cbn [map fst]. split.
      + constructor; [exact IH1|]. apply Forall_forall. intros [a2 b2] Hin. apply IH2 in Hin as (H6 & H7 & _). cbn [fst snd].
        apply run_elim in H7 as (H8 & H9 & _). destruct (Nat.eq_dec b a2) as [<-|]; [exfalso; apply (stops_all b b b2 H5 H9); lia|lia].
      + intros a2 b2. simpl In. rewrite IH2. split.
        * intros [E|(H6 & H7 & H8)]; [injection E as <- <-; split; [lia|]; split; [exact Hrun|lia]|]. split; [lia|]. auto.
        * intros (H6 & H7 & H8). pose proof (run_elim _ _ H7) as (R1 & R2 & R3 & R4).
          destruct (Nat.lt_ge_cases a2 a) as [Hlt|Hge].
          { exfalso. assert (match_at s (ratleast (RChr p) m) a2 <> None) by (apply match_atleast_some; [lia|intros k Hk; apply R2; lia]).
            destruct (match_at s (ratleast (RChr p) m) a2) as [[j d]|] eqn:E; [|congruence].
            pose proof E as E'. apply mtch_sound in E' as (j' & d' & HM & Hk). destruct (Hleft a2 j' d' ltac:(lia) HM). }
          destruct (Nat.lt_ge_cases a2 b) as [Hlt|Hge2]; [left|right; split; [lia|]; auto].
          assert (a2 = a).
          { destruct (Nat.eq_dec a2 a) as [|Hn]; [assumption|exfalso]. destruct R3 as [->|R3]; [lia|]. apply (stops_all (a2 - 1) a b R3 H4). lia. }
          subst a2. f_equal. destruct (Nat.lt_trichotomy b b2) as [Hx|[Hx|Hx]]; [|exact Hx|]; exfalso.
          -- apply (stops_all b a b2 H5 R2). lia.
          -- apply (stops_all b2 a b R4 H4). lia.
    - cbn [map]. split; [constructor|]. intros a b. split; [intros []|]. intros (H1 & H2 & H3). exfalso.
      apply run_elim in H2 as (R1 & R2 & _). apply (Hs a (a + m) []); [lia|].
      econstructor; [apply M_rep; split; [reflexivity|]; split; [reflexivity|intros k Hk; apply R2; lia]|constructor].
  Qed.
End Class.

(** * the two ratios *)
Definition class_of (c : char) : cls := if is_digit c then Digit else if is_alpha c then Letter else Other.
(** how often an element differs from the one before it, the first one being compared with [x0] *)
Definition changes {A} (eqb : A -> A -> bool) (x0 : A) (l : list A) : nat :=
  List.length (filter (fun xy => negb (eqb (fst xy) (snd xy))) (combine (x0 :: l) l)).
Definition opt_eqb (a b : option N) : bool :=
  match a, b with Some x, Some y => N.eqb x y | None, None => true | _, _ => false end.
Definition class_switches (u : str) : nat := changes cls_eqb Letter (map class_of u).
Definition letters (u : str) : str := filter is_alpha u.
Definition letter_changes (u : str) : nat := changes opt_eqb None (map Some (letters u)).

Lemma changes_cons {A} (eqb : A -> A -> bool) x0 x l : changes eqb x0 (x :: l) = (if eqb x0 x then 0 else 1) + changes eqb x l.
Proof. unfold changes. cbn [combine filter fst snd]. destruct (eqb x0 x); reflexivity. Qed.
Lemma cls_eqb_sym a b : cls_eqb a b = cls_eqb b a.
Proof. destruct a, b; reflexivity. Qed.
Lemma id_fold u : forall st,
  let st' := fold_left id_step u st in
  i_switch st' = i_switch st + changes cls_eqb (i_last st) (map class_of u) /\
  i_letters st' = i_letters st + List.length (letters u) /\
  i_lswitch st' = i_lswitch st + changes opt_eqb (i_lastletter st) (map Some (letters u)).
Proof.
  induction u as [|c u IH]; intros st st'.
  - subst st'. cbn [fold_left map letters filter changes combine List.length]. unfold changes; simpl. lia.
  - subst st'. cbn [fold_left]. destruct (IH (id_step st c)) as (H1 & H2 & H3). rewrite H1, H2, H3. clear H1 H2 H3 IH.
    cbn [map]. rewrite changes_cons. unfold letters. cbn [filter]. unfold id_step, class_of.
    assert (Hd : is_digit c = true -> is_alpha c = false) by (unfold is_digit, is_alpha, is_upper, is_lower; lia).
    destruct (is_digit c) eqn:Ed.
    + rewrite (Hd eq_refl). cbn [i_switch i_letters i_lswitch i_lastletter i_last]. rewrite (cls_eqb_sym Digit). destruct (cls_eqb (i_last st) Digit); lia.
    + destruct (is_alpha c) eqn:Ea; cbn [i_switch i_letters i_lswitch i_lastletter i_last].
      * rewrite (cls_eqb_sym Letter). cbn [List.length map]. rewrite changes_cons. destruct (i_lastletter st) as [d|]; cbn [opt_eqb].
        -- destruct (cls_eqb (i_last st) Letter), (N.eqb d c); lia.
        -- destruct (cls_eqb (i_last st) Letter); lia.
      * rewrite (cls_eqb_sym Other). destruct (cls_eqb (i_last st) Other); lia.
Qed.
Lemma id_ok_spec u : id_ok u = true <->
  2 * List.length u < 5 * class_switches u /\ (letters u = [] \/ 2 * List.length (letters u) < 5 * letter_changes u).
Proof.
  unfold id_ok. destruct (id_fold u (mk_id 0 0 0 None Letter)) as (H1 & H2 & H3). cbn zeta in *.
  rewrite H1, H2, H3. cbn [i_switch i_letters i_lswitch i_lastletter i_last]. unfold class_switches, letter_changes.
  rewrite Bool.andb_true_iff, Nat.ltb_lt. destruct (letters u) as [|x l] eqn:E; cbn [List.length].
  - simpl. intuition.
  - change (0 <? 0 + S (List.length l)) with true. cbn iota. rewrite Nat.ltb_lt. split; intros [A B]; (split; [exact A|]); [right; lia|]. destruct B as [B|B]; [discriminate|lia].
Qed.
Lemma map_filter_fst s r : map fst (filter (fun m => let '(a, b, _) := m in id_ok (slice a b s)) r) =
  filter (fun sp : nat * nat => id_ok (slice (fst sp) (snd sp) s)) (map (@fst _ caps) r).
Proof. induction r as [|[[a b] c] r IH]; simpl; [reflexivity|]. destruct (id_ok (slice a b s)); simpl; rewrite IH; reflexivity. Qed.
Lemma sorted_filter {A} (R : A -> A -> Prop) f l : StronglySorted R l -> StronglySorted R (filter f l).
Proof.
  induction 1 as [|x l H IH Hx]; simpl; [constructor|]. destruct (f x); [|exact IH]. constructor; [exact IH|].
  rewrite Forall_forall in *. intros y Hy. apply filter_In in Hy as [Hy _]. apply Hx, Hy.
Qed.
