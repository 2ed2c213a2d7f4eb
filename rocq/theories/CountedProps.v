(** C114: repack, rerip and LAME with a number *)
From Verif Require Import Py PyFacts Text TextFacts WordsProofs Regex CrcProofs DateProofs RegexFacts RegexOuts Numeral NumeralProofs Date Rebulk RebulkFacts Episodes EpisodeRulesProps IntProps RuleSpec OtherProps Patterns PatternsProps Counted.
From Coq Require Import Arith Lia ZifyBool ZifyNat ZifyN.
Local Open Scope nat_scope.

(** [t] is made of digits, none perhaps *)
Definition some_digits (t : str) : Prop := forall c, In c t -> (48 <= c <= 57)%N.

(** * the star gives back what is needed *)
Lemma star_back {A} s p (k : nat -> caps -> option A) i c x : i <= List.length s -> mtch s (RStar (RChr p)) i c k = Some x ->
  exists j, i <= j <= List.length s /\ all_in s p i j /\ k j c = Some x /\ forall j', j < j' -> all_in s p i j' -> k j' c = None.
Proof.
  cbn [mtch]. remember (List.length s - i) as n eqn:En. revert i En.
  induction n as [|n IH]; intros i En Hi H.
  - exists i. split; [lia|]. split; [intros l Hl; lia|]. split; [exact H|]. intros j' L D. destruct (D i ltac:(lia)) as (y & Hy & _). apply nth_error_lt in Hy. lia.
  - destruct (nth_error s i) as [y|] eqn:E; [|apply nth_error_None in E; lia].
    destruct (p y) eqn:Ep.
    + destruct (Nat.leb_spec (S i) i); [lia|].
      match type of H with context [match ?e with _ => _ end] => destruct e as [z|] eqn:Ez end.
      * injection H as ->. apply IH in Ez as (j & H1 & H2 & H3 & H4); [|lia|lia]. exists j. split; [lia|]. split; [|split; [exact H3|]].
        -- intros l Hl. destruct (Nat.eq_dec l i) as [->|]; [eauto|apply H2; lia].
        -- intros j' L D. apply H4; [exact L|]. intros l Hl. apply D. lia.
      * exists i. split; [lia|]. split; [intros l Hl; lia|]. split; [exact H|]. clear H. intros j' L D.
        assert (No : forall m q, m = List.length s - q -> i < q <= List.length s ->
          (fix star (fuel : nat) (i : nat) (c : caps) {struct fuel} : option A :=
             match fuel with
             | O => k i c
             | S f => match (match nth_error s i with Some x => if p x then (if S i <=? i then None else star f (S i) c) else None | None => None end) with Some x => Some x | None => k i c end
             end) m q c = None -> forall j', q <= j' -> all_in s p i j' -> k j' c = None).
        { clear - i. induction m as [|m IH]; intros q Em Hq H j' L D.
          - assert (j' = q). { destruct (Nat.eq_dec j' q); [assumption|]. destruct (D q ltac:(lia)) as (y & Hy & _). apply nth_error_lt in Hy. lia. } subst. exact H.
          - destruct (nth_error s q) as [y|] eqn:E; [|apply nth_error_None in E; lia]. destruct (p y) eqn:Ep.
            + destruct (Nat.leb_spec (S q) q); [lia|].
              match type of H with context [match ?e with Some _ => _ | None => _ end] => destruct e as [z|] eqn:Ez end; [discriminate|].
              destruct (Nat.eq_dec j' q) as [->|]; [exact H|]. apply (IH (S q) ltac:(lia) ltac:(lia) Ez j' ltac:(lia) D).
            + destruct (Nat.eq_dec j' q) as [->|]; [exact H|]. exfalso. destruct (D q ltac:(lia)) as (z & Hz & Pz). congruence. }
        apply (No n (S i) ltac:(lia)); [apply nth_error_lt in E; lia|exact Ez|lia|exact D].
    + exists i. split; [lia|]. split; [intros l Hl; lia|]. split; [exact H|]. intros j' L D. destruct (D i ltac:(lia)) as (z & Hz & Pz). congruence.
Qed.
Lemma plus_back {A} s p (k : nat -> caps -> option A) i c x : mtch s (ratleast (RChr p) 1) i c k = Some x ->
  exists j, i < j <= List.length s /\ all_in s p i j /\ k j c = Some x /\ forall j', j < j' -> all_in s p i j' -> k j' c = None.
Proof.
  intros H. unfold ratleast in H. cbn [mtch] in H. apply mtch_rep in H as [H1 H2].
  assert (Hl : i + 1 <= List.length s) by (destruct (H1 i ltac:(lia)) as (y & E & _); apply nth_error_lt in E; lia).
  apply (star_back s p k (i + 1) c x Hl) in H2 as (j & H3 & H4 & H5 & H6). exists j. split; [lia|]. split; [|split; [exact H5|]].
  - intros l Hl'. destruct (Nat.eq_dec l i) as [->|]; [apply H1; lia|apply H4; lia].
  - intros j' L D. apply H6; [exact L|]. intros l Hl'. apply D. lia.
Qed.
Lemma M_digits s i c j d : M s (RStar digit) i c j d <-> d = c /\ i <= j /\ all_in s is_digit i j.
Proof.
  split.
  - intros H. remember (RStar digit) as r eqn:Er. induction H; try discriminate.
    + split; [reflexivity|]. split; [lia|]. intros l Hl. lia.
    + injection Er as ->. apply M_chr_iff in H0 as (-> & -> & y & E & Hy). specialize (IHM2 eq_refl). destruct IHM2 as (-> & L & D). split; [reflexivity|]. split; [lia|].
      intros l Hl. destruct (Nat.eq_dec l i) as [->|]; [eauto|apply D; lia].
  - intros (-> & L & D). replace j with (i + (j - i)) in * by lia. apply M_star_intro. exact D.
Qed.
Lemma lower_letters w t : (forall c, In c w -> is_lower c = true) -> lower t = w -> forall c, In c t -> is_alpha c = true.
Proof.
  intros L E c I. apply (in_map to_lower) in I. change (map to_lower t) with (lower t) in I. rewrite E in I. specialize (L _ I).
  unfold is_alpha. unfold to_lower in L. destruct (is_upper c) eqn:U; [reflexivity|]. rewrite L. reflexivity.
Qed.
Lemma some_digits_iff s a b : a <= b <= List.length s -> all_in s is_digit a b <-> some_digits (slice a b s).
Proof.
  intros L. rewrite all_in_forall by exact L. unfold some_digits, is_digit. split; intros H c I; specialize (H c I); lia.
Qed.

(** * repack and rerip *)
Section Word.
  Context (s : str) (w : str) (Hw : w <> []) (Hl : forall c, In c w -> is_lower c = true).
  Lemma repack_M a c b d : a <= List.length s -> M s (rx_re (repack_rx w)) a c b d <->
    exists x, d = (1, (x, b)) :: c /\ x = a + List.length w /\ x <= b <= List.length s /\ lower (slice a x s) = w /\ all_in s is_digit x b.
  Proof.
    intros La. cbn [rx_re repack_rx]. split.
    - intros H. apply M_seq_inv in H as (j & e & H1 & H). apply M_rlit in H1 as (-> & -> & L & E); [|exact La]. apply M_grp_inv in H as (e & -> & H).
      apply M_digits in H as (-> & H2 & H3). exists (a + List.length w). repeat split; try assumption; try reflexivity.
      destruct (Nat.eq_dec b (a + List.length w)) as [->|]; [exact L|]. exact (all_in_len s is_digit (a + List.length w) b ltac:(lia) H3).
    - intros (x & -> & -> & L & E & D). apply (M_seq _ _ _ a c (a + List.length w) c); [apply M_rlit; [exact La|]; split; [reflexivity|]; split; [reflexivity|]; split; [lia|exact E]|].
      constructor. apply M_digits. split; [reflexivity|]. split; [lia|exact D].
  Qed.
  Lemma repack_consumes : consumes s (rx_re (repack_rx w)).
  Proof.
    intros i c j d H. destruct (Nat.le_gt_cases i (List.length s)) as [L|L].
    - apply repack_M in H as (x & _ & -> & Hb & _); [|exact L]. destruct w; [congruence|cbn [List.length] in Hb; lia].
    - cbn [rx_re repack_rx] in H. destruct w as [|y w'] eqn:Ew; [congruence|]. cbn [rlit] in H. apply M_seq_inv in H as (j1 & e & H1 & _). apply M_seq_inv in H1 as (j2 & e2 & H1 & _).
      apply M_chr_inv in H1 as (_ & _ & z & Ez & _). apply nth_error_lt in Ez. lia.
  Qed.
  (** no separator inside *)
  Lemma repack_inside a x b k c : x = a + List.length w -> x <= b <= List.length s -> lower (slice a x s) = w -> all_in s is_digit x b -> a <= k < b -> nth_error s k = Some c -> ~ In c seps.
  Proof.
    intros -> Lb E D Hk Ec Is. destruct (Nat.lt_ge_cases k (a + List.length w)) as [K|K].
    - pose proof (nth_in_slice s a (a + List.length w) k c ltac:(lia) Ec) as I. pose proof (lower_letters w _ Hl E c I) as A. rewrite (sep_noalpha c Is) in A. discriminate.
    - destruct (D k ltac:(lia)) as (z & Ez & Dz). rewrite Ec in Ez. injection Ez as <-. rewrite (sep_nodigit c Is) in Dz. discriminate.
  Qed.
  Lemma repack_found a x b : alone s a b -> x = a + List.length w -> x <= b <= List.length s -> lower (slice a x s) = w -> all_in s is_digit x b ->
    In (a, b, [(1, (x, b))]) (finditer s (rx_re (repack_rx w))).
  Proof.
    intros [A B] Ex Lb E D. assert (La : a <= List.length s) by lia.
    destruct (finditer_complete s _ repack_consumes a b [(1, (x, b))] La) as (b' & c' & Hf).
    - apply repack_M; [exact La|]. exists x. auto.
    - intros a' b' c' L H. apply repack_M in H as (x' & _ & Ex' & Lb' & E' & D'); [|lia]. destruct (Nat.le_gt_cases b' a) as [|G]; [assumption|exfalso].
      destruct (nth_error s (a - 1)) as [z|] eqn:Ez; [|apply nth_error_None in Ez; lia].
      exact (repack_inside a' x' b' (a - 1) z Ex' Lb' E' D' ltac:(lia) Ez (A z ltac:(lia) eq_refl)).
    - pose proof Hf as Hf'. apply finditer_sound in Hf' as (_ & Hat & HM); [|apply repack_consumes]. apply repack_M in HM as (x' & -> & Ex' & Lb' & E' & D'); [|exact La].
      assert (X : x' = x) by lia. clear Ex'. subst x'. assert (Eb : b' = b).
      { apply Nat.le_antisymm.
        - destruct (Nat.le_gt_cases b' b) as [|G]; [assumption|exfalso]. destruct (nth_error s b) as [z|] eqn:Ez; [|apply nth_error_None in Ez; lia].
          exact (repack_inside a x b' b z Ex Lb' E' D' ltac:(lia) Ez (B z eq_refl)).
        - unfold match_at in Hat. cbn [rx_re repack_rx] in Hat. apply mtch_seq in Hat as (j1 & e1 & H1 & Hat). apply M_rlit in H1 as (-> & -> & _ & _); [|exact La].
          cbn [mtch] in Hat. change (mtch s (RStar digit) (a + List.length w) [] (fun j c' => Some (j, (1, (a + List.length w, j)) :: c')) = Some (b', [(1, (x, b'))])) in Hat.
          apply star_max in Hat as (q & Q1 & Q2 & Q3 & Q4); [|discriminate|lia]. injection Q4 as -> _. destruct (Nat.le_gt_cases b b') as [|G]; [assumption|exfalso].
          destruct (D b' ltac:(lia)) as (z & Ez & Dz). rewrite (Q3 z Ez) in Dz. discriminate. }
      subst b'. exact Hf.
  Qed.
End Word.
(** the match of a word and its number, with the number as a child *)
Definition counted_proper (a x b : nat) (t : str) : mt :=
  mk_mt a b (lit "other") (MvStr (lit "Proper")) [lit "streaming_service.prefix"; lit "streaming_service.suffix"] false a b None [mk_c x b (lit "proper_count") (MvStr t)].
Lemma repack_exact s w m : w <> [] -> (forall c, In c w -> is_lower c = true) ->
  In m (rx_matches (repack_rx w) s) <->
  exists a b word t, alone s a b /\ reads s a b (word ++ t) /\ lower word = w /\ some_digits t /\ m = counted_proper a (a + List.length word) b t.
Proof.
  intros Hw Hl. rewrite rx_In. split.
  - intros (a & b & c & Hf & Hm). apply finditer_sound in Hf as (L & _ & HM); [|apply repack_consumes; assumption]. apply repack_M in HM as (x & -> & Ex & Lb & E & D); [|lia].
    apply (one_parent (repack_rx w) s a b _ m eq_refl eq_refl) in Hm as [V ->]. apply seps_alone in V. exists a, b, (slice a x s), (slice x b s).
    assert (Lx : List.length (slice a x s) = List.length w) by (rewrite slice_len by lia; lia).
    split; [exact V|]. split; [split; [lia|]; apply slice_app; lia|]. split; [exact E|]. split; [apply some_digits_iff; [lia|exact D]|]. rewrite Lx, <- Ex. reflexivity.
  - intros (a & b & word & t & Al & R & E & T & ->). assert (Lw : List.length word = List.length w) by (rewrite <- E; unfold lower; rewrite map_length; reflexivity).
    apply reads_app in R as (x & [L1 R1] & [L2 R2]). assert (Ex : x = a + List.length w) by (pose proof (slice_len s a x L1) as Q; rewrite R1 in Q; lia).
    assert (D : all_in s is_digit x b) by (apply some_digits_iff; [lia|rewrite R2; exact T]).
    exists a, b, [(1, (x, b))]. split; [apply repack_found; [exact Hw|exact Hl|exact Al|exact Ex|lia|rewrite R1; exact E|exact D]|].
    apply (one_parent (repack_rx w) s a b _ _ eq_refl eq_refl). split; [apply seps_alone; exact Al|]. rewrite Lw, <- Ex, <- R2. reflexivity.
Qed.
(** C114: repack and rerip, in any case and with or without a number, between separators: they are a Proper, and the number is its child. *)
Theorem C114_repack s m : In m (repack_matches s) <->
  exists a b word t, alone s a b /\ reads s a b (word ++ t) /\ (lower word = lit "repack" \/ lower word = lit "rerip") /\ some_digits t /\ m = counted_proper a (a + List.length word) b t.
Proof.
  assert (H1 : forall c, In c (lit "repack") -> is_lower c = true) by (apply forallb_forall; reflexivity).
  assert (H2 : forall c, In c (lit "rerip") -> is_lower c = true) by (apply forallb_forall; reflexivity).
  unfold repack_matches. rewrite in_app_iff, (repack_exact s (lit "repack") m ltac:(discriminate) H1), (repack_exact s (lit "rerip") m ltac:(discriminate) H2). split.
  - intros [(a & b & w & t & A & R & E & T & ->)|(a & b & w & t & A & R & E & T & ->)]; exists a, b, w, t; auto 10.
  - intros (a & b & w & t & A & R & [E|E] & T & ->); [left|right]; exists a, b, w, t; auto.
Qed.
Print Assumptions C114_repack.

(** C114: such a Proper counts for its number, or for one without a number (with C39_count, the count of the name). *)
Theorem C114_counts s a b word t n : reads s a b (word ++ t) -> counts_for s (counted_proper a (a + List.length word) b t) n <-> (t = [] /\ n = 1%Z \/ t <> [] /\ n = decimal t).
Proof.
  intros R. apply reads_app in R as (x & Rw & Rt). pose proof (reads_len _ _ _ _ Rw) as [Lx _]. subst x. destruct Rt as [Lt Et].
  assert (C : forall u, captured s (counted_proper a (a + List.length word) b t) "proper_count" u <-> u = t).
  { intros u. unfold captured. cbn [counted_proper m_children]. split.
    - intros (c & [<-|[]] & _ & E). cbn [c_start c_end] in E. congruence.
    - intros ->. exists (mk_c (a + List.length word) b (lit "proper_count") (MvStr t)). split; [left; reflexivity|]. split; [reflexivity|symmetry; exact Et]. }
  assert (Nr : ~ In (lit "real") (m_tags (counted_proper a (a + List.length word) b t))) by (intros [E|[E|[]]]; discriminate E).
  unfold counts_for. split.
  - intros [H1 H2]. destruct t as [|c t]; [left; split; [reflexivity|]; apply H2; [right; apply C; reflexivity|exact Nr]|right; split; [discriminate|]; apply H1; [apply C; reflexivity|discriminate]].
  - intros [[-> ->]|[Nt ->]]; split.
    + intros u Hu Nu. apply C in Hu. contradiction.
    + intros _. split; [intros I; contradiction|reflexivity].
    + intros u Hu _. apply C in Hu. subst u. reflexivity.
    + intros [Hu|Hu]; [exfalso; apply (Hu (mk_c (a + List.length word) b (lit "proper_count") (MvStr t))); [left; reflexivity|reflexivity]|]. apply C in Hu. congruence.
Qed.
Print Assumptions C114_counts.

(** * LAME *)
(** what is written from [a] to [b]: the word, then two numbers with one separator, or one number of two digits or more that no separator and digit follow *)
Inductive lame_version (s : str) (a b : nat) : Prop :=
| two_numbers word t c u : reads s a b (word ++ t ++ c :: u) -> lower word = lit "lame" -> number t -> In c seps -> c <> 47%N -> c <> 92%N -> number u -> no_digit_after s b -> lame_version s a b
| one_number word t : reads s a b (word ++ t) -> lower word = lit "lame" -> number t -> 2 <= List.length t -> no_digit_after s b ->
    (forall c d, nth_error s b = Some c -> In c seps -> c <> 47%N -> c <> 92%N -> nth_error s (S b) = Some d -> ~ (48 <= d <= 57)%N) -> lame_version s a b.
Section Lame.
  Context (s : str).
  Let rest := RSeq digits1 (RSeq dash_opt digits1).
  Let fin := fun (j : nat) (c : caps) => Some (j, c).
  Lemma lame_M a c b d : a <= List.length s -> M s (rx_re lame_rx) a c b d <->
    d = c /\ lower (slice a (a + 4) s) = lit "lame" /\ exists x y, a + 4 < x /\ all_in s is_digit (a + 4) x /\ joined s x y /\ y < b <= List.length s /\ all_in s is_digit y b.
  Proof.
    intros La. cbn [rx_re lame_rx]. split.
    - intros H. apply M_seq_inv in H as (j & e & H1 & H). apply M_rlit in H1 as (-> & -> & L & E); [|exact La]. change (a + List.length (lit "lame")) with (a + 4) in *.
      apply M_seq_inv in H as (x & e & H1 & H). apply M_plus in H1 as (-> & L1 & D1). apply M_seq_inv in H as (y & e & H2 & H3). apply M_dash_opt in H2 as [-> H2]. apply M_plus in H3 as (-> & L3 & D3).
      split; [reflexivity|]. split; [exact E|]. exists x, y. split; [exact L1|]. split; [exact D1|]. split; [exact H2|]. split; [|exact D3]. split; [exact L3|]. exact (all_in_len s is_digit y b L3 D3).
    - intros (-> & E & x & y & L1 & D1 & J & L3 & D3).
      assert (Lx : x <= List.length s) by (exact (all_in_len s is_digit (a + 4) x L1 D1)).
      apply (M_seq _ _ _ a c (a + 4) c); [apply M_rlit; [exact La|]; split; [reflexivity|]; split; [reflexivity|]; split; [change (List.length (lit "lame")) with 4; lia|exact E]|].
      apply (M_seq _ _ _ _ c x c); [apply M_plus; auto|]. apply (M_seq _ _ _ _ c y c); [apply M_dash_opt; split; [reflexivity|exact J]|]. apply M_plus. split; [reflexivity|]. split; [lia|exact D3].
  Qed.
  Lemma lame_consumes : consumes s (rx_re lame_rx).
  Proof.
    intros i c j d H. destruct (Nat.le_gt_cases i (List.length s)) as [L|L].
    - apply lame_M in H as (_ & _ & x & y & L1 & _ & J & L2 & _); [|exact L]. destruct J as [-> |(-> & _)]; lia.
    - cbn [rx_re lame_rx] in H. apply M_seq_inv in H as (j1 & e & H1 & _). change (lit "lame") with (108%N :: lit "ame") in H1. cbn [rlit] in H1. apply M_seq_inv in H1 as (j2 & e2 & H1 & _).
      apply M_chr_inv in H1 as (_ & _ & z & Ez & _). apply nth_error_lt in Ez. lia.
  Qed.
  Lemma lame_char a k : lower (slice a (a + 4) s) = lit "lame" -> k < 4 -> exists y, nth_error s (a + k) = Some y /\ nth_error (lit "lame") k = Some (to_lower y).
  Proof.
    intros E K. pose proof (f_equal (fun l => nth_error l k) E) as Q. cbv beta in Q. unfold lower in Q. rewrite nth_error_map, slice_nth in Q. destruct (Nat.ltb_spec k (a + 4 - a)); [|lia].
    destruct (nth_error s (a + k)) as [y|] eqn:Ey; [exists y; split; [reflexivity|]; rewrite <- Q; reflexivity|]. exfalso. cbn [option_map] in Q.
    do 4 (destruct k as [|k]; [discriminate Q|]). lia.
  Qed.
  Lemma lame_iso a a' b' c' : lower (slice a (a + 4) s) = lit "lame" -> a' < a -> M s (rx_re lame_rx) a' [] b' c' -> a <= List.length s -> b' <= a.
  Proof.
    intros E L H La. apply lame_M in H as (_ & E' & x & y & L1 & D1 & J & L2 & D2); [|lia]. destruct (Nat.le_gt_cases b' a) as [|G]; [assumption|exfalso].
    destruct (lame_char a 0 E ltac:(lia)) as (z & Ez & Kz). rewrite Nat.add_0_r in Ez. injection Kz as Kz.
    assert (Az : is_alpha z = true) by (unfold is_alpha, is_upper, is_lower; unfold to_lower, is_upper in Kz; destruct ((65 <=? z) && (z <=? 90))%N eqn:U; [reflexivity|]; lia).
    assert (Dz : is_digit z = false) by (unfold is_alpha, is_upper, is_lower, is_digit in *; lia).
    destruct (Nat.lt_ge_cases a (a' + 4)) as [K|K].
    - destruct (lame_char a' (a - a') E' ltac:(lia)) as (v & Ev & Kv). replace (a' + (a - a')) with a in Ev by lia. rewrite Ez in Ev. injection Ev as <-. rewrite <- Kz in Kv.
      assert (Cs : a - a' = 1 \/ a - a' = 2 \/ a - a' = 3) by lia. destruct Cs as [C|[C|C]]; rewrite C in Kv; discriminate Kv.
    - destruct (Nat.lt_ge_cases a x) as [K2|K2]; [destruct (D1 a ltac:(lia)) as (v & Ev & Dv); congruence|].
      destruct (Nat.lt_ge_cases a y) as [K3|K3]; [|destruct (D2 a ltac:(lia)) as (v & Ev & Dv); congruence].
      destruct J as [J|(J & v & Ev & Sv)]; [lia|]. assert (a = x) by lia. subst x. apply no_fs_iff in Sv as [Sv _]. rewrite Ez in Ev. injection Ev as <-. rewrite (sep_noalpha z Sv) in Az. discriminate.
  Qed.
  (** what follows the first number *)
  Lemma tail_some x c b : (exists y, joined s x y /\ y < b <= List.length s /\ all_in s is_digit y b) -> mtch s (RSeq dash_opt digits1) x c fin <> None.
  Proof.
    intros (y & J & L & D) N. assert (HM : M s (RSeq dash_opt digits1) x c b c).
    { apply (M_seq _ _ _ _ c y c); [apply M_dash_opt; split; [reflexivity|exact J]|]. apply M_plus. split; [reflexivity|]. split; [lia|exact D]. }
    assert (Lx : x <= List.length s) by (destruct J as [-> |(-> & _)]; lia). destruct (mtch_complete s _ x c b c HM Lx fin (b, c) eq_refl) as [z Hz]. congruence.
  Qed.
  Lemma lame_at a b c : a <= List.length s -> match_at s (rx_re lame_rx) a = Some (b, c) -> lame_version s a b.
  Proof.
    intros La H. pose proof (match_at_M s _ _ _ _ H) as HM. unfold match_at in H. cbn [rx_re lame_rx] in H. apply mtch_seq in H as (j & e & H1 & H). apply M_rlit in H1 as (-> & -> & L4 & E); [|exact La].
    change (a + List.length (lit "lame")) with (a + 4) in *. cbn [mtch] in H.
    change (mtch s (ratleast (RChr is_digit) 1) (a + 4) [] (fun j c => mtch s (RSeq dash_opt digits1) j c fin) = Some (b, c)) in H.
    apply plus_back in H as (x & Lx & Dx & Kx & Back).
    assert (Kx' := Kx). apply mtch_seq in Kx' as (y & e & H2 & H3). apply M_dash_opt in H2 as [-> H2].
    apply plus_max in H3 as (q & Lq & Dq & Sq & Eq); [|discriminate]. unfold fin in Eq. injection Eq as <- _.
    assert (Nd : no_digit_after s q) by (intros z Ez Dz; specialize (Sq z Ez); unfold is_digit in Sq; lia).
    assert (Rw : reads s a (a + 4) (slice a (a + 4) s)) by (split; [lia|reflexivity]).
    assert (Num : forall i j, i < j <= List.length s -> all_in s is_digit i j -> reads s i j (slice i j s) /\ number (slice i j s)) by (intros i j Lij Dij; split; [split; [lia|reflexivity]|apply digits_iff; [lia|lia|exact Dij]]).
    destruct H2 as [-> |(-> & v & Ev & Sv)].
    - (** one run of digits *)
      assert (D : all_in s is_digit (a + 4) q) by (intros l Hl; destruct (Nat.lt_ge_cases l x); [apply Dx; lia|apply Dq; lia]).
      destruct (Num (a + 4) q ltac:(lia) D) as [R N].
      apply (one_number s a q (slice a (a + 4) s) (slice (a + 4) q s)); [apply reads_app; exists (a + 4); auto|exact E|exact N|rewrite slice_len by lia; lia|exact Nd|].
      intros z d Ez Iz Z1 Z2 Ed Hd. apply (tail_some q [] (S (S q))); [|exact (Back q ltac:(lia) D)]. exists (S q). pose proof (nth_error_lt _ _ _ Ed).
      split; [right; split; [reflexivity|]; exists z; split; [exact Ez|apply no_fs_iff; auto]|]. split; [lia|]. intros l Hl. assert (l = S q) by lia. subst l. exists d. split; [exact Ed|unfold is_digit; lia].
    - apply no_fs_iff in Sv as (S1 & S2 & S3). destruct (Num (a + 4) x ltac:(lia) Dx) as [R1 N1]. destruct (Num (S x) q ltac:(lia) Dq) as [R2 N2].
      apply (two_numbers s a q (slice a (a + 4) s) (slice (a + 4) x s) v (slice (S x) q s)); try assumption.
      apply reads_app. exists (a + 4). split; [exact Rw|]. apply reads_app. exists x. split; [exact R1|]. apply reads_cons. auto.
  Qed.
  Lemma lame_version_M a b : lame_version s a b -> a <= List.length s /\ lower (slice a (a + 4) s) = lit "lame" /\ M s (rx_re lame_rx) a [] b [].
  Proof.
    assert (W : forall word, lower word = lit "lame" -> List.length word = 4) by (intros word E; rewrite <- (map_length to_lower word); change (map to_lower word) with (lower word); rewrite E; reflexivity).
    intros [word t c u R E Nt Ic C1 C2 Nu Nd|word t R E Nt L2 Nd No].
    - apply reads_app in R as (k & R1 & R). pose proof (reads_len s a k word R1) as [Lk _]. rewrite (W word E) in Lk. subst k. apply reads_app in R as (x & Rt & R). apply reads_cons in R as [Ec Ru].
      pose proof (reads_number s _ _ _ Rt Nt) as [Lx Dx]. pose proof (reads_number s _ _ _ Ru Nu) as [Ly Dy]. destruct R1 as [La R1]. destruct Ru as [Lu _].
      split; [lia|]. split; [rewrite R1; exact E|]. apply lame_M; [lia|]. split; [reflexivity|]. split; [rewrite R1; exact E|]. exists x, (S x). split; [exact Lx|]. split; [exact Dx|].
      split; [right; split; [reflexivity|]; exists c; split; [exact Ec|apply no_fs_iff; auto]|]. split; [lia|exact Dy].
    - apply reads_app in R as (k & R1 & R). pose proof (reads_len s a k word R1) as [Lk _]. rewrite (W word E) in Lk. subst k. pose proof (reads_number s _ _ _ R Nt) as [Lx Dx].
      pose proof (reads_len s _ _ _ R) as [Lb Lb']. destruct R1 as [La R1]. split; [lia|]. split; [rewrite R1; exact E|]. apply lame_M; [lia|]. split; [reflexivity|]. split; [rewrite R1; exact E|].
      exists (b - 1), (b - 1). split; [lia|]. split; [intros l Hl; apply Dx; lia|]. split; [left; reflexivity|]. split; [lia|]. intros l Hl. apply Dx. lia.
  Qed.
  Lemma run_end i j j' : all_in s is_digit i j -> no_digit_after s j -> all_in s is_digit i j' -> no_digit_after s j' -> i <= j -> i <= j' -> j = j'.
  Proof.
    intros D N D' N' L L'. apply (runs_agree s is_digit i j j' D); [|exact D'| |exact L|exact L'].
    - intros z Ez. destruct (is_digit z) eqn:Dz; [|reflexivity]. destruct (N z Ez). unfold is_digit in Dz. lia.
    - intros z Ez. destruct (is_digit z) eqn:Dz; [|reflexivity]. destruct (N' z Ez). unfold is_digit in Dz. lia.
  Qed.
  Lemma lame_version_one a b b' : lame_version s a b -> lame_version s a b' -> b = b'.
  Proof.
    assert (W : forall word, lower word = lit "lame" -> List.length word = 4) by (intros word E; rewrite <- (map_length to_lower word); change (map to_lower word) with (lower word); rewrite E; reflexivity).
    assert (Two : forall word t c u e, reads s a e (word ++ t ++ c :: u) -> lower word = lit "lame" -> number t -> number u -> exists x, a + 4 < x /\ all_in s is_digit (a + 4) x /\ nth_error s x = Some c /\ S x < e /\ all_in s is_digit (S x) e).
    { intros word t c u e R E Nt Nu. apply reads_app in R as (k & R1 & R). pose proof (reads_len s a k word R1) as [Lk _]. rewrite (W word E) in Lk. subst k. apply reads_app in R as (x & Rt & R). apply reads_cons in R as [Ec Ru].
      pose proof (reads_number s _ _ _ Rt Nt) as [Lx Dx]. pose proof (reads_number s _ _ _ Ru Nu) as [Ly Dy]. exists x. auto. }
    assert (One : forall word t e, reads s a e (word ++ t) -> lower word = lit "lame" -> number t -> a + 4 < e /\ all_in s is_digit (a + 4) e).
    { intros word t e R E Nt. apply reads_app in R as (k & R1 & R). pose proof (reads_len s a k word R1) as [Lk _]. rewrite (W word E) in Lk. subst k. exact (reads_number s _ _ _ R Nt). }
    assert (Sep : forall x c, nth_error s x = Some c -> In c seps -> no_digit_after s x).
    { intros x c Ec Ic z Ez Dz. rewrite Ec in Ez. injection Ez as <-. pose proof (sep_nodigit c Ic) as Q. unfold is_digit in Q. lia. }
    intros [word t c u R E Nt Ic C1 C2 Nu Nd|word t R E Nt L2 Nd No] [word' t' c' u' R' E' Nt' Ic' C1' C2' Nu' Nd'|word' t' R' E' Nt' L2' Nd' No'].
    - destruct (Two _ _ _ _ _ R E Nt Nu) as (x & X1 & X2 & X3 & X4 & X5). destruct (Two _ _ _ _ _ R' E' Nt' Nu') as (y & Y1 & Y2 & Y3 & Y4 & Y5).
      pose proof (run_end _ _ _ X2 (Sep _ _ X3 Ic) Y2 (Sep _ _ Y3 Ic') ltac:(lia) ltac:(lia)) as Q. subst y. exact (run_end _ _ _ X5 Nd Y5 Nd' ltac:(lia) ltac:(lia)).
    - exfalso. destruct (Two _ _ _ _ _ R E Nt Nu) as (x & X1 & X2 & X3 & X4 & X5). destruct (One _ _ _ R' E' Nt') as [Y1 Y2].
      pose proof (run_end _ _ _ X2 (Sep _ _ X3 Ic) Y2 Nd' ltac:(lia) ltac:(lia)) as Q. subst b'. destruct (X5 (S x) ltac:(lia)) as (d & Ed & Dd). apply (No' c d X3 Ic C1 C2 Ed). unfold is_digit in Dd. lia.
    - exfalso. destruct (Two _ _ _ _ _ R' E' Nt' Nu') as (x & X1 & X2 & X3 & X4 & X5). destruct (One _ _ _ R E Nt) as [Y1 Y2].
      pose proof (run_end _ _ _ X2 (Sep _ _ X3 Ic') Y2 Nd ltac:(lia) ltac:(lia)) as Q. subst b. destruct (X5 (S x) ltac:(lia)) as (d & Ed & Dd). apply (No c' d X3 Ic' C1' C2' Ed). unfold is_digit in Dd. lia.
    - destruct (One _ _ _ R E Nt) as [X1 X2]. destruct (One _ _ _ R' E' Nt') as [Y1 Y2]. exact (run_end _ _ _ X2 Nd Y2 Nd' ltac:(lia) ltac:(lia)).
  Qed.
End Lame.
(** C114: LAME and its version, wherever it is: the codec MP3. *)
Theorem C114_lame s m : In m (rx_matches lame_rx s) <-> exists a b, lame_version s a b /\ m = simple a b (lit "audio_codec") (MvStr (lit "MP3")) [].
Proof.
  rewrite rx_In. split.
  - intros (a & b & c & Hf & Hm). apply finditer_sound in Hf as (L & Hat & _); [|apply lame_consumes]. apply (one_parent lame_rx s a b c m eq_refl eq_refl) in Hm as [_ ->]. exists a, b.
    split; [apply (lame_at s a b c ltac:(lia) Hat)|reflexivity].
  - intros (a & b & V & ->). destruct (lame_version_M s a b V) as (La & E & HM).
    destruct (finditer_complete s _ (lame_consumes s) a b [] La HM) as (b' & c' & Hf); [intros a' b' c' L H; exact (lame_iso s a a' b' c' E L H La)|].
    pose proof Hf as Hf'. apply finditer_sound in Hf' as (L & Hat & _); [|apply lame_consumes]. rewrite (lame_version_one s a b b' V (lame_at s a b' c' ltac:(lia) Hat)) in *.
    exists a, b', c'. split; [exact Hf|]. apply (one_parent lame_rx s a b' c' _ eq_refl eq_refl). split; reflexivity.
Qed.
Print Assumptions C114_lame.

(** * concrete cases *)
Example C114_repack_ex : exists a b word t, alone (lit "Show.REPACK2.x") a b /\ reads (lit "Show.REPACK2.x") a b (word ++ t) /\ lower word = lit "repack" /\ some_digits t /\ t <> [].
Proof.
  exists 5, 12, (lit "REPACK"), (lit "2"). split; [split; [intros c _ H|intros c H]; injection H as <-; vm_compute; tauto|]. split; [split; [vm_compute; lia|reflexivity]|]. split; [reflexivity|].
  split; [|discriminate]. intros c [<-|[]]. vm_compute. split; discriminate.
Qed.
Example C114_lame_ex : lame_version (lit "a.LAME3-90.flac") 2 10.
Proof.
  assert (D : forall t, t <> [] -> forallb is_digit t = true -> number t) by (intros t N H; split; [exact N|]; intros c I; rewrite forallb_forall in H; specialize (H c I); unfold is_digit in H; lia).
  apply (two_numbers _ _ _ (lit "LAME") (lit "3") 45%N (lit "90")); try reflexivity; try discriminate; try (apply D; [discriminate|reflexivity]).
  - split; [vm_compute; lia|reflexivity].
  - vm_compute. tauto.
  - intros c H. injection H as <-. lia.
Qed.
