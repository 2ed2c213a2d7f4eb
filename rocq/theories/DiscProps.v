(** C89: discs (cd1, cd 1 of 2, 2 cds). *)
From Verif Require Import Py PyFacts Text TextFacts WordsProofs Regex CrcProofs DateProofs RegexFacts Numeral NumeralProofs Date Quantity Rebulk RebulkFacts Episodes EpisodeRulesProps IntProps Patterns PatternsProps Chain ChainProofs EpisodeChains SxxProps.
From Coq Require Import Arith ZifyBool ZifyNat ZifyN.
Local Open Scope nat_scope.

(** ** a match that no earlier one crosses *)
Lemma finditer_exact s r a b c : consumes s r -> a <= List.length s -> (forall a' b' c', a' < a -> M s r a' [] b' c' -> b' <= a) ->
  In (a, b, c) (finditer s r) <-> match_at s r a = Some (b, c).
Proof.
  intros Hc La Hi. split; [intros H; apply finditer_sound in H; tauto|]. intros E. destruct (finditer_complete s r Hc a b c La (match_at_M s r a b c E) Hi) as (b' & c' & Hf).
  pose proof Hf as Hf'. apply finditer_sound in Hf' as (_ & E' & _); [|exact Hc]. rewrite E in E'. injection E' as <- <-. exact Hf.
Qed.
Lemma mtch_none {A} s r i c (k : nat -> caps -> option A) : i <= List.length s -> (forall j d, k j d <> None) -> mtch s r i c k = None -> forall j d, ~ M s r i c j d.
Proof. intros L Hk E j d H. destruct (k j d) as [y|] eqn:Ey; [|exact (Hk j d Ey)]. destruct (mtch_complete s r i c j d H L k y Ey) as [z Ez]. congruence. Qed.
(** a word, as positions *)
Definition spelt (s w : str) (i j : nat) : Prop := exists t, reads s i j t /\ lower t = w.
Lemma M_lit s w i c j d : i <= List.length s -> M s (rlit w) i c j d <-> d = c /\ spelt s w i j.
Proof. intros L. rewrite (rlit_reads s w i c j d L). unfold spelt. reflexivity. Qed.
Lemma spelt_len s w i j : spelt s w i j -> j = i + List.length w /\ j <= List.length s.
Proof. intros (t & R & <-). pose proof (reads_len s i j t R) as [E L]. unfold lower. rewrite map_length. auto. Qed.
Lemma spelt_char s w i j n x : spelt s w i j -> nth_error w n = Some x -> exists y, nth_error s (i + n) = Some y /\ to_lower y = x.
Proof.
  intros (t & [L E] & <-) H. unfold lower in H. rewrite nth_error_map in H. destruct (nth_error t n) as [y|] eqn:Ey; [|discriminate]. injection H as <-. exists y. split; [|reflexivity].
  rewrite <- E in Ey. rewrite slice_nth in Ey. destruct (n <? j - i); [exact Ey|discriminate].
Qed.

Section Cd.
  Context (s : str).
  (** [of] and a number, after the disc that ends at [y] *)
  Definition count_at (y v b : nat) : Prop := exists u w, joined s y u /\ spelt s (lit "of") u w /\ joined s w v /\ v < b /\ all_in s is_digit v b.
  Definition count_re : re := RSeq dash_opt (RSeq (rlit (lit "of")) (RSeq dash_opt (RGrp 2 digits1))).
  Lemma joined_le x y : x <= List.length s -> joined s x y -> x <= y <= List.length s.
  Proof. intros L J. split; [unfold joined in J; lia|]. exact (joined_len s x y L J). Qed.
  Lemma count_M y c b d : y <= List.length s -> M s count_re y c b d <-> exists v, count_at y v b /\ d = (2, (v, b)) :: c.
  Proof.
    intros L. unfold count_re, count_at. split.
    - intros H. apply M_sq in H as (u & e & H1 & H). apply M_joined in H1 as [-> H1]. pose proof (joined_le y u L H1) as L1. apply M_sq in H as (w & e & H2 & H). apply M_lit in H2 as [-> H2]; [|lia].
      apply M_sq in H as (v & e & H3 & H). apply M_joined in H3 as [-> H3]. apply M_group in H as (e & -> & H4). apply M_digits in H4 as (-> & H4 & H5). exists v. split; [exists u, w; auto|reflexivity].
    - intros (v & (u & w & H1 & H2 & H3 & H4 & H5) & ->). pose proof (joined_le y u L H1) as L1.
      apply M_sq. exists u, c. split; [apply M_joined; auto|]. apply M_sq. exists w, c. split; [apply M_lit; [lia|auto]|]. apply M_sq. exists v, c. split; [apply M_joined; auto|]. apply M_group. exists c. split; [reflexivity|]. apply M_digits. auto.
  Qed.
  Lemma alpha_at w i j : (forall c, In c w -> is_lower c = true) -> w <> [] -> spelt s w i j -> exists z, nth_error s i = Some z /\ is_alpha z = true.
  Proof.
    intros Hw N H. destruct w as [|c w]; [congruence|]. destruct (spelt_char s (c :: w) i j 0 c H eq_refl) as (y & Ey & E). rewrite Nat.add_0_r in Ey. exists y. split; [exact Ey|]. apply (lower_alpha y c); [apply Hw; left; reflexivity|exact E].
  Qed.
  Lemma of_alpha u w : spelt s (lit "of") u w -> exists z, nth_error s u = Some z /\ is_alpha z = true.
  Proof. apply alpha_at; [|discriminate]. intros c Hc. vm_compute in Hc. destruct Hc as [<-|[<-|[]]]; reflexivity. Qed.
  Lemma count_det y v b v' b' : count_at y v b -> count_at y v' b' -> stops s is_digit b -> stops s is_digit b' -> v' = v /\ b' = b.
  Proof.
    intros (u & w & H1 & H2 & H3 & H4 & H5) (u' & w' & H1' & H2' & H3' & H4' & H5') S S'. destruct (of_alpha u w H2) as (z & Ez & Az). destruct (of_alpha u' w' H2') as (z' & Ez' & Az').
    assert (u' = u) by exact (joined_det s y u' u z' z H1' Ez' (alpha_nosep z' Az') H1 Ez (alpha_nosep z Az)). subst u'.
    assert (w' = w) by (apply spelt_len in H2, H2'; lia). subst w'. destruct (digits_first s v b H4 H5) as (q & Eq & Dq). destruct (digits_first s v' b' H4' H5') as (q' & Eq' & Dq').
    assert (v' = v) by exact (joined_det s w v' v q' q H3' Eq' (digit_nosep q' Dq') H3 Eq (digit_nosep q Dq)). subst v'. split; [reflexivity|]. apply (runs_agree s is_digit v b' b); auto; lia.
  Qed.
  Lemma count_stops y v b : count_at y v b -> stops s is_digit y.
  Proof. intros (u & w & H1 & H2 & _). destruct (of_alpha u w H2) as (z & Ez & Az). apply (joined_no s is_digit y u z sep_nodigit H1 Ez (alpha_nodigit z Az)). Qed.

  (** [cd] from [a], a number from [x] to [y], perhaps [of] and a number from [v] to [b] *)
  Definition disc_at (a x y : nat) : Prop := exists w, spelt s (lit "cd") a w /\ joined s w x /\ x < y /\ all_in s is_digit x y.
  Inductive cd_at (a b : nat) : caps -> Prop :=
  | cd_only x : disc_at a x b -> stops s is_digit b -> (forall v e, ~ count_at b v e) -> cd_at a b [(1, (x, b))]
  | cd_of x y v : disc_at a x y -> count_at y v b -> stops s is_digit b -> cd_at a b [(2, (v, b)); (1, (x, y))].
  Lemma cd_alpha a w : spelt s (lit "cd") a w -> exists z, nth_error s a = Some z /\ is_alpha z = true.
  Proof. apply alpha_at; [|discriminate]. intros c Hc. vm_compute in Hc. destruct Hc as [<-|[<-|[]]]; reflexivity. Qed.
  Lemma disc_det a x y x' y' : disc_at a x y -> disc_at a x' y' -> stops s is_digit y -> stops s is_digit y' -> x' = x /\ y' = y.
  Proof.
    intros (w & H1 & H2 & H3 & H4) (w' & H1' & H2' & H3' & H4') S S'. assert (w' = w) by (apply spelt_len in H1, H1'; lia). subst w'.
    destruct (digits_first s x y H3 H4) as (q & Eq & Dq). destruct (digits_first s x' y' H3' H4') as (q' & Eq' & Dq').
    assert (x' = x) by exact (joined_det s w x' x q' q H2' Eq' (digit_nosep q' Dq') H2 Eq (digit_nosep q Dq)). subst x'. split; [reflexivity|]. apply (runs_agree s is_digit x y' y); auto; lia.
  Qed.
  Lemma disc_len a x y : disc_at a x y -> a < x /\ x < y <= List.length s.
  Proof. intros (w & H1 & H2 & H3 & H4). apply spelt_len in H1 as [-> L]. apply joined_le in H2; [|exact L]. pose proof (all_in_len s is_digit x y H3 H4). cbn in H2. lia. Qed.
  Lemma cd_det a b c b' c' : cd_at a b c -> cd_at a b' c' -> b' = b /\ c' = c.
  Proof.
    intros [x D S N|x y v D Q S] [x' D' S' N'|x' y' v' D' Q' S'].
    - destruct (disc_det a x b x' b' D D' S S') as [-> ->]. auto.
    - destruct (disc_det a x b x' y' D D' S (count_stops _ _ _ Q')) as [-> ->]. destruct (N _ _ Q').
    - destruct (disc_det a x' b' x y D' D S' (count_stops _ _ _ Q)) as [-> ->]. destruct (N' _ _ Q).
    - destruct (disc_det a x y x' y' D D' (count_stops _ _ _ Q) (count_stops _ _ _ Q')) as [-> ->]. destruct (count_det y v b v' b' Q Q' S S') as [-> ->]. auto.
  Qed.
  Lemma cd_M a c b d : a <= List.length s -> M s (rx_re cd_rx) a c b d <-> exists x y, disc_at a x y /\ ((b = y /\ d = (1, (x, y)) :: c) \/ exists v, count_at y v b /\ d = (2, (v, b)) :: (1, (x, y)) :: c).
  Proof.
    intros L. cbn [rx_re cd_rx]. fold count_re. split.
    - intros H. apply M_sq in H as (w & e & H1 & H). apply M_lit in H1 as [-> H1]; [|exact L]. apply M_sq in H as (x & e & H2 & H). apply M_joined in H2 as [-> H2]. apply M_sq in H as (y & e & H3 & H). apply M_group in H3 as (e1 & -> & H3). apply M_digits in H3 as (-> & H3 & H4).
      assert (D : disc_at a x y) by (exists w; auto). exists x, y. split; [exact D|]. apply disc_len in D. apply M_opt1_inv in H as [H|[-> ->]]; [|auto]. apply count_M in H as (v & H & ->); [|lia]. eauto.
    - intros (x & y & D & H). pose proof (disc_len a x y D) as Ly. destruct D as (w & H1 & H2 & H3 & H4). apply M_sq. exists w, c. split; [apply M_lit; auto|]. apply M_sq. exists x, c. split; [apply M_joined; auto|].
      apply M_sq. exists y, ((1, (x, y)) :: c). split; [apply M_group; eexists; split; [reflexivity|apply M_digits; auto]|]. destruct H as [[-> ->]|(v & H & ->)]; [apply M_opt0|]. apply M_opt1, count_M; [lia|]. eauto.
  Qed.
  Lemma cd_consumes : consumes s (rx_re cd_rx).
  Proof.
    intros a c b d H. destruct (Nat.le_gt_cases a (List.length s)) as [L|L].
    - apply cd_M in H as (x & y & D & H); [|exact L]. apply disc_len in D. destruct H as [[-> _]|(v & (u & w & H1 & H2 & H3 & H4 & _) & _)]; [lia|]. apply spelt_len in H2 as [-> _]. unfold joined in H1, H3. cbn in H3. clear - D H1 H3 H4. lia.
    - exfalso. cbn [rx_re cd_rx] in H. apply M_sq in H as (w & e & H1 & _). change (rlit (lit "cd")) with (RSeq (RChr (fun c => N.eqb (to_lower c) 99)) (RSeq (RChr (fun c => N.eqb (to_lower c) 100)) REps)) in H1.
      apply M_sq in H1 as (j & e1 & H1 & _). apply M_chr_inv in H1 as (_ & _ & z & Ez & _). apply nth_error_lt in Ez. lia.
  Qed.
  Lemma cd_match a b c : a <= List.length s -> match_at s (rx_re cd_rx) a = Some (b, c) <-> cd_at a b c.
  Proof.
    intros L. assert (F : forall b c, match_at s (rx_re cd_rx) a = Some (b, c) -> cd_at a b c).
    { clear b c. intros b c E. unfold match_at in E. cbn [rx_re cd_rx] in E. fold count_re in E. apply mtch_seq in E as (w & e & H1 & E). apply M_lit in H1 as [-> H1]; [|exact L]. apply mtch_seq in E as (x & e & H2 & E). apply M_joined in H2 as [-> H2].
      cbn [mtch] in E. apply plus_max in E as (y & H3 & H4 & H5 & E).
      2:{ intros j d. cbn [ropt mtch]. destruct (mtch s count_re _ _ _); discriminate. }
      assert (D : disc_at a x y) by (exists w; split; [exact H1|]; split; [exact H2|]; split; [lia|exact H4]). cbn [ropt mtch] in E. destruct (mtch s count_re y [(1, (x, y))] (fun j c => Some (j, c))) as [p|] eqn:Ec.
      - injection E as ->. assert (HM : M s count_re y [(1, (x, y))] b c) by (apply mtch_sound in Ec as (j & d & H & E); injection E as -> ->; exact H). apply count_M in HM as (v & Q & ->); [|lia]. apply cd_of; [exact D|exact Q|].
        unfold count_re in Ec. do 3 (apply mtch_seq in Ec as (? & ? & _ & Ec)). cbn [mtch] in Ec. apply plus_max in Ec as (j & _ & _ & Sj & Ej); [|discriminate]. injection Ej as <- _. exact Sj.
      - injection E as <- <-. apply cd_only; [exact D|exact H5|]. intros v e Q. apply (mtch_none s count_re y [(1, (x, y))] _ ltac:(lia)) with (j := e) (d := (2, (v, e)) :: [(1, (x, y))]) in Ec; [|discriminate]. apply Ec, count_M; [lia|]. eauto. }
    split; [apply F|]. intros H. assert (HM : exists d, M s (rx_re cd_rx) a [] b d).
    { destruct H as [x D S N|x y v D Q S]; eexists; (apply cd_M; [exact L|]); [exists x, b; split; [exact D|left; auto]|exists x, y; split; [exact D|right; eauto]]. }
    destruct HM as (d & HM). destruct (M_match_at s (rx_re cd_rx) a b d L HM) as (b' & c' & E). rewrite E. apply F in E. destruct (cd_det a b c b' c' H E) as [-> ->]. reflexivity.
  Qed.
  Lemma cd_iso a x y a' b' d : disc_at a x y -> a' < a -> M s (rx_re cd_rx) a' [] b' d -> b' <= a.
  Proof.
    intros D L H. pose proof (disc_len a x y D) as Ly. destruct D as (w & H1 & H2 & _). assert (C : exists z, nth_error s a = Some z /\ to_lower z = 99%N).
    { destruct (spelt_char s (lit "cd") a w 0 99%N H1 eq_refl) as (z & Ez & E). rewrite Nat.add_0_r in Ez. eauto. }
    destruct C as (z & Ez & Lz). apply cd_M in H as (x' & y' & D' & H); [|lia]. destruct (Nat.le_gt_cases b' a) as [|G]; [assumption|exfalso].
    assert (Dz : is_digit z = false). { apply lower_is in Lz; [|reflexivity]. destruct Lz as [->| ->]; reflexivity. }
    assert (Sz : ~ In z seps). { apply lower_is in Lz; [|reflexivity]. intros S. apply sep_noalpha in S. destruct Lz as [->| ->]; discriminate. }
    assert (DG : forall i j, all_in s is_digit i j -> i <= a < j -> False). { intros i j A Hij. destruct (A a Hij) as (q & Eq & Dq). rewrite Ez in Eq. injection Eq as <-. congruence. }
    assert (JN : forall i j, joined s i j -> i <= a < j -> False). { intros i j [->|(-> & q & Eq & Sq)] Hij; [lia|]. assert (i = a) by lia. subst i. rewrite Ez in Eq. injection Eq as <-. apply no_fs_iff in Sq. tauto. }
    assert (LT : forall w i j, (forall x, In x (tl w) -> x <> 99%N) -> spelt s w i j -> i < a < j -> False).
    { intros w0 i j Hw Hs Hij. pose proof (spelt_len s w0 i j Hs) as [Ej _]. destruct (nth_error w0 (a - i)) as [q|] eqn:Eq; [|apply nth_error_None in Eq; lia].
      destruct (spelt_char s w0 i j (a - i) q Hs Eq) as (u & Eu & Lu). replace (i + (a - i)) with a in Eu by lia. rewrite Ez in Eu. injection Eu as <-. apply (Hw q); [|congruence].
      destruct w0 as [|c0 w0]; [destruct (a - i); discriminate|]. replace (a - i) with (S (a - i - 1)) in Eq by lia. cbn [nth_error] in Eq. apply nth_error_In in Eq. exact Eq. }
    assert (LA : forall w i j, (forall x, In x w -> x <> 99%N) -> spelt s w i j -> i <= a < j -> False).
    { intros w0 i j Hw Hs Hij. pose proof (spelt_len s w0 i j Hs) as [Ej _]. destruct (nth_error w0 (a - i)) as [q|] eqn:Eq; [|apply nth_error_None in Eq; lia].
      destruct (spelt_char s w0 i j (a - i) q Hs Eq) as (u & Eu & Lu). replace (i + (a - i)) with a in Eu by lia. rewrite Ez in Eu. injection Eu as <-. apply (Hw q); [|congruence]. apply nth_error_In in Eq. exact Eq. }
    destruct D' as (w' & K1 & K2 & K3 & K4).
    assert (W1 : w' <= a) by (destruct (Nat.le_gt_cases w' a); [assumption|exfalso]; apply (LT (lit "cd") a' w'); [intros q Hq; vm_compute in Hq; destruct Hq as [<-|[]]; discriminate|exact K1|lia]).
    assert (W2 : x' <= a) by (destruct (Nat.le_gt_cases x' a); [assumption|exfalso]; apply (JN w' x' K2); lia).
    assert (W3 : y' <= a) by (destruct (Nat.le_gt_cases y' a); [assumption|exfalso]; apply (DG x' y' K4); lia).
    destruct H as [[-> _]|(v & (u & w0 & Q1 & Q2 & Q3 & Q4 & Q5) & _)]; [lia|].
    assert (W4 : u <= a) by (destruct (Nat.le_gt_cases u a); [assumption|exfalso]; apply (JN y' u Q1); lia).
    assert (W5 : w0 <= a) by (destruct (Nat.le_gt_cases w0 a); [assumption|exfalso]; apply (LA (lit "of") u w0); [intros q Hq; vm_compute in Hq; destruct Hq as [<-|[<-|[]]]; discriminate|exact Q2|lia]).
    assert (W6 : v <= a) by (destruct (Nat.le_gt_cases v a); [assumption|exfalso]; apply (JN w0 v Q3); lia).
    apply (DG v b' Q5). lia.
  Qed.
  Lemma cd_found a b c : In (a, b, c) (finditer s (rx_re cd_rx)) <-> cd_at a b c.
  Proof.
    split.
    - intros H. apply finditer_sound in H as (L & E & _); [|apply cd_consumes]. apply cd_match in E; [exact E|lia].
    - intros H. assert (D : exists x y, disc_at a x y) by (destruct H; eauto). destruct D as (x & y & D). pose proof (disc_len a x y D) as L. apply finditer_exact; [apply cd_consumes|lia| |apply cd_match; [lia|exact H]].
      intros a' b' c' La HM. exact (cd_iso a x y a' b' c' D La HM).
  Qed.
End Cd.
(** ** what the groups of an expression give *)
Lemma kids_shows p s x y n v : rx_children p = true -> rx_validate_all p = false ->
  shows (rx_matches p s) x y n v <-> exists a b c, In (a, b, c) (finditer s (rx_re p)) /\ (forall k, In k (rx_kids p s c) -> rx_child_valid p s (rx_child p a b k) = true) /\ In (mk_c x y n v) (rx_kids p s c).
Proof.
  intros Hc Hv. unfold shows. split.
  - intros (m & Hm & <- & <- & <- & <- & Pm). apply rx_In in Hm as (a & b & c & Hf & Hm). exists a, b, c. split; [exact Hf|]. unfold rx_one in Hm. rewrite Hc, Hv in Hm. cbn [negb orb andb] in Hm.
    destruct (forallb (rx_child_valid p s) (map (rx_child p a b) (rx_kids p s c))) eqn:F; [|destruct Hm]. rewrite forallb_forall in F. split; [intros k Hk; apply F, in_map, Hk|].
    apply in_app_iff in Hm as [Hm|Hm].
    + destruct (rx_private_parent p); [|destruct Hm]. destruct Hm as [<-|[]]. cbn [rx_parent m_private] in Pm. congruence.
    + apply in_map_iff in Hm as (k & <- & Hk). destruct k. exact Hk.
  - intros (a & b & c & Hf & V & Hk). exists (rx_child p a b (mk_c x y n v)). split; [|repeat split]. apply rx_In. exists a, b, c. split; [exact Hf|]. unfold rx_one. rewrite Hc, Hv. cbn [negb orb andb].
    assert (F : forallb (rx_child_valid p s) (map (rx_child p a b) (rx_kids p s c)) = true) by (apply forallb_forall; intros m Hm; apply in_map_iff in Hm as (k & <- & Hk'); apply V, Hk'). rewrite F. apply in_app_iff. right. apply in_map, Hk.
Qed.

(** ** Specification *)
(** [cd], perhaps a separator, and a number from [x] to [y] *)
Definition disc (s : str) (x y : nat) (d : str) : Prop :=
  exists a t p, reads s a y (t ++ p ++ d) /\ lower t = lit "cd" /\ maybe_sep p /\ number d /\ x = y - List.length d.
(** then [of] and a number [n] from [v] to [b], with or without separators *)
Definition count_after (s : str) (y v b : nat) (n : str) : Prop :=
  exists p1 o p2, reads s y b (p1 ++ o ++ p2 ++ n) /\ maybe_sep p1 /\ lower o = lit "of" /\ maybe_sep p2 /\ number n /\ v = b - List.length n.
Definition disc_number (d : str) : Prop := (1 <= value_of d <= 99)%Z.

Lemma disc_iff s x y d : disc s x y d <-> (exists a, disc_at s a x y) /\ reads s x y d.
Proof.
  unfold disc, disc_at. split.
  - intros (a & t & p & R & E & P & N & ->). apply reads_app in R as (w & R1 & R). apply reads_app in R as (x & R2 & R3). pose proof (reads_len s x y d R3) as [L _]. replace (y - List.length d) with x by lia. split; [|exact R3].
    exists a, w. split; [exists t; auto|]. split; [apply joined_text; [destruct R2; lia|eauto]|]. apply (reads_number s x y d R3 N).
  - intros ((a & w & (t & R1 & E) & J & L & D) & R3). apply joined_text in J as (p & R2 & P); [|destruct R1; lia]. exists a, t, p. split; [apply reads_app; exists w; split; [exact R1|]; apply reads_app; exists x; auto|]. split; [exact E|]. split; [exact P|].
    split; [|pose proof (reads_len s x y d R3) as [Ld _]; lia]. rewrite <- (proj2 R3). apply digits_iff; [apply R3|exact L|exact D].
Qed.
Lemma count_iff s y v b n : count_after s y v b n <-> count_at s y v b /\ reads s v b n /\ y <= List.length s.
Proof.
  unfold count_after, count_at. split.
  - intros (p1 & o & p2 & R & P1 & E & P2 & N & ->). pose proof (proj1 R) as Ly. apply reads_app in R as (u & R1 & R). apply reads_app in R as (w & R2 & R). apply reads_app in R as (v & R3 & R4). pose proof (reads_len s v b n R4) as [L _]. replace (b - List.length n) with v by lia. split; [|split; [exact R4|lia]].
    exists u, w. split; [apply joined_text; [lia|eauto]|]. split; [exists o; auto|]. split; [apply joined_text; [destruct R3; lia|eauto]|]. apply (reads_number s v b n R4 N).
  - intros ((u & w & J1 & (o & R2 & E) & J2 & L & D) & R4 & Ly). apply joined_text in J1 as (p1 & R1 & P1); [|exact Ly]. apply joined_text in J2 as (p2 & R3 & P2); [|destruct R2; lia]. exists p1, o, p2.
    split; [apply reads_app; exists u; split; [exact R1|]; apply reads_app; exists w; split; [exact R2|]; apply reads_app; exists v; auto|]. split; [exact P1|]. split; [exact E|]. split; [exact P2|]. split; [|pose proof (reads_len s v b n R4) as [Ld _]; lia].
    rewrite <- (proj2 R4). apply digits_iff; [apply R4|exact L|exact D].
Qed.
Lemma no_digit_iff s b : no_digit_after s b <-> stops s is_digit b.
Proof.
  unfold no_digit_after, stops. split; intros H c E; specialize (H c E).
  - destruct (is_digit c) eqn:D; [|reflexivity]. apply is_digit_iff in D. contradiction.
  - intros D. apply is_digit_iff in D. congruence.
Qed.
Lemma hundred_iff s m t : m_value m = int_of_text t -> hundred s m = true <-> disc_number t.
Proof. unfold hundred, number_is, disc_number, int_of_text, value_of. intros ->. unfold dec. rewrite Bool.andb_true_iff, Z.ltb_lt, Z.ltb_lt. lia. Qed.

(** ** C89: a disc is recognised wherever it is written, unless the count that follows is not from 1 to 99 *)
Theorem C89_cd s x y v : shows (rx_matches cd_rx s) x y (lit "cd") v <->
  exists d, disc s x y d /\ no_digit_after s y /\ disc_number d /\ v = MvInt (value_of d) /\
    (forall w b n, count_after s y w b n -> no_digit_after s b -> disc_number n).
Proof.
  rewrite (kids_shows cd_rx s x y (lit "cd") v eq_refl eq_refl). split.
  - intros (a & b & c & Hf & V & Hk). apply cd_found in Hf. destruct Hf as [x0 D S N|x0 y0 w D Q S].
    + change (rx_kids cd_rx s [(1, (x0, b))]) with [mk_c x0 b (lit "cd") (int_of_text (slice x0 b s))] in *. destruct Hk as [Hk|[]]. assert (x = x0) by congruence. assert (y = b) by congruence. assert (Ev : v = int_of_text (slice x0 b s)) by congruence. subst x y v. clear Hk.
      exists (slice x0 b s). pose proof (disc_len s a x0 b D) as L. split; [apply disc_iff; split; [eauto|split; [lia|reflexivity]]|]. split; [apply no_digit_iff, S|]. specialize (V _ (or_introl eq_refl)). apply (hundred_iff s _ (slice x0 b s)) in V; [|reflexivity]. split; [exact V|]. split; [reflexivity|].
      intros w e n Q _. apply count_iff in Q as [Q _]. destruct (N w e Q).
    + change (rx_kids cd_rx s [(2, (w, b)); (1, (x0, y0))]) with [mk_c x0 y0 (lit "cd") (int_of_text (slice x0 y0 s)); mk_c w b (lit "cd_count") (int_of_text (slice w b s))] in *.
      assert (x = x0 /\ y = y0 /\ v = int_of_text (slice x0 y0 s)) as (-> & -> & ->). { destruct Hk as [Hk|[Hk|[]]]; [|discriminate (f_equal c_name Hk)]. injection Hk as <- <- <-. auto. }
      exists (slice x0 y0 s). pose proof (disc_len s a x0 y0 D) as L. split; [apply disc_iff; split; [eauto|split; [lia|reflexivity]]|]. split; [apply no_digit_iff, (count_stops s y0 w b Q)|].
      pose proof (V _ (or_introl eq_refl)) as V1. pose proof (V _ (or_intror (or_introl eq_refl))) as V2. apply (hundred_iff s _ (slice x0 y0 s)) in V1; [|reflexivity]. apply (hundred_iff s _ (slice w b s)) in V2; [|reflexivity]. split; [exact V1|]. split; [reflexivity|].
      intros w' e n Q' S'. apply count_iff in Q' as (Q' & R & _). apply no_digit_iff in S'. destruct (count_det s y0 w b w' e Q Q' S S') as [-> ->]. rewrite <- (proj2 R). exact V2.
  - intros (d & D & S & N & -> & H). apply disc_iff in D as ((a & D) & R). apply no_digit_iff in S. pose proof (disc_len s a x y D) as L.
    destruct (mtch s count_re y [(1, (x, y))] (fun j c => Some (j, c))) as [[b c]|] eqn:E.
    + assert (SB : stops s is_digit b). { pose proof E as Ec. unfold count_re in Ec. do 3 (apply mtch_seq in Ec as (? & ? & _ & Ec)). cbn [mtch] in Ec. apply plus_max in Ec as (j & _ & _ & Sj & Ej); [|discriminate]. injection Ej as <- _. exact Sj. }
      apply mtch_sound in E as (j & e & HM & E). injection E as <- <-. apply count_M in HM as (w & Q & ->); [|lia]. exists a, j, [(2, (w, j)); (1, (x, y))]. split; [apply cd_found, cd_of; assumption|].
      change (rx_kids cd_rx s [(2, (w, j)); (1, (x, y))]) with [mk_c x y (lit "cd") (int_of_text (slice x y s)); mk_c w j (lit "cd_count") (int_of_text (slice w j s))].
      assert (Lw : w < j <= List.length s). { destruct Q as (u & w' & _ & _ & _ & L1 & D1). pose proof (all_in_len s is_digit w j L1 D1). lia. }
      split; [|left; rewrite (proj2 R); reflexivity]. intros k [<-|[<-|[]]].
      * apply (hundred_iff s _ (slice x y s)); [reflexivity|]. rewrite (proj2 R). exact N.
      * apply (hundred_iff s _ (slice w j s)); [reflexivity|]. apply (H w j); [|apply no_digit_iff, SB]. apply count_iff. split; [exact Q|]. split; [split; [lia|reflexivity]|lia].
    + exists a, y, [(1, (x, y))]. split.
      * apply cd_found, cd_only; [exact D|exact S|]. intros w e Q. apply (mtch_none s count_re y [(1, (x, y))] _ ltac:(lia)) with (j := e) (d := (2, (w, e)) :: [(1, (x, y))]) in E; [|discriminate]. apply E, count_M; [lia|]. eauto.
      * change (rx_kids cd_rx s [(1, (x, y))]) with [mk_c x y (lit "cd") (int_of_text (slice x y s))]. split; [|left; rewrite (proj2 R); reflexivity]. intros k [<-|[]]. apply (hundred_iff s _ (slice x y s)); [reflexivity|]. rewrite (proj2 R). exact N.
Qed.
Print Assumptions C89_cd.
Theorem C89_count s x b v : shows (rx_matches cd_rx s) x b (lit "cd_count") v <->
  exists w y d n, disc s w y d /\ count_after s y x b n /\ no_digit_after s b /\ disc_number d /\ disc_number n /\ v = MvInt (value_of n).
Proof.
  rewrite (kids_shows cd_rx s x b (lit "cd_count") v eq_refl eq_refl). split.
  - intros (a & e & c & Hf & V & Hk). apply cd_found in Hf. destruct Hf as [x0 D S N|x0 y0 w D Q S].
    + change (rx_kids cd_rx s [(1, (x0, e))]) with [mk_c x0 e (lit "cd") (int_of_text (slice x0 e s))] in *. destruct Hk as [Hk|[]]. discriminate (f_equal c_name Hk).
    + change (rx_kids cd_rx s [(2, (w, e)); (1, (x0, y0))]) with [mk_c x0 y0 (lit "cd") (int_of_text (slice x0 y0 s)); mk_c w e (lit "cd_count") (int_of_text (slice w e s))] in *.
      assert (x = w /\ b = e /\ v = int_of_text (slice w e s)) as (-> & -> & ->). { destruct Hk as [Hk|[Hk|[]]]; [discriminate (f_equal c_name Hk)|]. injection Hk as <- <- <-. auto. }
      pose proof (disc_len s a x0 y0 D) as L. assert (Lw : w < e <= List.length s). { destruct Q as (u & w' & _ & _ & _ & L1 & D1). pose proof (all_in_len s is_digit w e L1 D1). lia. }
      exists x0, y0, (slice x0 y0 s), (slice w e s). split; [apply disc_iff; split; [eauto|split; [lia|reflexivity]]|]. split; [apply count_iff; split; [exact Q|]; split; [split; [lia|reflexivity]|lia]|]. split; [apply no_digit_iff, S|].
      pose proof (V _ (or_introl eq_refl)) as V1. pose proof (V _ (or_intror (or_introl eq_refl))) as V2. apply (hundred_iff s _ (slice x0 y0 s)) in V1; [|reflexivity]. apply (hundred_iff s _ (slice w e s)) in V2; [|reflexivity]. auto.
  - intros (w & y & d & n & D & Q & S & N1 & N2 & ->). apply disc_iff in D as ((a & D) & R). apply count_iff in Q as (Q & R2 & _). apply no_digit_iff in S.
    exists a, b, [(2, (x, b)); (1, (w, y))]. split; [apply cd_found, cd_of; assumption|].
    change (rx_kids cd_rx s [(2, (x, b)); (1, (w, y))]) with [mk_c w y (lit "cd") (int_of_text (slice w y s)); mk_c x b (lit "cd_count") (int_of_text (slice x b s))].
    split; [|right; left; rewrite (proj2 R2); reflexivity]. intros k [<-|[<-|[]]].
    + apply (hundred_iff s _ (slice w y s)); [reflexivity|]. rewrite (proj2 R). exact N1.
    + apply (hundred_iff s _ (slice x b s)); [reflexivity|]. rewrite (proj2 R2). exact N2.
Qed.
Print Assumptions C89_count.
Definition shown (p : rx) (s : str) := map (fun m => (m_start m, m_end m, m_name m, m_value m)) (filter (fun m => negb (m_private m)) (rx_matches p s)).
Example C89_ex : shown cd_rx (lit "Movie.CD-2of 3.abcd07 cd100") = [(9, 10, lit "cd", MvInt 2); (13, 14, lit "cd_count", MvInt 3); (19, 21, lit "cd", MvInt 7)].
Proof. vm_compute. reflexivity. Qed.
(** a count that is not from 1 to 99 hides the disc too *)
Theorem C89_limit : shown cd_rx (lit "cd1 of 100") = [] /\ disc (lit "cd1 of 100") 2 3 (lit "1").
Proof.
  split; [vm_compute; reflexivity|]. exists 0, (lit "cd"), []. split; [split; [vm_compute; lia|vm_compute; reflexivity]|]. split; [reflexivity|]. split; [left; reflexivity|]. split; [|reflexivity].
  split; [discriminate|]. intros c [<-|[]]. split; discriminate.
Qed.
Print Assumptions C89_limit.

(** ** 2 cds *)
Section Count.
  Context (s : str).
  Definition cds_at (a y b : nat) : Prop := a < y /\ all_in s is_digit a y /\ exists u w, joined s y u /\ spelt s (lit "cd") u w /\ (b = w \/ (b = S w /\ exists z, nth_error s w = Some z /\ to_lower z = 115%N)).
  Lemma cds_len a y b : cds_at a y b -> a < y < b /\ b <= List.length s.
  Proof. intros (L & D & u & w & J & K & B). pose proof (all_in_len s is_digit a y L D) as Ly. apply (joined_le s y u Ly) in J. apply spelt_len in K as [-> K]. cbn in *. destruct B as [->|(-> & z & Ez & _)]; [lia|]. apply nth_error_lt in Ez. lia. Qed.
  Lemma cds_M a c b d : M s (rx_re cd_count_rx) a c b d <-> exists y, cds_at a y b /\ d = (1, (a, y)) :: c.
  Proof.
    cbn [rx_re cd_count_rx]. unfold cds_at. split.
    - intros H. apply M_sq in H as (y & e & H1 & H). apply M_group in H1 as (e1 & -> & H1). apply M_digits in H1 as (-> & H1 & D1). pose proof (all_in_len s is_digit a y H1 D1) as L. apply M_sq in H as (u & e & H2 & H). apply M_joined in H2 as [-> H2]. pose proof (joined_le s y u L H2) as Lu.
      apply M_sq in H as (w & e & H3 & H). apply M_lit in H3 as [-> H3]; [|lia]. exists y. apply M_opt1_inv in H as [H|[-> ->]].
      + apply one_of_iff in H as (-> & -> & H). split; [|reflexivity]. split; [exact H1|]. split; [exact D1|]. exists u, w. auto.
      + split; [|reflexivity]. split; [exact H1|]. split; [exact D1|]. exists u, w. auto.
    - intros (y & (H1 & D1 & u & w & H2 & H3 & B) & ->). pose proof (all_in_len s is_digit a y H1 D1) as L. pose proof (joined_le s y u L H2) as Lu.
      apply M_sq. exists y, ((1, (a, y)) :: c). split; [apply M_group; eexists; split; [reflexivity|apply M_digits; auto]|]. apply M_sq. eexists u, _. split; [apply M_joined; auto|]. apply M_sq. eexists w, _. split; [apply M_lit; [lia|auto]|].
      destruct B as [->|(-> & B)]; [apply M_opt0|apply M_opt1, one_of_iff; auto].
  Qed.
  Lemma cds_consumes : consumes s (rx_re cd_count_rx).
  Proof. intros a c b d H. apply cds_M in H as (y & H & _). apply cds_len in H. lia. Qed.
  Lemma cds_stops a y b : cds_at a y b -> stops s is_digit y.
  Proof. intros (_ & _ & u & w & J & K & _). destruct (cd_alpha s u w K) as (z & Ez & Az). exact (joined_no s is_digit y u z sep_nodigit J Ez (alpha_nodigit z Az)). Qed.
  Lemma cds_iso a y b a' y' b' : cds_at a y b -> (forall c, 0 < a -> nth_error s (a - 1) = Some c -> is_digit c = false) -> a' < a -> cds_at a' y' b' -> b' <= a.
  Proof.
    intros (L & D & _) A La (L' & D' & u & w & J & K & B). destruct (Nat.le_gt_cases b' a) as [|G]; [assumption|exfalso]. destruct (D a ltac:(lia)) as (q & Eq & Dq).
    assert (Y : y' < a) . { destruct (Nat.lt_ge_cases y' a) as [|Q]; [assumption|exfalso]. destruct (D' (a - 1) ltac:(lia)) as (r & Er & Dr). rewrite (A r ltac:(lia) Er) in Dr. discriminate. }
    assert (U : u <= a). { destruct J as [->|(-> & z & Ez & Sz)]; lia. }
    pose proof (spelt_len s (lit "cd") u w K) as [Ew _]. cbn in Ew. assert (Hn : exists n, n < 3 /\ a = u + n) by (exists (a - u); destruct B as [->|(-> & _)]; lia). destruct Hn as (n & Hn & En).
    assert (ND : forall z, to_lower z = 99%N \/ to_lower z = 100%N \/ to_lower z = 115%N -> is_digit z = false).
    { intros z Hz. destruct (is_digit z) eqn:Z; [|reflexivity]. unfold to_lower in Hz. assert (is_upper z = false) as U' by (unfold is_upper, is_digit in *; lia). rewrite U' in Hz. unfold is_digit in Z. lia. }
    destruct n as [|[|[|n]]]; [| | |lia].
    - destruct (spelt_char s (lit "cd") u w 0 99%N K eq_refl) as (z & Ez & Lz). rewrite <- En in Ez. rewrite Eq in Ez. injection Ez as <-. rewrite (ND q) in Dq; [discriminate|auto].
    - destruct (spelt_char s (lit "cd") u w 1 100%N K eq_refl) as (z & Ez & Lz). rewrite <- En in Ez. rewrite Eq in Ez. injection Ez as <-. rewrite (ND q) in Dq; [discriminate|auto].
    - destruct B as [->|(-> & z & Ez & Lz)]; [lia|]. replace w with a in Ez by lia. rewrite Eq in Ez. injection Ez as <-. rewrite (ND q) in Dq; [discriminate|auto].
  Qed.
  Lemma cds_kids a y : rx_kids cd_count_rx s [(1, (a, y))] = [mk_c a y (lit "cd_count") (int_of_text (slice a y s))].
  Proof. reflexivity. Qed.
End Count.
(** a number, perhaps a separator, and [cd] *)
Theorem C89_cds s x y v : shows (rx_matches cd_count_rx s) x y (lit "cd_count") v <->
  exists d, reads s x y d /\ number d /\ (forall c, 0 < x -> nth_error s (x - 1) = Some c -> ~ (48 <= c <= 57)%N) /\
    (exists b p t, reads s y b (p ++ t) /\ maybe_sep p /\ lower t = lit "cd") /\ disc_number d /\ v = MvInt (value_of d).
Proof.
  rewrite (kids_shows cd_count_rx s x y (lit "cd_count") v eq_refl eq_refl). split.
  - intros (a & b & c & Hf & V & Hk). pose proof Hf as Hf0. apply finditer_sound in Hf as (L & E & HM); [|apply cds_consumes]. apply cds_M in HM as (y0 & H & ->). rewrite cds_kids in V, Hk. destruct Hk as [Hk|[]]. injection Hk as <- <- <-.
    pose proof (cds_len s a y0 b H) as Ly. exists (slice a y0 s). specialize (V _ (or_introl eq_refl)). apply (hundred_iff s _ (slice a y0 s)) in V; [|reflexivity].
    split; [split; [lia|reflexivity]|]. pose proof H as (L1 & D1 & u & w & J & (t & Rt & Et) & B). split; [apply digits_iff; [lia|exact L1|exact D1]|]. split.
    { intros c La Ec Dc. apply is_digit_iff in Dc.
      (* an earlier digit would have been the start *)
      assert (HM' : M s (rx_re cd_count_rx) (a - 1) [] b [(1, (a - 1, y0))]).
      { apply cds_M. exists y0. split; [|reflexivity]. split; [lia|]. split; [|exists u, w; split; [exact J|]; split; [exists t; auto|exact B]]. intros k Hk. destruct (Nat.eq_dec k (a - 1)) as [->|]; [eauto|apply D1; lia]. }
      assert (Z : forall fuel pos, In (a, b, [(1, (a, y0))]) (finditer_loop s (rx_re cd_count_rx) fuel pos) -> pos = a \/ exists a' b' c', In (a', b', c') (finditer_loop s (rx_re cd_count_rx) fuel pos) /\ b' = a).
      { intros fuel. induction fuel as [|f IH]; intros pos; cbn [finditer_loop]; [intros []|]. destruct (search s (rx_re cd_count_rx) pos) as [[[a' b'] c']|] eqn:Es; [|intros []]. apply search_at in Es as (S1 & S2 & S3). intros [Hi|Hi].
        - injection Hi as -> -> ->. destruct (Nat.eq_dec pos a) as [->|Np]; [auto|exfalso]. destruct (M_match_at s (rx_re cd_count_rx) (a - 1) b _ ltac:(lia) HM') as (b2 & c2 & E2). rewrite (S3 (a - 1) ltac:(lia)) in E2. discriminate.
        - apply IH in Hi as [Hi|(a2 & b2 & c2 & Hi & E2)]; right; [exists a', b', c'; split; [left; reflexivity|exact Hi]|exists a2, b2, c2; split; [right; exact Hi|exact E2]]. }
      destruct (Z _ _ Hf0) as [Hz|(a' & b' & c' & Hz & ->)]; [lia|]. apply finditer_loop_sound in Hz as (Lz & Ez); [|apply cds_consumes]. apply match_at_M in Ez. apply cds_M in Ez as (y' & (L' & D' & u' & w' & J' & K' & B') & _).
      pose proof (spelt_len s (lit "cd") u' w' K') as [Ew _]. cbn in Ew.
      assert (ND : forall z, to_lower z = 99%N \/ to_lower z = 100%N \/ to_lower z = 115%N -> is_digit z = false).
      { intros z Hz. destruct (is_digit z) eqn:Z'; [|reflexivity]. unfold to_lower in Hz. assert (is_upper z = false) as U' by (unfold is_upper, is_digit in *; lia). rewrite U' in Hz. unfold is_digit in Z'. lia. }
      destruct B' as [->|(-> & z & Ez & Lz')].
      + destruct (spelt_char s (lit "cd") u' w' 1 100%N K' eq_refl) as (z & Ez & Lz'). replace (u' + 1) with (w' - 1) in Ez by lia. rewrite Ec in Ez. injection Ez as <-. rewrite (ND c) in Dc; [discriminate|auto].
      + replace w' with (S w' - 1) in Ez by lia. rewrite Ec in Ez. injection Ez as <-. rewrite (ND c) in Dc; [discriminate|auto]. }
    split; [|auto]. apply joined_text in J as (p & Rp & P); [|lia]. exists w, p, t. split; [apply reads_app; eauto|auto].
  - intros (d & R & N & A & (b & p & t & R2 & P & Et) & V & ->). destruct (reads_number s x y d R N) as (L & D). apply reads_app in R2 as (u & Rp & Rt).
    assert (H : cds_at s x y b). { split; [exact L|]. split; [exact D|]. exists u, b. split; [apply joined_text; [destruct R; lia|eauto]|]. split; [exists t; auto|auto]. }
    assert (HM : M s (rx_re cd_count_rx) x [] b [(1, (x, y))]) by (apply cds_M; eauto). pose proof (cds_len s x y b H) as Lb.
    destruct (finditer_complete s _ (cds_consumes s) x b _ ltac:(lia) HM) as (b' & c' & Hf).
    { intros a' b' c' La H'. apply cds_M in H' as (y' & H' & _). apply (cds_iso s x y b a' y' b' H); [|exact La|exact H']. intros c Lx Ec. destruct (is_digit c) eqn:Dc; [|reflexivity]. apply is_digit_iff in Dc. destruct (A c Lx Ec Dc). }
    pose proof Hf as Hf'. apply finditer_sound in Hf' as (_ & _ & HM'); [|apply cds_consumes]. apply cds_M in HM' as (y' & H' & ->).
    assert (y' = y). { pose proof (cds_stops s x y b H). pose proof (cds_stops s x y' b' H'). destruct H' as (L' & D' & _). apply (runs_agree s is_digit x y' y); auto; lia. } subst y'.
    exists x, b', [(1, (x, y))]. split; [exact Hf|]. rewrite cds_kids. split; [|left; rewrite (proj2 R); reflexivity]. intros k [<-|[]]. apply (hundred_iff s _ (slice x y s)); [reflexivity|]. rewrite (proj2 R). exact V.
Qed.
Print Assumptions C89_cds.
Example C89_cds_ex : shown cd_count_rx (lit "2CDs x3-cd 100cd a12.cdx") = [(0, 1, lit "cd_count", MvInt 2); (6, 7, lit "cd_count", MvInt 3); (18, 20, lit "cd_count", MvInt 12)].
Proof. vm_compute. reflexivity. Qed.
