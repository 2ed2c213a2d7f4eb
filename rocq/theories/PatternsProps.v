(** Which texts the simple patterns recognise: years, weeks, checksums, sizes, bit rates, films, bonuses, discs,
    resolutions, extensions and words (C84 to C88). *)
From Verif Require Import Py PyFacts Text TextFacts WordsProofs Regex CrcProofs DateProofs RegexFacts Numeral NumeralProofs Date Quantity QuantityProofs QuantityProps Rebulk RebulkFacts Episodes EpisodeRulesProps IntProps Patterns.
From Coq Require Import Arith QArith ZifyBool ZifyNat ZifyN.
Local Open Scope nat_scope.

(** ** Specification *)
(** the text from [a] to [b] is between separators or the ends of the input *)
Definition alone (s : str) (a b : nat) : Prop :=
  (forall c, 0 < a -> nth_error s (a - 1) = Some c -> In c seps) /\ (forall c, nth_error s b = Some c -> In c seps).
(** the text [t] is written from [a] to [b] *)
Definition reads (s : str) (a b : nat) (t : str) : Prop := a <= b <= List.length s /\ slice a b s = t.
Definition number (t : str) : Prop := t <> [] /\ forall c, In c t -> (48 <= c <= 57)%N.
(** no digit just before or just after *)
Definition no_digit_after (s : str) (b : nat) : Prop := forall c, nth_error s b = Some c -> ~ (48 <= c <= 57)%N.
(** nothing, or one separator that is not a slash *)
Definition maybe_sep (t : str) : Prop := t = [] \/ exists c, t = [c] /\ In c seps /\ c <> 47%N /\ c <> 92%N.

(** ** Lemmas *)
Lemma seps_alone s m : seps_surround s m = true <-> alone s (m_start m) (m_end m).
Proof.
  unfold seps_surround, alone. rewrite surrounded_iff. unfold surrounded. split; intros [A B]; (split; [|intros c E; apply cmem_In, (B c E)]).
  - intros c L E. apply cmem_In, (A (m_start m - 1) c); [lia|exact E].
  - intros i c E H. apply cmem_In, A; [lia|]. replace (m_start m - 1) with i by lia. exact H.
Qed.
Lemma rx_In p s m : In m (rx_matches p s) <-> exists a b c, In (a, b, c) (finditer s (rx_re p)) /\ In m (rx_one p s (a, b, c)).
Proof. unfold rx_matches. rewrite in_flat_map. split; [intros ([[a b] c] & H1 & H2); eauto|intros (a & b & c & H1 & H2); eauto]. Qed.
Lemma sep_nodigit c : In c seps -> is_digit c = false.
Proof. intros H. vm_compute in H. repeat (destruct H as [<-|H]; [reflexivity|]). destruct H. Qed.
Lemma sep_noalpha c : In c seps -> is_alpha c = false.
Proof. intros H. vm_compute in H. repeat (destruct H as [<-|H]; [reflexivity|]). destruct H. Qed.
Lemma slice_len (s : str) a b : a <= b <= List.length s -> List.length (slice a b s) = b - a.
Proof. intros H. unfold slice. rewrite firstn_length, skipn_length. lia. Qed.
Lemma all_in_forall s p a b : a <= b <= List.length s -> all_in s p a b <-> (forall c, In c (slice a b s) -> p c = true).
Proof.
  intros L. split.
  - intros H. apply all_in_slice in H as [H _]; [|lia]. rewrite Forall_forall in H. exact H.
  - intros H k Hk. destruct (nth_error s k) as [c|] eqn:E; [|apply nth_error_None in E; lia]. exists c. split; [reflexivity|]. apply H.
    apply nth_error_In with (n := k - a). rewrite slice_nth. destruct (Nat.ltb_spec (k - a) (b - a)); [|lia]. replace (a + (k - a)) with k by lia. exact E.
Qed.

Lemma nth_in_slice (s : str) a b k c : a <= k < b -> nth_error s k = Some c -> In c (slice a b s).
Proof. intros L E. apply nth_error_In with (n := k - a). rewrite slice_nth. destruct (Nat.ltb_spec (k - a) (b - a)); [|lia]. replace (a + (k - a)) with k by lia. exact E. Qed.
Lemma digits_iff s a b : a <= b <= List.length s -> a < b -> all_in s is_digit a b <-> number (slice a b s).
Proof.
  intros L L'. rewrite (all_in_forall s is_digit a b L). unfold number. split.
  - intros H. split; [intros E; pose proof (slice_len s a b L) as E'; rewrite E in E'; cbn [List.length] in E'; lia|]. intros c Hc. apply is_digit_iff, H, Hc.
  - intros [_ H] c Hc. apply is_digit_iff, H, Hc.
Qed.
Lemma all_in_len s p a b : a < b -> all_in s p a b -> b <= List.length s.
Proof. intros L H. destruct (H (b - 1) ltac:(lia)) as (x & E & _). apply nth_error_lt in E. lia. Qed.

(** an expression whose characters are never separators is found wherever it is alone *)
Section Solid.
  Context (s : str) (p : N -> bool) (Hp : forall c, In c seps -> p c = false).
  Lemma rep_consumes n : 0 < n -> consumes s (rrep (RChr p) n).
  Proof. intros L i c j d H. apply M_rep in H as (-> & _ & _). lia. Qed.
  Lemma solid_before a a' b' : (forall c, 0 < a -> nth_error s (a - 1) = Some c -> In c seps) -> a' < a -> all_in s p a' b' -> b' <= a.
  Proof.
    intros A L H. destruct (Nat.le_gt_cases b' a) as [|G]; [assumption|exfalso]. destruct (H (a - 1) ltac:(lia)) as (x & E & Ex).
    rewrite (Hp x) in Ex; [discriminate|]. apply A; [lia|exact E].
  Qed.
  Lemma rep_found n a b c : 0 < n -> alone s a b ->
    In (a, b, c) (finditer s (rrep (RChr p) n)) <-> b = a + n /\ c = [] /\ all_in s p a b.
  Proof.
    intros L [A B]. split.
    - intros H. apply finditer_sound in H as (_ & _ & H); [|apply rep_consumes, L]. apply M_rep in H. exact H.
    - intros (-> & -> & H). assert (Hl : a + n <= List.length s) by (apply (all_in_len s p a); [lia|exact H]).
      destruct (finditer_complete s (rrep (RChr p) n) (rep_consumes n L) a (a + n) []) as (b' & c' & Hf).
      + lia.
      + apply M_rep. auto.
      + intros a' b' c' La HM. apply M_rep in HM as (_ & _ & HM). exact (solid_before a a' b' A La HM).
      + pose proof Hf as Hf'. apply finditer_sound in Hf' as (_ & _ & HM); [|apply rep_consumes, L]. apply M_rep in HM as (-> & -> & _). exact Hf.
  Qed.
End Solid.

(** ** C84: years, weeks and checksums *)
(** a year is four digits standing alone, from 1920 to 2029 *)
Theorem C84_year s m : In m (rx_matches year_rx s) <->
  exists a t, reads s a (a + 4) t /\ number t /\ alone s a (a + 4) /\ (1920 <= value_of t < 2030)%Z /\
    m = simple a (a + 4) (lit "year") (MvInt (value_of t)) [].
Proof.
  rewrite rx_In. cbn [rx_re year_rx]. split.
  - intros (a & b & c & Hf & Hm). unfold rx_one in Hm. cbn [rx_children rx_validate_all rx_private_parent rx_valid rx_child_valid year_rx negb orb] in Hm.
    match type of Hm with context [if ?x && true then _ else _] => destruct x eqn:V end; [|destruct Hm]. cbn [andb app] in Hm.
    destruct Hm as [Hm|[]]. apply Bool.andb_true_iff in V as [V1 V2]. apply seps_alone in V1. cbn [rx_parent m_start m_end] in V1.
    apply (rep_found s is_digit sep_nodigit 4 a b c ltac:(lia) V1) in Hf as (-> & -> & H). pose proof (all_in_len s is_digit a (a + 4) ltac:(lia) H) as L.
    exists a, (slice a (a + 4) s). split; [split; [lia|reflexivity]|]. split; [apply digits_iff; [lia|lia|exact H]|]. split; [exact V1|].
    split; [unfold number_is in V2; cbn in V2; unfold valid_year in V2; fold (value_of (slice a (a + 4) s)) in V2; unfold dec in V2; unfold value_of; lia|].
    rewrite <- Hm. reflexivity.
  - intros (a & t & [L E] & N & A & V & ->). subst t. exists a, (a + 4), []. split.
    + apply (rep_found s is_digit sep_nodigit 4 a (a + 4) [] ltac:(lia) A). split; [reflexivity|]. split; [reflexivity|]. apply digits_iff; [lia|lia|exact N].
    + unfold rx_one. cbn [rx_children rx_validate_all rx_private_parent rx_valid rx_child_valid year_rx negb orb]. 
      match goal with |- context [if ?x && true then _ else _] => assert (V' : x = true) end.
      { apply Bool.andb_true_iff. split; [apply seps_alone; exact A|]. unfold number_is. cbn. unfold valid_year, dec. unfold value_of in V. lia. }
      rewrite V'. left. reflexivity.
Qed.
Print Assumptions C84_year.
Example C84_year_ex : map (fun m => (m_start m, m_value m)) (rx_matches year_rx (lit "2001 A.Space.1968-x1999 [2010]")) = [(0, MvInt 2001); (13, MvInt 1968); (25, MvInt 2010)].
Proof. vm_compute. reflexivity. Qed.
(** a checksum is eight hexadecimal digits standing alone *)
Definition hexadecimal (c : char) : Prop := (48 <= c <= 57)%N \/ (65 <= c <= 70)%N \/ (97 <= c <= 102)%N.
Lemma hex_iff c : hex c = true <-> hexadecimal c.
Proof.
  unfold hex, hexadecimal. rewrite Bool.orb_true_iff, cmem_In, is_digit_iff. unfold to_lower. destruct (is_upper c) eqn:U; unfold is_upper in U.
  - split; [intros [H|H]; [|auto]|intros [H|[H|H]]; [auto| |lia]].
    + right; left. change (lit "abcdef") with [97; 98; 99; 100; 101; 102]%N in H. cbn [In] in H. lia.
    + left. assert (K : c = 65%N \/ c = 66%N \/ c = 67%N \/ c = 68%N \/ c = 69%N \/ c = 70%N) by lia.
      repeat (destruct K as [->|K]; [vm_compute; tauto|]). subst. vm_compute. tauto.
  - split; [intros [H|H]; [|auto]|intros [H|[H|H]]; [auto|lia|]].
    + right; right. change (lit "abcdef") with [97; 98; 99; 100; 101; 102]%N in H. cbn [In] in H. lia.
    + left. assert (K : c = 97%N \/ c = 98%N \/ c = 99%N \/ c = 100%N \/ c = 101%N \/ c = 102%N) by lia.
      repeat (destruct K as [->|K]; [vm_compute; tauto|]). subst. vm_compute. tauto.
Qed.
Lemma sep_nohex c : In c seps -> hex c = false.
Proof. intros H. vm_compute in H. repeat (destruct H as [<-|H]; [reflexivity|]). destruct H. Qed.
Theorem C84_crc s m : In m (rx_matches crc_rx s) <->
  exists a t, reads s a (a + 8) t /\ (forall c, In c t -> hexadecimal c) /\ alone s a (a + 8) /\ m = simple a (a + 8) (lit "crc32") (MvStr t) [].
Proof.
  rewrite rx_In. cbn [rx_re crc_rx]. split.
  - intros (a & b & c & Hf & Hm). unfold rx_one in Hm. cbn [rx_children rx_validate_all rx_private_parent rx_valid rx_child_valid crc_rx negb orb] in Hm.
    match type of Hm with context [if ?x && true then _ else _] => destruct x eqn:V1 end; [|destruct Hm]. cbn [andb app] in Hm.
    destruct Hm as [Hm|[]]. apply seps_alone in V1. cbn [rx_parent m_start m_end] in V1.
    apply (rep_found s hex sep_nohex 8 a b c ltac:(lia) V1) in Hf as (-> & -> & H). pose proof (all_in_len s hex a (a + 8) ltac:(lia) H) as L.
    exists a, (slice a (a + 8) s). split; [split; [lia|reflexivity]|]. split; [|split; [exact V1|rewrite <- Hm; reflexivity]].
    intros c Hc. apply hex_iff. exact (proj1 (all_in_forall s hex a (a + 8) ltac:(lia)) H c Hc).
  - intros (a & t & [L E] & N & A & ->). subst t. exists a, (a + 8), []. split.
    + apply (rep_found s hex sep_nohex 8 a (a + 8) [] ltac:(lia) A). split; [reflexivity|]. split; [reflexivity|]. apply all_in_forall; [lia|]. intros c Hc. apply hex_iff, N, Hc.
    + unfold rx_one. cbn [rx_children rx_validate_all rx_private_parent rx_valid rx_child_valid crc_rx negb orb].
      match goal with |- context [if ?x && true then _ else _] => assert (V' : x = true) by (apply seps_alone; exact A) end.
      rewrite V'. left. reflexivity.
Qed.
Print Assumptions C84_crc.
Example C84_crc_ex : map (fun m => (m_start m, m_value m)) (rx_matches crc_rx (lit "Show.[1234aBcD] x12345678 12345678")) = [(6, MvStr (lit "1234aBcD")); (26, MvStr (lit "12345678"))].
Proof. vm_compute. reflexivity. Qed.

(** ** groups as matches *)
(** the part from [x] to [y] of what was recognised from [a] to [b] *)
Definition group_match (a b : nat) (pattern : str) (x y : nat) (name : str) (v : mval) : mt :=
  mk_mt x y name v [] false x y (Some (mk_p a b pattern [])) [].
Definition public (ms : list mt) (m : mt) : Prop := In m ms /\ m_private m = false.

Lemma app_inj_len {A} (u v u' v' : list A) : List.length u = List.length u' -> u ++ v = u' ++ v' -> u = u' /\ v = v'.
Proof.
  revert u'. induction u as [|x u IH]; intros [|y u'] L E; try discriminate; [auto|]. cbn [app] in E. injection E as -> E. injection L as L. destruct (IH u' L E) as [-> ->]. auto.
Qed.
Lemma one_child p s a b c n nm x y m : rx_children p = true -> rx_tags p = [] -> rx_names p = [(n, nm)] -> group n c = Some (x, y) ->
  (In m (rx_one p s (a, b, c)) /\ m_private m = false) <->
  (rx_validate_all p = true -> rx_valid p s (rx_parent p s a b c) = true) /\
  rx_child_valid p s (group_match a b (rx_name p) x y nm (rx_value p nm (slice x y s))) = true /\
  m = group_match a b (rx_name p) x y nm (rx_value p nm (slice x y s)).
Proof.
  intros Hc Ht Hn Hg. unfold rx_one.
  assert (K : rx_kids p s c = [mk_c x y nm (rx_value p nm (slice x y s))]) by (unfold rx_kids; rewrite Hn; cbn [flat_map fst snd]; rewrite Hg, Hc; reflexivity).
  assert (P : map (rx_child p a b) (rx_kids p s c) = [group_match a b (rx_name p) x y nm (rx_value p nm (slice x y s))]) by (rewrite K; cbn [map]; unfold rx_child, group_match; rewrite Ht; reflexivity).
  rewrite P, Hc. cbn [negb orb forallb]. rewrite Bool.andb_true_r. set (g := group_match _ _ _ _ _ _ _) in *.
  assert (Q : m_private (rx_parent p s a b c) = true) by (unfold rx_parent; cbn [m_private]; exact Hc).
  set (v := if rx_validate_all p then rx_valid p s (rx_parent p s a b c) else true).
  assert (V : v = true <-> (rx_validate_all p = true -> rx_valid p s (rx_parent p s a b c) = true)).
  { unfold v. destruct (rx_validate_all p); split; auto. discriminate. }
  rewrite <- V. destruct v; cbn [andb]; [|split; [intros [[] _]|intros [? _]; discriminate]].
  destruct (rx_child_valid p s g); [|split; [intros [[] _]|intros (_ & ? & _); discriminate]].
  split.
  - intros [H E]. split; [reflexivity|]. split; [reflexivity|]. apply in_app_iff in H as [H|[H|[]]]; [|symmetry; exact H].
    destruct (rx_private_parent p); [|destruct H]. destruct H as [<-|[]]. congruence.
  - intros (_ & _ & ->). split; [apply in_app_iff; right; left; reflexivity|reflexivity].
Qed.
Lemma cut2 (s : str) a x b c t : a <= x -> reads s a b (c :: t) -> x = S a -> reads s x b t /\ nth_error s a = Some c.
Proof.
  intros _ [L E] ->. assert (La : a < b). { pose proof (slice_len s a b L) as E'. rewrite E in E'. cbn [List.length] in E'. lia. }
  destruct (nth_error s a) as [d|] eqn:Ed; [|apply nth_error_None in Ed; lia].
  rewrite (slice_app s a (S a) b) in E by lia. rewrite (slice_one s a d Ed) in E. injection E as E1 E2. subst c t. split; [split; [lia|reflexivity]|reflexivity].
Qed.
Lemma lower_is c x : is_lower x = true -> to_lower c = x <-> c = x \/ c = (x - 32)%N.
Proof. intros H. unfold is_lower in H. unfold to_lower. destruct (is_upper c) eqn:U; unfold is_upper in U; lia. Qed.
Lemma one_of_iff s x i c j d : M s (one_of [x]) i c j d <-> d = c /\ j = S i /\ exists y, nth_error s i = Some y /\ to_lower y = x.
Proof.
  unfold one_of. rewrite M_chr_iff. split; intros (A & B & y & E & Hy); (split; [exact A|]; split; [exact B|]; exists y; split; [exact E|]).
  - apply cmem_In in Hy as [Hy|[]]. auto.
  - apply cmem_In. left. auto.
Qed.
Lemma sep_lower_alpha c x : In c seps -> is_lower x = true -> to_lower c <> x.
Proof. intros H Hx E. vm_compute in H. repeat (destruct H as [<-|H]; [vm_compute in E; subst x; discriminate|]). destruct H. Qed.
Lemma stops_sep s b : (forall c, nth_error s b = Some c -> In c seps) -> stops s is_digit b.
Proof. intros H c E. apply sep_nodigit, H, E. Qed.

(** one letter then digits: [f12], [x3] *)
Section Letter.
  Context (s : str) (x : N) (Hx : is_lower x = true) (tail : re) (ok : nat -> nat -> Prop).
  (** [tail] is a greedy sequence of digits; [ok] says how many *)
  Context (Ht : forall i c j d, M s tail i c j d <-> d = c /\ i < j /\ all_in s is_digit i j /\ ok i j).
  Context (Hmax : forall i c j d y, mtch s tail i c (fun j c => Some (j, (1, (i, j)) :: c)) = Some (y, d) -> all_in s is_digit i j -> ok i j -> i < j -> j <= y).
  Let r := RSeq (one_of [x]) (RGrp 1 tail).
  Lemma letter_M a c b d : M s r a c b d <-> d = (1, (S a, b)) :: c /\ (exists y, nth_error s a = Some y /\ to_lower y = x) /\ S a < b /\ all_in s is_digit (S a) b /\ ok (S a) b.
  Proof.
    unfold r. split.
    - intros H. apply M_seq_inv in H as (j & e & H1 & H2). apply one_of_iff in H1 as (-> & -> & H1). apply M_grp_inv in H2 as (f & -> & H2).
      apply Ht in H2 as (-> & H3 & H4 & H5). auto.
    - intros (-> & H1 & H2 & H3 & H4). apply (M_seq _ _ _ a c (S a) c); [apply one_of_iff; auto|]. constructor. apply Ht. auto.
  Qed.
  Lemma letter_consumes : consumes s r.
  Proof. intros i c j d H. apply letter_M in H as (_ & _ & H & _). clear - H. lia. Qed.
  Lemma letter_found a b c : alone s a b -> In (a, b, c) (finditer s r) <->
    c = [(1, (S a, b))] /\ (exists y, nth_error s a = Some y /\ to_lower y = x) /\ S a < b /\ all_in s is_digit (S a) b /\ ok (S a) b.
  Proof.
    intros [A B]. split; [intros H; apply finditer_sound in H as (_ & _ & H); [|apply letter_consumes]; apply letter_M in H; exact H|].
    intros H. assert (HM : M s r a [] b c) by (apply letter_M; exact H). destruct H as (-> & (y & Ey & Hy) & L & D & O).
    assert (La : a < List.length s) by (apply nth_error_lt in Ey; exact Ey).
    destruct (finditer_complete s r letter_consumes a b [(1, (S a, b))] ltac:(lia) HM) as (b' & c' & Hf).
    { intros a' b' c' L' H'. apply letter_M in H' as (_ & (z & Ez & Hz) & L2 & D2 & _).
      destruct (Nat.le_gt_cases b' a) as [|G]; [assumption|exfalso].
      destruct (nth_error s (a - 1)) as [w|] eqn:Ew; [|apply nth_error_None in Ew; lia]. specialize (A w ltac:(lia) eq_refl).
      destruct (Nat.eq_dec a' (a - 1)) as [E|Ne].
      - subst a'. rewrite Ew in Ez. injection Ez as ->. exact (sep_lower_alpha z x A Hx Hz).
      - destruct (D2 (a - 1) ltac:(lia)) as (v & Ev & Dv). rewrite Ew in Ev. injection Ev as ->. rewrite (sep_nodigit v A) in Dv. discriminate. }
    pose proof Hf as Hf'. apply finditer_sound in Hf' as (L3 & Hat & HM'); [|apply letter_consumes].
    apply letter_M in HM' as (-> & _ & L4 & D4 & _).
    assert (E : b' = b).
    { apply Nat.le_antisymm.
      - destruct (Nat.le_gt_cases b' b) as [|G]; [assumption|exfalso]. destruct (D4 b ltac:(lia)) as (v & Ev & Dv). rewrite (sep_nodigit v (B v Ev)) in Dv. discriminate.
      - unfold match_at, r in Hat. apply mtch_seq in Hat as (j & e & H1 & H2). apply one_of_iff in H1 as (-> & -> & _). cbn [mtch] in H2.
        eapply Hmax; eassumption. }
    subst b'. exact Hf.
  Qed.
End Letter.

(** ** C85: films, bonuses and weeks *)
Lemma range12_max s i c j d y : mtch s (rrange digit 1 2) i c (fun j c => Some (j, (1, (i, j)) :: c)) = Some (y, d) -> all_in s is_digit i j -> j <= i + 2 -> i < j -> j <= y.
Proof.
  intros H D L L2. apply range_greedy in H as (k & H1 & H2 & H3 & H4); [|lia|discriminate]. injection H4 as <- _. destruct H3 as [->|H3]; [lia|].
  destruct (Nat.le_gt_cases j k) as [|G]; [assumption|exfalso]. apply (stops_all s is_digit k i j H3 D). lia.
Qed.
Lemma plus_max_j s i c j d y : mtch s digits1 i c (fun j c => Some (j, (1, (i, j)) :: c)) = Some (y, d) -> all_in s is_digit i j -> i < j -> j <= y.
Proof.
  intros H D L. apply plus_max in H as (k & H1 & H2 & H3 & H4); [|discriminate]. injection H4 as <- _.
  destruct (Nat.le_gt_cases j k) as [|G]; [assumption|exfalso]. apply (stops_all s is_digit k i j H3 D). lia.
Qed.
Lemma M_12 s i c j d : M s (rrange digit 1 2) i c j d <-> d = c /\ i < j /\ all_in s is_digit i j /\ j <= i + 2.
Proof. unfold digit. rewrite M_range_iff by lia. split; intros (A & B); (split; [exact A|]); [split; [lia|]; split; [tauto|lia]|split; [lia|tauto]]. Qed.
Lemma M_p s i c j d : M s digits1 i c j d <-> d = c /\ i < j /\ all_in s is_digit i j /\ True.
Proof. unfold digits1, digit. rewrite M_plus. tauto. Qed.

(** [f] and one or two digits, alone *)
Theorem C85_film s m : public (rx_matches film_rx s) m <->
  exists a b f t, reads s a b (f :: t) /\ (f = 102 \/ f = 70)%N /\ number t /\ List.length t <= 2 /\ alone s a b /\
    m = group_match a b (lit "film") (S a) b (lit "film") (MvInt (value_of t)).
Proof.
  assert (F : forall a b c, alone s a b -> In (a, b, c) (finditer s (rx_re film_rx)) <->
    c = [(1, (S a, b))] /\ (exists y, nth_error s a = Some y /\ to_lower y = 102%N) /\ S a < b /\ all_in s is_digit (S a) b /\ b <= S a + 2).
  { intros a b c A. apply (letter_found s 102%N eq_refl (rrange digit 1 2) (fun i j => j <= i + 2)); [intros; apply M_12|intros i c' j d y H1 H2 H3 H4; eapply range12_max; eassumption|exact A]. }
  unfold public. rewrite rx_In. split.
  - intros [(a & b & c & Hf & Hm) Pm]. pose proof Hf as HM. apply finditer_sound in HM as (_ & _ & HM); [|apply (letter_consumes s 102%N (rrange digit 1 2) (fun i j => j <= i + 2)); intros; apply M_12].
    apply (letter_M s 102%N (rrange digit 1 2) (fun i j => j <= i + 2)) in HM; [|intros; apply M_12]. destruct HM as (-> & (y & Ey & Hy) & L & D & O).
    destruct (proj1 (one_child film_rx s a b [(1, (S a, b))] 1 (lit "film") (S a) b m eq_refl eq_refl eq_refl eq_refl) (conj Hm Pm)) as (V & _ & ->).
    specialize (V eq_refl). apply seps_alone in V. cbn [rx_parent m_start m_end] in V. pose proof (all_in_len s is_digit (S a) b L D) as Lb.
    exists a, b, y, (slice (S a) b s). split; [split; [lia|]; rewrite (slice_app s a (S a) b) by lia; rewrite (slice_one s a y Ey); reflexivity|].
    split; [apply (lower_is y 102) in Hy; [|reflexivity]; lia|]. split; [apply digits_iff; [lia|lia|exact D]|]. split; [rewrite slice_len by lia; lia|]. split; [exact V|]. reflexivity.
  - intros (a & b & f & t & R & Hf & N & L & A & ->). pose proof (cut2 s a (S a) b f t ltac:(lia) R eq_refl) as [[R1 R2] Ef].
    assert (Lt : S a < b). { destruct N as [N _]. destruct (Nat.eq_dec (S a) b) as [E|]; [|lia]. subst b. destruct N. rewrite <- R2. unfold slice. rewrite Nat.sub_diag. reflexivity. }
    assert (Lb : List.length t = b - S a) by (rewrite <- R2; apply slice_len; exact R1).
    split; [|reflexivity]. exists a, b, [(1, (S a, b))]. split.
    + apply F; [exact A|]. split; [reflexivity|]. split; [exists f; split; [exact Ef|]; destruct Hf as [->| ->]; reflexivity|]. split; [exact Lt|]. split; [|lia].
      apply digits_iff; [exact R1|exact Lt|]. rewrite R2. exact N.
    + apply (proj2 (one_child film_rx s a b [(1, (S a, b))] 1 (lit "film") (S a) b _ eq_refl eq_refl eq_refl eq_refl)). split; [intros _; apply seps_alone; exact A|]. split; [reflexivity|].
      rewrite R2. reflexivity.
Qed.
Print Assumptions C85_film.
Example C85_film_ex : map (fun m => (m_start m, m_value m)) (filter (fun m => negb (m_private m)) (rx_matches film_rx (lit "James_Bond-F21-casino f100.f7f"))) = [(12, MvInt 21)].
Proof. vm_compute. reflexivity. Qed.

(** [x] and digits, alone *)
Theorem C85_bonus s m : public (rx_matches bonus_rx s) m <->
  exists a b x t, reads s a b (x :: t) /\ (x = 120 \/ x = 88)%N /\ number t /\ alone s a b /\
    m = group_match a b (lit "bonus") (S a) b (lit "bonus") (MvInt (value_of t)).
Proof.
  assert (F : forall a b c, alone s a b -> In (a, b, c) (finditer s (rx_re bonus_rx)) <->
    c = [(1, (S a, b))] /\ (exists y, nth_error s a = Some y /\ to_lower y = 120%N) /\ S a < b /\ all_in s is_digit (S a) b /\ True).
  { intros a b c A. apply (letter_found s 120%N eq_refl digits1 (fun _ _ => True)); [intros; apply M_p|intros i c' j d y H1 H2 H3 H4; eapply plus_max_j; eassumption|exact A]. }
  unfold public. rewrite rx_In. split.
  - intros [(a & b & c & Hf & Hm) Pm]. pose proof Hf as HM. apply finditer_sound in HM as (_ & _ & HM); [|apply (letter_consumes s 120%N digits1 (fun _ _ => True)); intros; apply M_p].
    apply (letter_M s 120%N digits1 (fun _ _ => True)) in HM; [|intros; apply M_p]. destruct HM as (-> & (y & Ey & Hy) & L & D & _).
    destruct (proj1 (one_child bonus_rx s a b [(1, (S a, b))] 1 (lit "bonus") (S a) b m eq_refl eq_refl eq_refl eq_refl) (conj Hm Pm)) as (V & _ & ->).
    specialize (V eq_refl). apply seps_alone in V. cbn [rx_parent m_start m_end] in V. pose proof (all_in_len s is_digit (S a) b L D) as Lb.
    exists a, b, y, (slice (S a) b s). split; [split; [lia|]; rewrite (slice_app s a (S a) b) by lia; rewrite (slice_one s a y Ey); reflexivity|].
    split; [apply (lower_is y 120) in Hy; [|reflexivity]; lia|]. split; [apply digits_iff; [lia|lia|exact D]|]. split; [exact V|]. reflexivity.
  - intros (a & b & f & t & R & Hf & N & A & ->). pose proof (cut2 s a (S a) b f t ltac:(lia) R eq_refl) as [[R1 R2] Ef].
    assert (Lt : S a < b). { destruct N as [N _]. destruct (Nat.eq_dec (S a) b) as [E|]; [|lia]. subst b. destruct N. rewrite <- R2. unfold slice. rewrite Nat.sub_diag. reflexivity. }
    split; [|reflexivity]. exists a, b, [(1, (S a, b))]. split.
    + apply F; [exact A|]. split; [reflexivity|]. split; [exists f; split; [exact Ef|]; destruct Hf as [->| ->]; reflexivity|]. split; [exact Lt|]. split; [|exact I].
      apply digits_iff; [exact R1|exact Lt|]. rewrite R2. exact N.
    + apply (proj2 (one_child bonus_rx s a b [(1, (S a, b))] 1 (lit "bonus") (S a) b _ eq_refl eq_refl eq_refl eq_refl)). split; [intros _; apply seps_alone; exact A|]. split; [reflexivity|].
      rewrite R2. reflexivity.
Qed.
Print Assumptions C85_bonus.
Example C85_bonus_ex : map (fun m => (m_start m, m_value m)) (filter (fun m => negb (m_private m)) (rx_matches bonus_rx (lit "Movie-x02-making.of X100 1x03"))) = [(7, MvInt 2); (21, MvInt 100)].
Proof. vm_compute. reflexivity. Qed.

(** a word such as [week], a separator, and a number from 1 to 52 of one or two digits; what precedes the word does not matter *)
Lemma M_dash_opt s i c j d : M s dash_opt i c j d <-> d = c /\ (j = i \/ (j = S i /\ exists y, nth_error s i = Some y /\ cmem y seps_no_fs = true)).
Proof.
  unfold dash_opt, dash. split.
  - intros H. apply M_opt1_inv in H as [H|[-> ->]]; [|auto]. apply M_chr_iff in H as (-> & -> & H). auto.
  - intros [-> [->|[-> H]]]; [apply M_opt0|apply M_opt1, M_chr_iff; auto].
Qed.
Lemma no_fs_iff c : cmem c seps_no_fs = true <-> In c seps /\ c <> 47%N /\ c <> 92%N.
Proof.
  rewrite cmem_In. unfold seps_no_fs. rewrite filter_In, Bool.negb_true_iff. split; intros [A B]; (split; [exact A|]).
  - split; intros ->; discriminate.
  - destruct (cmem c (lit "/\")) eqn:E; [|reflexivity]. apply cmem_In in E. change (lit "/\") with [47; 92]%N in E. destruct E as [E|[E|[]]]; destruct B; congruence.
Qed.
Section Week.
  Context (s : str) (w : str) (Hw : w <> []) (Hl : forall c, In c w -> is_lower c = true).
  Definition week_at (a x b : nat) : Prop := exists j, j = a + List.length w /\ lower (slice a j s) = w /\ (x = j \/ (x = S j /\ exists y, nth_error s j = Some y /\ cmem y seps_no_fs = true)) /\
    x < b <= x + 2 /\ all_in s is_digit x b.
  Lemma week_M a c b d : a <= List.length s -> M s (rx_re (week_rx [w])) a c b d <-> exists x, d = (1, (x, b)) :: c /\ week_at a x b.
  Proof.
    intros La. cbn [rx_re week_rx rwords]. split.
    - intros H. apply M_seq_inv in H as (j & e & H1 & H). apply M_rlit in H1 as (-> & -> & L & E); [|exact La]. apply M_seq_inv in H as (x & e & H2 & H3). apply M_dash_opt in H2 as [-> H2].
      apply M_grp_inv in H3 as (e & -> & H3). apply M_12 in H3 as (-> & H3 & H4 & H5). exists x. split; [reflexivity|]. exists (a + List.length w). split; [reflexivity|]. split; [exact E|]. split; [exact H2|]. split; [lia|exact H4].
    - intros (x & -> & j & -> & E & H2 & H3 & H4). pose proof (all_in_len s is_digit x b ltac:(lia) H4) as L.
      apply (M_seq _ _ _ a c (a + List.length w) c); [apply M_rlit; [exact La|]; split; [reflexivity|]; split; [reflexivity|]; split; [lia|exact E]|].
      apply (M_seq _ _ _ _ c x c); [apply M_dash_opt; auto|]. constructor. apply M_12. split; [reflexivity|]. split; [lia|]. split; [exact H4|lia].
  Qed.
  Lemma week_consumes : consumes s (rx_re (week_rx [w])).
  Proof.
    intros i c j d H. destruct (Nat.le_gt_cases i (List.length s)) as [L|L].
    - apply week_M in H as (x & _ & k & -> & _ & Hx & Hb & _); [|exact L]. lia.
    - cbn [rx_re week_rx rwords] in H. destruct w as [|y w'] eqn:Ew; [congruence|]. cbn [rlit] in H. apply M_seq_inv in H as (j1 & e & H1 & _). apply M_seq_inv in H1 as (j2 & e2 & H1 & _).
      apply M_chr_inv in H1 as (_ & _ & z & Ez & _). apply nth_error_lt in Ez. lia.
  Qed.
  Lemma w_char k : k < List.length w -> exists x, nth_error w k = Some x /\ is_lower x = true.
  Proof. intros L. destruct (nth_error w k) as [x|] eqn:E; [|apply nth_error_None in E; lia]. exists x. split; [reflexivity|]. apply Hl. apply nth_error_In with k. exact E. Qed.
  Lemma word_char a k : lower (slice a (a + List.length w) s) = w -> k < List.length w -> exists y, nth_error s (a + k) = Some y /\ is_alpha y = true.
  Proof.
    intros E L. destruct (w_char k L) as (x & Ex & Lx). rewrite <- E in Ex. unfold lower in Ex. rewrite nth_error_map, slice_nth in Ex.
    destruct (Nat.ltb_spec k (a + List.length w - a)); [|lia]. destruct (nth_error s (a + k)) as [y|]; [|discriminate]. exists y. split; [reflexivity|].
    cbn [option_map] in Ex. injection Ex as Ex. unfold is_alpha. unfold to_lower in Ex. destruct (is_upper y) eqn:U; [reflexivity|]. rewrite Ex, Lx. reflexivity.
  Qed.
  (** the word before a number is where it is *)
  Lemma week_iso a x b a' x' b' : week_at a x b -> week_at a' x' b' -> a' < a -> b' <= a.
  Proof.
    intros (j & -> & E & Hx & Hb & D) (j' & -> & E' & Hx' & Hb' & D') La. destruct (Nat.le_gt_cases b' a) as [|G]; [assumption|exfalso].
    assert (Lw : 0 < List.length w) by (destruct w; [congruence|cbn [List.length]; lia]).
    assert (Alpha : forall z, is_alpha z = true -> is_digit z = false /\ cmem z seps_no_fs = false).
    { intros z Hz. split; [unfold is_alpha, is_upper, is_lower, is_digit in *; lia|]. destruct (cmem z seps_no_fs) eqn:Ez; [|reflexivity]. apply no_fs_iff in Ez as [Ez _]. rewrite (sep_noalpha z Ez) in Hz. discriminate. }
    (* the letters of the second word end where those of the first end *)
    destruct (word_char a (List.length w - 1) E ltac:(lia)) as (z & Ez & Az).
    destruct (Alpha z Az) as [Dz Sz].
    set (k := a + (List.length w - 1)) in *.
    destruct (Nat.lt_ge_cases k (a' + List.length w)) as [K|K]; [unfold k in K; lia|].
    (* the character just after the first word is a separator or a digit, and is in the second word *)
    assert (In2 : a <= a' + List.length w <= k \/ a' + List.length w < a) by (unfold k; lia).
    destruct In2 as [I|I].
    - destruct (word_char a (a' + List.length w - a) E ltac:(unfold k in I; lia)) as (v & Ev & Av). replace (a + (a' + List.length w - a)) with (a' + List.length w) in Ev by lia.
      destruct (Alpha v Av) as [Dv Sv]. destruct Hx' as [->|(-> & y & Ey & Sy)]; [|congruence]. destruct (D' (a' + List.length w) ltac:(lia)) as (u & Eu & Du). congruence.
    - destruct (word_char a 0 E Lw) as (v & Ev & Av). rewrite Nat.add_0_r in Ev. destruct (Alpha v Av) as [Dv Sv].
      destruct (D' a ltac:(lia)) as (u & Eu & Du). congruence.
  Qed.
  Lemma week_found a x b : (forall c, nth_error s b = Some c -> In c seps) -> week_at a x b -> In (a, b, [(1, (x, b))]) (finditer s (rx_re (week_rx [w]))).
  Proof.
    intros B W. assert (La : a <= List.length s). { destruct W as (j & -> & _ & Hx & Hb & D). pose proof (all_in_len s is_digit x b ltac:(lia) D). lia. }
    destruct (finditer_complete s _ week_consumes a b [(1, (x, b))] La) as (b' & c' & Hf).
    - apply week_M; [exact La|]. exists x. auto.
    - intros a' b' c' L H. assert (La' : a' <= List.length s) by lia. apply week_M in H as (x' & _ & H); [|exact La']. exact (week_iso a x b a' x' b' W H L).
    - pose proof Hf as Hf'. apply finditer_sound in Hf' as (_ & Hat & HM); [|apply week_consumes]. apply week_M in HM as (x' & -> & W'); [|exact La].
      destruct W as (j & -> & E & Hx & Hb & D), W' as (j' & -> & E' & Hx' & Hb' & D').
      assert (X : x' = x).
      { assert (Ex : forall y, y = a + List.length w -> all_in s is_digit y (S y) -> x = S y -> False).
        { intros y -> H ->. destruct (H (a + List.length w) ltac:(lia)) as (u & Eu & Du). destruct Hx as [Hx|(_ & v & Ev & Sv)]; [lia|]. apply no_fs_iff in Sv as [Sv _]. rewrite Eu in Ev. injection Ev as ->. rewrite (sep_nodigit v Sv) in Du. discriminate. }
        assert (Ex' : forall y, y = a + List.length w -> all_in s is_digit y (S y) -> x' = S y -> False).
        { intros y -> H ->. destruct (H (a + List.length w) ltac:(lia)) as (u & Eu & Du). destruct Hx' as [Hx'|(_ & v & Ev & Sv)]; [lia|]. apply no_fs_iff in Sv as [Sv _]. rewrite Eu in Ev. injection Ev as ->. rewrite (sep_nodigit v Sv) in Du. discriminate. }
        destruct Hx as [Hx|[Hx _]], Hx' as [Hx'|[Hx' _]]; try lia; exfalso.
        - apply (Ex' x); [exact Hx|intros l Hl'; apply D; lia|lia].
        - apply (Ex x'); [exact Hx'|intros l Hl'; apply D'; lia|lia]. }
      subst x'. assert (Eb : b' = b).
      { apply Nat.le_antisymm.
        - destruct (Nat.le_gt_cases b' b) as [|G]; [assumption|exfalso]. destruct (D' b ltac:(lia)) as (v & Ev & Dv). rewrite (sep_nodigit v (B v Ev)) in Dv. discriminate.
        - unfold match_at in Hat. cbn [rx_re week_rx rwords] in Hat. apply mtch_seq in Hat as (j1 & e1 & H1 & Hat). apply M_rlit in H1 as (-> & -> & _ & _); [|exact La]. apply mtch_seq in Hat as (j2 & e2 & H2 & Hat). apply M_dash_opt in H2 as [-> H2].
          cbn [mtch] in Hat. pose proof Hat as Hat'. apply range_greedy in Hat as (q & Q1 & Q2 & Q3 & Q4); [|lia|discriminate]. injection Q4 as -> E4 _. subst j2.
          destruct Q3 as [->|Q3]; [lia|]. destruct (Nat.le_gt_cases b b') as [|G]; [assumption|exfalso]. apply (stops_all s is_digit b' x b Q3 D). lia. }
      subst b'. exact Hf.
  Qed.
End Week.
Theorem C85_week s w m : w <> [] -> (forall c, In c w -> (97 <= c <= 122)%N) ->
  public (rx_matches (week_rx [w]) s) m <->
  exists a b word c t, reads s a b (word ++ c :: t) /\ lower word = w /\ In c seps /\ c <> 47%N /\ c <> 92%N /\ number t /\ List.length t <= 2 /\
    (forall d, nth_error s b = Some d -> In d seps) /\ (1 <= value_of t <= 52)%Z /\
    m = group_match a b (lit "week") (b - List.length t) b (lit "week") (MvInt (value_of t)).
Proof.
  intros Hw Hl'. assert (Hl : forall c, In c w -> is_lower c = true) by (intros c Hc; specialize (Hl' c Hc); unfold is_lower; lia).
  unfold public. rewrite rx_In. split.
  - intros [(a & b & c & Hf & Hm) Pm]. apply finditer_sound in Hf as (L & _ & HM); [|apply week_consumes; assumption]. apply week_M in HM as (x & -> & j & -> & E & Hx & Hb & D); [|lia].
    destruct (proj1 (one_child (week_rx [w]) s a b [(1, (x, b))] 1 (lit "week") x b m eq_refl eq_refl eq_refl eq_refl) (conj Hm Pm)) as (_ & V & ->).
    cbn [rx_child_valid week_rx] in V. apply Bool.andb_true_iff in V as [V1 V2]. apply seps_alone in V1. cbn [group_match m_start m_end] in V1. destruct V1 as [V0 V1].
    assert (Lw : 0 < List.length w) by (destruct w; [congruence|cbn [List.length]; lia]).
    destruct Hx as [->|(-> & y & Ey & Sy)].
    { exfalso. destruct (word_char s w Hl a (List.length w - 1) E ltac:(lia)) as (z & Ez & Az). replace (a + (List.length w - 1)) with (a + List.length w - 1) in Ez by lia.
      rewrite (sep_noalpha z (V0 z ltac:(lia) Ez)) in Az. discriminate. }
    apply no_fs_iff in Sy as (S1 & S2 & S3). exists a, b, (slice a (a + List.length w) s), y, (slice (S (a + List.length w)) b s).
    assert (Lt : List.length (slice (S (a + List.length w)) b s) = b - S (a + List.length w)) by (apply slice_len; lia).
    split; [split; [lia|]; rewrite (slice_app s a (a + List.length w) b) by lia; f_equal; rewrite (slice_app s (a + List.length w) (S (a + List.length w)) b) by lia; rewrite (slice_one s _ y Ey); reflexivity|].
    split; [exact E|]. split; [exact S1|]. split; [exact S2|]. split; [exact S3|]. split; [apply digits_iff; [lia|lia|exact D]|]. split; [lia|]. split; [exact V1|].
    split; [unfold number_is in V2; cbn in V2; unfold valid_week in V2; unfold dec in V2; unfold value_of; lia|].
    rewrite Lt. replace (b - (b - S (a + List.length w))) with (S (a + List.length w)) by lia. reflexivity.
  - intros (a & b & word & c & t & [R1 R2] & E & S1 & S2 & S3 & N & L & B & V & ->). split; [|reflexivity].
    assert (Lw : List.length word = List.length w) by (rewrite <- E; unfold lower; rewrite map_length; reflexivity).
    pose proof (slice_len s a b R1) as Ls. rewrite R2, app_length in Ls. cbn [List.length] in Ls.
    assert (Lt : 0 < List.length t) by (destruct N as [N _]; destruct t; [congruence|cbn [List.length]; lia]).
    assert (P1 : slice a (a + List.length w) s = word).
    { assert (P : slice a b s = slice a (a + List.length w) s ++ slice (a + List.length w) b s) by (apply slice_app; lia). rewrite R2 in P. symmetry in P.
      assert (Q : List.length (slice a (a + List.length w) s) = List.length word) by (rewrite slice_len by lia; lia). exact (proj1 (app_inj_len _ _ _ _ Q P)). }
    assert (P2 : slice (a + List.length w) b s = c :: t).
    { assert (P : slice a b s = slice a (a + List.length w) s ++ slice (a + List.length w) b s) by (apply slice_app; lia). rewrite R2, P1 in P. apply app_inv_head in P. auto. }
    assert (P6 : reads s (a + List.length w) b (c :: t)) by (split; [lia|exact P2]).
    destruct (cut2 s (a + List.length w) (S (a + List.length w)) b c t ltac:(lia) P6 eq_refl) as [[P3 P4] P5].
    exists a, b, [(1, (S (a + List.length w), b))]. replace (b - List.length t) with (S (a + List.length w)) by lia. split.
    + apply week_found; [exact Hw|exact Hl|exact B|]. exists (a + List.length w). split; [reflexivity|]. split; [rewrite P1; exact E|].
      split; [right; split; [reflexivity|]; exists c; split; [exact P5|apply no_fs_iff; auto]|]. split; [lia|]. apply digits_iff; [lia|lia|]. rewrite P4. exact N.
    + apply (proj2 (one_child (week_rx [w]) s a b [(1, (S (a + List.length w), b))] 1 (lit "week") (S (a + List.length w)) b _ eq_refl eq_refl eq_refl eq_refl)). split; [discriminate|]. cbn [rx_value week_rx rx_name]. rewrite P4. split; [|reflexivity].
      cbn [rx_child_valid week_rx]. apply Bool.andb_true_iff. split; [|change (valid_week (value_of t) = true); unfold valid_week; lia].
      apply seps_alone. cbn [group_match m_start m_end]. split; [|exact B]. intros d _ Ed. replace (S (a + List.length w) - 1) with (a + List.length w) in Ed by lia. congruence.
Qed.
Print Assumptions C85_week.
Example C85_week_ex : map (fun m => (m_start m, m_value m)) (filter (fun m => negb (m_private m)) (rx_matches (week_rx [lit "week"]) (lit "S32-Week 45-Ep biweek 2 week12 week 60"))) = [(9, MvInt 45); (22, MvInt 2)].
Proof. vm_compute. reflexivity. Qed.

(** ** C86: sizes and bit rates *)
(** a public match of that name and value is found from [a] to [b] *)
Definition shows (ms : list mt) (a b : nat) (name : str) (v : mval) : Prop :=
  exists m, In m ms /\ m_start m = a /\ m_end m = b /\ m_name m = name /\ m_value m = v /\ m_private m = false.
(** a number as written, with or without a fraction, and its value *)
Inductive amount : str -> Q -> Prop :=
| whole d : number d -> amount d (inject_Z (value_of d))
| fraction d e : number d -> number e -> amount (d ++ 46%N :: e) (Qred (value_of (d ++ e) # Pos.pow 10 (Pos.of_nat (List.length e)))).

Lemma alpha_props z : is_alpha z = true -> is_digit z = false /\ ~ In z seps.
Proof. intros Hz. split; [unfold is_alpha, is_upper, is_lower, is_digit in *; lia|]. intros H. rewrite (sep_noalpha z H) in Hz. discriminate. Qed.
Lemma reads_app s a b u v : reads s a b (u ++ v) <-> exists k, reads s a k u /\ reads s k b v.
Proof.
  unfold reads. split.
  - intros [L E]. pose proof (slice_len s a b L) as Ls. rewrite E, app_length in Ls. exists (a + List.length u).
    assert (P : slice a b s = slice a (a + List.length u) s ++ slice (a + List.length u) b s) by (apply slice_app; lia). rewrite E in P. symmetry in P.
    assert (Q : List.length (slice a (a + List.length u) s) = List.length u) by (rewrite slice_len by lia; lia). destruct (app_inj_len _ _ _ _ Q P) as [P1 P2]. split; (split; [lia|assumption]).
  - intros (k & [L1 E1] & [L2 E2]). split; [lia|]. rewrite (slice_app s a k b) by lia. rewrite E1, E2. reflexivity.
Qed.
Lemma reads_number s a b t : reads s a b t -> number t -> a < b /\ all_in s is_digit a b.
Proof.
  intros [L E] N. assert (a < b). { destruct (Nat.eq_dec a b) as [->|]; [|lia]. destruct N as [N _]. destruct N. rewrite <- E. unfold slice. rewrite Nat.sub_diag. reflexivity. }
  split; [assumption|]. apply digits_iff; [lia|lia|]. rewrite E. exact N.
Qed.
Lemma reads_one s a b c : reads s a b [c] <-> b = S a /\ nth_error s a = Some c.
Proof.
  unfold reads. split.
  - intros [L E]. pose proof (slice_len s a b L) as Ls. rewrite E in Ls. cbn [List.length] in Ls. assert (b = S a) by lia. subst b. split; [reflexivity|].
    destruct (nth_error s a) as [d|] eqn:Ed; [|apply nth_error_None in Ed; lia]. rewrite (slice_one s a d Ed) in E. congruence.
  - intros [-> E]. split; [apply nth_error_lt in E; lia|]. apply slice_one, E.
Qed.
Lemma reads_nil s a b : reads s a b [] <-> b = a /\ a <= List.length s.
Proof.
  unfold reads. split.
  - intros [L E]. pose proof (slice_len s a b L) as Ls. rewrite E in Ls. cbn [List.length] in Ls. lia.
  - intros [-> L]. split; [lia|]. unfold slice. rewrite Nat.sub_diag. reflexivity.
Qed.
Section Amount.
  Context (s : str) (units : re).
  Context (Hu1 : forall i c j d, M s units i c j d -> i < j /\ all_in s is_alpha i j).
  Context (Hu2 : forall i c y e j d, mtch s units i c (fun j c => Some (j, c)) = Some (y, e) -> M s units i c j d -> stops s is_alpha j -> j <= y).
  Definition num_re (decimal : bool) : re := if decimal then RSeq digits1 (RSeq dot digits1) else digits1.
  Definition num (decimal : bool) (i j : nat) : Prop :=
    if decimal then exists k, i < k /\ all_in s is_digit i k /\ nth_error s k = Some 46%N /\ S k < j /\ all_in s is_digit (S k) j else i < j /\ all_in s is_digit i j.
  Lemma M_num dec i c j d : M s (num_re dec) i c j d <-> d = c /\ num dec i j.
  Proof. clear Hu1 Hu2.
    destruct dec; cbn [num_re num]; [|rewrite M_p; tauto]. split.
    - intros H. apply M_seq_inv in H as (k & e & H1 & H). apply M_p in H1 as (-> & H1 & H2 & _). apply M_seq_inv in H as (k' & e & H3 & H4). unfold dot in H3. apply M_chr_iff in H3 as (-> & -> & x & Ex & Hx). apply N.eqb_eq in Hx. subst x.
      apply M_p in H4 as (-> & H5 & H6 & _). split; [reflexivity|]. exists k. auto.
    - intros (-> & k & H1 & H2 & H3 & H4 & H5). apply (M_seq _ _ _ i c k c); [apply M_p; auto|]. apply (M_seq _ _ _ k c (S k) c); [apply M_chr_iff; split; [reflexivity|]; split; [reflexivity|]; exists 46%N; auto|apply M_p; auto].
  Qed.
  Lemma num_first dec i j : num dec i j -> i < j /\ (exists x, nth_error s i = Some x /\ is_digit x = true) /\ (exists x, nth_error s (j - 1) = Some x /\ is_digit x = true).
  Proof. clear Hu1 Hu2.
    destruct dec; cbn [num].
    - intros (k & H1 & H2 & H3 & H4 & H5). split; [lia|]. split; [apply H2; lia|apply H5; lia].
    - intros [H1 H2]. split; [lia|]. split; apply H2; lia.
  Qed.
  Lemma num_unique dec i j j' : num dec i j -> num dec i j' -> stops s is_digit j -> stops s is_digit j' -> j = j'.
  Proof. clear Hu1 Hu2.
    destruct dec; cbn [num].
    - intros (k & H1 & H2 & H3 & H4 & H5) (k' & H1' & H2' & H3' & H4' & H5') S S'.
      assert (k = k'). { apply (runs_agree s is_digit i k k' H2); [intros c Hc; rewrite H3 in Hc; injection Hc as <-; reflexivity|exact H2'|intros c Hc; rewrite H3' in Hc; injection Hc as <-; reflexivity|lia|lia]. }
      subst k'. apply (runs_agree s is_digit (Datatypes.S k) j j'); auto; lia.
    - intros [H1 H2] [H1' H2'] S S'. apply (runs_agree s is_digit i j j'); auto; lia.
  Qed.
  Lemma num_in dec i j k x : num dec i j -> i <= k < j -> nth_error s k = Some x -> In x seps -> dec = true /\ x = 46%N /\ k < j - 1 /\ i < k /\ all_in s is_digit (S k) j.
  Proof. clear Hu1 Hu2.
    destruct dec; cbn [num].
    - intros (k' & H1 & H2 & H3 & H4 & H5) L E Hx. destruct (Nat.lt_trichotomy k k') as [G|[G|G]].
      + destruct (H2 k ltac:(lia)) as (y & Ey & Dy). rewrite E in Ey. injection Ey as ->. rewrite (sep_nodigit y Hx) in Dy. discriminate.
      + subst k'. rewrite E in H3. injection H3 as ->. split; [reflexivity|]. split; [reflexivity|]. split; [lia|]. split; [lia|exact H5].
      + destruct (H5 k ltac:(lia)) as (y & Ey & Dy). rewrite E in Ey. injection Ey as ->. rewrite (sep_nodigit y Hx) in Dy. discriminate.
    - intros [H1 H2] L E Hx. destruct (H2 k ltac:(lia)) as (y & Ey & Dy). rewrite E in Ey. injection Ey as ->. rewrite (sep_nodigit y Hx) in Dy. discriminate.
  Qed.
  Definition amt_re (dec : bool) : re := RSeq (num_re dec) (RSeq dash_opt units).
  (** the end of the number, and the start of the units *)
  Definition joined (x y : nat) : Prop := y = x \/ (y = S x /\ exists z, nth_error s x = Some z /\ cmem z seps_no_fs = true).
  Lemma amt_M dec a c b d : M s (amt_re dec) a c b d <-> exists x y, num dec a x /\ joined x y /\ M s units y c b d.
  Proof. clear Hu1 Hu2.
    unfold amt_re. split.
    - intros H. apply M_seq_inv in H as (x & e & H1 & H). apply M_num in H1 as [-> H1]. apply M_seq_inv in H as (y & e & H2 & H3). apply M_dash_opt in H2 as [-> H2]. exists x, y. auto.
    - intros (x & y & H1 & H2 & H3). apply (M_seq _ _ _ a c x c); [apply M_num; auto|]. apply (M_seq _ _ _ x c y c); [apply M_dash_opt; auto|exact H3].
  Qed.
  Lemma amt_consumes dec : consumes s (amt_re dec).
  Proof. intros i c j d H. apply amt_M in H as (x & y & H1 & H2 & H3). apply num_first in H1 as [H1 _]. apply Hu1 in H3 as [H3 _]. unfold joined in H2. lia. Qed.
  Lemma units_first y c b d : M s units y c b d -> exists z, nth_error s y = Some z /\ is_alpha z = true.
  Proof. intros H. apply Hu1 in H as [L H]. apply H. lia. Qed.
  Lemma joined_stops x y c b d : joined x y -> M s units y c b d -> stops s is_digit x.
  Proof.
    intros [->|(-> & z & Ez & Sz)] H v Ev.
    - apply units_first in H as (z & Ez & Az). rewrite Ev in Ez. injection Ez as ->. apply alpha_props, Az.
    - rewrite Ev in Ez. injection Ez as ->. apply sep_nodigit. apply no_fs_iff in Sz. tauto.
  Qed.
  Lemma joined_unique x y y' c b d c' b' d' : joined x y -> joined x y' -> M s units y c b d -> M s units y' c' b' d' -> y = y'.
  Proof.
    intros J J' H H'. apply units_first in H as (z & Ez & Az), H' as (z' & Ez' & Az'). destruct J as [->|(-> & v & Ev & Sv)], J' as [->|(-> & v' & Ev' & Sv')]; try reflexivity; exfalso.
    - rewrite Ez in Ev'. injection Ev' as ->. apply alpha_props in Az as [_ Az]. apply no_fs_iff in Sv'. tauto.
    - rewrite Ez' in Ev. injection Ev as ->. apply alpha_props in Az' as [_ Az']. apply no_fs_iff in Sv. tauto.
  Qed.
  Lemma amt_iso dec a b c a' b' c' : (forall x, 0 < a -> nth_error s (a - 1) = Some x -> In x seps) -> M s (amt_re dec) a [] b c -> M s (amt_re dec) a' [] b' c' -> a' < a -> b' <= a.
  Proof.
    intros A H H' La. destruct (Nat.le_gt_cases b' a) as [|G]; [assumption|exfalso].
    apply amt_M in H as (x & y & N & J & U), H' as (x' & y' & N' & J' & U').
    pose proof (num_first dec a x N) as (L1 & (u & Eu & Du) & _). pose proof (num_first dec a' x' N') as (L1' & _ & (u' & Eu' & Du')).
    pose proof (Hu1 _ _ _ _ U') as [Lu' Au'].
    destruct (nth_error s (a - 1)) as [w|] eqn:Ew; [|apply nth_error_None in Ew; apply nth_error_lt in Eu; lia]. specialize (A w ltac:(lia) eq_refl).
    assert (Dig : is_digit u = true -> is_alpha u = false) by (intros Hd; destruct (is_alpha u) eqn:Ea; [apply alpha_props in Ea; destruct Ea; congruence|reflexivity]).
    destruct (Nat.lt_ge_cases (a - 1) x') as [K|K].
    - (* the dot of the first amount *)
      destruct (num_in dec a' x' (a - 1) w N' ltac:(lia) Ew A) as (-> & -> & K1 & K2 & D').
      replace (S (a - 1)) with a in D' by lia. cbn [num] in N. destruct N as (k & N1 & N2 & N3 & N4 & N5).
      assert (k = x'). { apply (runs_agree s is_digit a k x' N2); [intros v Hv; rewrite N3 in Hv; injection Hv as <-; reflexivity|exact D'|exact (joined_stops _ _ _ _ _ J' U')|lia|lia]. }
      subst k. destruct J' as [->|(-> & z & Ez & Sz)].
      + apply units_first in U' as (z & Ez & Az). rewrite N3 in Ez. injection Ez as <-. discriminate.
      + apply units_first in U' as (v & Ev & Av). destruct (N5 (S x') ltac:(lia)) as (t & Et & Dt). rewrite Ev in Et. injection Et as ->. apply alpha_props in Av as [Av _]. congruence.
    - destruct (Nat.lt_ge_cases (a - 1) y') as [K2|K2].
      + (* the separator of the first amount *)
        assert (y' = a) by (destruct J' as [->|(-> & _)]; lia). subst y'. apply units_first in U' as (v & Ev & Av). rewrite Eu in Ev. injection Ev as ->. rewrite (Dig Du) in Av. discriminate.
      + destruct (Au' (a - 1) ltac:(lia)) as (v & Ev & Av). rewrite Ew in Ev. injection Ev as ->. apply alpha_props in Av. tauto.
  Qed.
  Lemma amt_found dec a b c : alone s a b -> M s (amt_re dec) a [] b c -> exists c', In (a, b, c') (finditer s (amt_re dec)).
  Proof.
    intros [A B] H. assert (La : a <= List.length s). { apply amt_M in H as (x & y & N & _ & _). apply num_first in N as (_ & (u & Eu & _) & _). apply nth_error_lt in Eu. lia. }
    destruct (finditer_complete s (amt_re dec) (amt_consumes dec) a b c La H) as (b' & c' & Hf).
    - intros a' b' c' L H'. exact (amt_iso dec a b c a' b' c' A H H' L).
    - exists c'. pose proof Hf as Hf'. apply finditer_sound in Hf' as (_ & Hat & _); [|apply amt_consumes].
      unfold match_at, amt_re in Hat. apply mtch_seq in Hat as (x' & e & H1 & Hat). apply M_num in H1 as [-> N']. apply mtch_seq in Hat as (y' & e & H2 & Hat). apply M_dash_opt in H2 as [-> J'].
      apply amt_M in H as (x & y & N & J & U).
      assert (U' : exists d, M s units y' [] b' d) by (apply mtch_sound in Hat as (j & d & Hj & E); injection E as -> ->; eauto). destruct U' as [d' U'].
      assert (x' = x) by (apply (num_unique dec a x' x N' N); [exact (joined_stops _ _ _ _ _ J' U')|exact (joined_stops _ _ _ _ _ J U)]). subst x'.
      assert (y' = y) by exact (joined_unique x y' y _ _ _ _ _ _ J' J U' U). subst y'.
      assert (SB : stops s is_alpha b) by (intros v Ev; apply sep_noalpha, B, Ev).
      assert (b' = b).
      { apply Nat.le_antisymm; [|exact (Hu2 _ _ _ _ _ _ Hat U SB)]. destruct (Nat.le_gt_cases b' b) as [|G]; [assumption|exfalso].
        pose proof (Hu1 _ _ _ _ U) as [Lu _]. apply Hu1 in U' as [_ U']. apply (stops_all s is_alpha b y b' SB U'). lia. }
      subst b'. exact Hf.
  Qed.
  (** as texts *)
  Lemma num_text dec a x : num dec a x -> x <= List.length s ->
    (dec = false /\ number (slice a x s)) \/ (dec = true /\ exists d e, slice a x s = d ++ 46%N :: e /\ number d /\ number e).
  Proof. clear Hu1 Hu2.
    destruct dec; cbn [num].
    - intros (k & H1 & H2 & H3 & H4 & H5) L. right. split; [reflexivity|]. exists (slice a k s), (slice (S k) x s).
      split; [|split; apply digits_iff; auto; lia]. rewrite (slice_app s a k x) by lia. rewrite (slice_app s k (S k) x) by lia. rewrite (slice_one s k 46%N H3). reflexivity.
    - intros [H1 H2] L. left. split; [reflexivity|]. apply digits_iff; auto; lia.
  Qed.
  Lemma num_of_text a x t q : amount t q -> reads s a x t -> exists dec, num dec a x.
  Proof. clear Hu1 Hu2.
    intros Ht R. destruct Ht as [d N|d e N N'].
    - exists false. cbn [num]. destruct (reads_number s a x d R N) as (L & D). auto.
    - exists true. cbn [num]. apply reads_app in R as (k & R1 & R2). destruct (cut2 s k (S k) x 46%N e ltac:(lia) R2 eq_refl) as [R3 E].
      destruct (reads_number s a k d R1 N) as (L & D). destruct (reads_number s (S k) x e R3 N') as (L' & D'). exists k. auto.
  Qed.
End Amount.

Lemma joined_text s x y : x <= List.length s -> joined s x y <-> exists p, reads s x y p /\ maybe_sep p.
Proof.
  intros L. unfold joined, maybe_sep. split.
  - intros [->|(-> & z & Ez & Sz)]; [exists []; split; [apply reads_nil; auto|auto]|]. exists [z]. split; [apply reads_one; auto|]. right. exists z. apply no_fs_iff in Sz. tauto.
  - intros (p & R & [->|(c & -> & S)]); [apply reads_nil in R; tauto|]. apply reads_one in R as [-> R]. right. split; [reflexivity|]. exists c. split; [exact R|]. apply no_fs_iff. tauto.
Qed.
(** the amount of a number followed by units *)
Lemma number_dec t : number t -> t <> [] /\ Forall (fun c => is_digit c = true) t.
Proof. intros [A B]. split; [exact A|]. apply Forall_forall. intros c Hc. apply is_digit_iff, B, Hc. Qed.
Lemma value_nonneg t : number t -> (0 <= value_of t)%Z.
Proof.
  intros [_ H]. unfold value_of. assert (G : forall l acc, (forall c, In c l -> (48 <= c <= 57)%N) -> (0 <= acc)%Z -> (0 <= fold_left (fun z c => 10 * z + (Z.of_N c - 48))%Z l acc)%Z).
  { induction l as [|c l IH]; intros acc Hl Ha; cbn [fold_left]; [exact Ha|]. apply IH; [intros d Hd; apply Hl; right; exact Hd|]. specialize (Hl c (or_introl eq_refl)). lia. }
  apply G; [exact H|lia].
Qed.
Lemma amount_value k t q u x : amount t q -> u <> [] -> (forall c, In c u -> is_digit c = false) -> parse_units k (Some u) = Ok x -> quantity_of_text k (t ++ u) = MvQuant q x.
Proof.
  intros Ht Hu Hd Hx. assert (Fu : Forall (fun c => is_digit c = false) u) by (apply Forall_forall; exact Hd). unfold quantity_of_text. destruct Ht as [d N|d e N N'].
  - destruct (number_dec d N) as [N1 N2]. destruct (C22_magnitude k d u x N1 N2 Hu Fu Hx) as [-> _]. cbn [q_magnitude q_units]. rewrite <- dec_decimal. rewrite Z2N.id; [reflexivity|apply value_nonneg, N].
  - destruct (number_dec d N) as [N1 N2], (number_dec e N') as [N1' N2']. destruct (C22_magnitude k d u x N1 N2 Hu Fu Hx) as [_ K]. specialize (K e N1' N2').
    rewrite <- app_assoc. cbn [app]. change (lit "." ++ e ++ u) with (46%N :: e ++ u) in K. rewrite K. rewrite <- dec_decimal. reflexivity.
Qed.

(** [12GB], [4.5 mb]: an amount, a separator or none, and the unit, alone *)
Definition size_units : re := RSeq (one_of (lit "mgt")) (one_of (lit "b")).
Lemma size_M s i c j d : M s size_units i c j d <-> d = c /\ exists u v, reads s i j [u; v] /\ In (to_lower u) (lit "mgt") /\ to_lower v = 98%N.
Proof.
  unfold size_units. split.
  - intros H. apply M_seq_inv in H as (k & e & H1 & H2). unfold one_of in H1. apply M_chr_iff in H1 as (-> & -> & u & Eu & Hu). apply one_of_iff in H2 as (-> & -> & v & Ev & Hv). apply cmem_In in Hu.
    split; [reflexivity|]. exists u, v. split; [|auto]. change [u; v] with ([u] ++ [v]). apply reads_app. exists (S i). split; apply reads_one; auto.
  - intros (-> & u & v & R & Hu & Hv). change [u; v] with ([u] ++ [v]) in R. apply reads_app in R as (k & R1 & R2). apply reads_one in R1 as [-> R1], R2 as [-> R2].
    apply (M_seq _ _ _ i c (S i) c); [apply M_chr_iff; split; [reflexivity|]; split; [reflexivity|]; exists u; split; [exact R1|apply cmem_In; exact Hu]|]. apply one_of_iff. split; [reflexivity|]. split; [reflexivity|]. eauto.
Qed.
Lemma lower_alpha u x : is_lower x = true -> to_lower u = x -> is_alpha u = true.
Proof. intros Hx E. unfold to_lower in E. unfold is_alpha. destruct (is_upper u) eqn:U; [reflexivity|]. subst u. rewrite Hx. reflexivity. Qed.
Lemma mgt_alpha u : In (to_lower u) (lit "mgt") -> is_alpha u = true.
Proof. intros H. change (lit "mgt") with [109; 103; 116]%N in H. destruct H as [H|[H|[H|[]]]]; symmetry in H; revert H; apply lower_alpha; reflexivity. Qed.
Lemma kmg_alpha u : In (to_lower u) (lit "kmg") -> is_alpha u = true.
Proof. intros H. change (lit "kmg") with [107; 109; 103]%N in H. destruct H as [H|[H|[H|[]]]]; symmetry in H; revert H; apply lower_alpha; reflexivity. Qed.
Lemma reads_all s a b t p : reads s a b t -> (forall c, In c t -> p c = true) -> all_in s p a b.
Proof. intros [L E] H. apply all_in_forall; [exact L|]. rewrite E. exact H. Qed.
Lemma size_units1 s i c j d : M s size_units i c j d -> i < j /\ all_in s is_alpha i j.
Proof.
  intros H. apply size_M in H as (_ & u & v & R & Hu & Hv). split; [pose proof (slice_len s i j (proj1 R)) as L; rewrite (proj2 R) in L; cbn [List.length] in L; lia|].
  apply (reads_all s i j [u; v] is_alpha R). intros x [<-|[<-|[]]]; [apply mgt_alpha, Hu|apply (lower_alpha v 98); auto].
Qed.
Lemma size_units2 s i c y e j d : mtch s size_units i c (fun j c => Some (j, c)) = Some (y, e) -> M s size_units i c j d -> stops s is_alpha j -> j <= y.
Proof.
  intros H H' _. apply mtch_sound in H as (k & f & H & E). injection E as -> ->. apply size_M in H as (_ & u & v & R & _), H' as (_ & u' & v' & R' & _).
  pose proof (slice_len s i j (proj1 R')) as L. rewrite (proj2 R') in L. pose proof (slice_len s i y (proj1 R)) as L2. rewrite (proj2 R) in L2. cbn [List.length] in L, L2. destruct R, R'. lia.
Qed.
Lemma size_of p u v : maybe_sep p -> is_alpha u = true -> to_lower v = 98%N -> parse_units Size (Some (p ++ [u; v])) = Ok [to_upper u; 66%N].
Proof.
  intros Hp Hu Hv. cbn [parse_units]. f_equal. assert (Sv : is_alpha v = true) by (apply (lower_alpha v 98); auto).
  assert (K : strip is_sep (p ++ [u; v]) = [u; v]).
  { assert (K0 : strip is_sep [u; v] = [u; v]).
    { apply strip_id; intros c E; cbn in E; injection E as <-; (destruct (is_sep _) eqn:Es; [|reflexivity]); apply cmem_In in Es; [destruct (alpha_props u Hu)|destruct (alpha_props v Sv)]; contradiction. }
    destruct Hp as [->|(c & -> & Sc & _)]; [exact K0|]. cbn [app]. rewrite <- K0 at 2. unfold strip. f_equal. cbn [lstrip]. assert (is_sep c = true) by (apply cmem_In, Sc). rewrite H. reflexivity. }
  rewrite K. cbn [upper map]. f_equal. f_equal. apply (lower_is v 98) in Hv; [|reflexivity]. destruct Hv as [->| ->]; reflexivity.
Qed.
(** a pattern whose match is the whole expression *)
Lemma one_parent p s a b c m : rx_children p = false -> rx_validate_all p = false -> In m (rx_one p s (a, b, c)) <-> rx_valid p s (rx_parent p s a b c) = true /\ m = rx_parent p s a b c.
Proof.
  intros Hc Hv. unfold rx_one. rewrite Hc, Hv. cbn [negb orb]. rewrite Bool.andb_true_r. destruct (rx_valid p s (rx_parent p s a b c)); cbn [app].
  - split; [intros [<-|[]]; auto|intros [_ ->]; left; reflexivity].
  - split; [intros []|intros [? _]; discriminate].
Qed.
Lemma shows_app ms ms' a b n v : shows (ms ++ ms') a b n v <-> shows ms a b n v \/ shows ms' a b n v.
Proof.
  unfold shows. split; [intros (m & H & K); apply in_app_iff in H as [H|H]; [left|right]; eauto|intros [(m & H & K)|(m & H & K)]; exists m; (split; [apply in_app_iff; auto|exact K])].
Qed.
Lemma amt_shows s units P a b n v :
  (forall i c j d, M s units i c j d -> i < j /\ all_in s is_alpha i j) ->
  (forall i c y e j d, mtch s units i c (fun j c => Some (j, c)) = Some (y, e) -> M s units i c j d -> stops s is_alpha j -> j <= y) ->
  (forall dec, rx_re (P dec) = amt_re units dec) -> (forall dec, rx_children (P dec) = false) -> (forall dec, rx_validate_all (P dec) = false) -> (forall dec, rx_valid (P dec) = seps_surround) -> (forall dec, rx_name (P dec) = n) ->
  shows (rx_matches (P false) s ++ rx_matches (P true) s) a b n v <-> exists dec c, alone s a b /\ M s (amt_re units dec) a [] b c /\ v = rx_value (P dec) n (slice a b s).
Proof.
  intros U1 U2 HP Hc Hv Hval Hn.
  assert (K : forall dec, shows (rx_matches (P dec) s) a b n v <-> exists c, alone s a b /\ M s (amt_re units dec) a [] b c /\ v = rx_value (P dec) n (slice a b s)).
  { intros dec. unfold shows. split.
    - intros (m & Hm & Ha & Hb & _ & Hvm & _). apply rx_In in Hm as (a' & b' & c & Hf & Hm). apply one_parent in Hm as [V ->]; auto. rewrite Hval in V. apply seps_alone in V.
      cbn [rx_parent m_start m_end m_value] in *. subst a' b'. rewrite Hc, Hn in Hvm. rewrite HP in Hf. apply finditer_sound in Hf as (_ & _ & Hf); [|apply (amt_consumes s units); eassumption]. exists c. auto.
    - intros (c & A & HM & ->). destruct (amt_found s units U1 U2 dec a b c A HM) as (c' & Hf). exists (rx_parent (P dec) s a b c'). split.
      + apply rx_In. exists a, b, c'. rewrite HP. split; [exact Hf|]. apply one_parent; auto. split; [rewrite Hval; apply seps_alone; exact A|reflexivity].
      + cbn [rx_parent m_start m_end m_name m_value m_private]. rewrite Hc, Hn. auto. }
  rewrite shows_app, !K. split.
  - intros [H|H]; [exists false|exists true]; exact H.
  - intros [[|] H]; [right|left]; exact H.
Qed.
Lemma amt_text s units dec a b c : M s (amt_re units dec) a [] b c -> a <= List.length s -> exists t q p, amount t q /\ maybe_sep p /\ exists y, reads s a y (t ++ p) /\ M s units y [] b c.
Proof.
  intros H La. apply amt_M in H as (x & y & N & J & U).
  assert (Lx : x <= List.length s). { apply num_first in N as (L & _ & (z & Ez & _)). apply nth_error_lt in Ez. lia. }
  apply joined_text in J as (p & R & Hp); [|exact Lx]. pose proof (num_first s dec a x N) as [L _].
  destruct (num_text s dec a x N Lx) as [[_ T]|[_ (d & e & E & T1 & T2)]].
  - exists (slice a x s), (inject_Z (value_of (slice a x s))), p. split; [constructor; exact T|]. split; [exact Hp|]. exists y. split; [|exact U]. apply reads_app. exists x. split; [split; [lia|reflexivity]|exact R].
  - exists (slice a x s), (Qred (value_of (d ++ e) # Pos.pow 10 (Pos.of_nat (List.length e)))), p. split; [rewrite E; constructor; assumption|]. split; [exact Hp|]. exists y. split; [|exact U]. apply reads_app. exists x. split; [split; [lia|reflexivity]|exact R].
Qed.
Lemma text_amt s units a y b c t q p : amount t q -> maybe_sep p -> reads s a y (t ++ p) -> M s units y [] b c -> exists dec, M s (amt_re units dec) a [] b c.
Proof.
  intros Ht Hp R U. apply reads_app in R as (x & R1 & R2). destruct (num_of_text s a x t q Ht R1) as [dec N]. exists dec. apply amt_M. exists x, y. split; [exact N|]. split; [|exact U].
  apply joined_text; [destruct R2 as [[? ?] _]; lia|]. eauto.
Qed.

Theorem C86_size s a b v : shows (size_matches s) a b (lit "size") v <->
  exists t q p u w, reads s a b (t ++ p ++ [u; w]) /\ amount t q /\ maybe_sep p /\ In (to_lower u) (lit "mgt") /\ (w = 98 \/ w = 66)%N /\ alone s a b /\
    v = MvQuant q [to_upper u; 66%N].
Proof.
  unfold size_matches. rewrite (amt_shows s size_units size_rx a b (lit "size") v (size_units1 s) (size_units2 s)); try reflexivity.
  assert (W : forall w, to_lower w = 98%N <-> (w = 98 \/ w = 66)%N) by (intros w; rewrite (lower_is w 98) by reflexivity; lia).
  assert (Val : forall t q p u w, reads s a b (t ++ p ++ [u; w]) -> amount t q -> maybe_sep p -> In (to_lower u) (lit "mgt") -> to_lower w = 98%N -> forall dec, rx_value (size_rx dec) (lit "size") (slice a b s) = MvQuant q [to_upper u; 66%N]).
  { intros t q p u w R Ht Hp Hu Hw dec. cbn [rx_value size_rx]. rewrite (proj2 R). apply amount_value; [exact Ht|destruct p; discriminate| |apply size_of; [exact Hp|apply mgt_alpha, Hu|exact Hw]].
    intros c Hc. apply in_app_iff in Hc as [Hc|[<-|[<-|[]]]]; [|apply alpha_props, mgt_alpha, Hu|apply alpha_props, (lower_alpha w 98); auto].
    destruct Hp as [->|(x & -> & Sx & _)]; [destruct Hc|]. destruct Hc as [<-|[]]. apply sep_nodigit, Sx. }
  split.
  - intros (dec & c & A & HM & ->). assert (La : a <= List.length s). { pose proof HM as HM'. apply amt_M in HM' as (x & y & N & _ & _). apply num_first in N as (_ & (z & Ez & _) & _). apply nth_error_lt in Ez. lia. }
    apply amt_text in HM as (t & q & p & Ht & Hp & y & R & U); [|exact La]. apply size_M in U as (_ & u & w & R' & Hu & Hw).
    assert (R2 : reads s a b (t ++ p ++ [u; w])) by (rewrite app_assoc; apply reads_app; eauto).
    exists t, q, p, u, w. split; [exact R2|]. split; [exact Ht|]. split; [exact Hp|]. split; [exact Hu|]. split; [apply W, Hw|]. split; [exact A|]. eapply Val; eassumption.
  - intros (t & q & p & u & w & R & Ht & Hp & Hu & Hw & A & ->). apply W in Hw. pose proof R as R0. rewrite app_assoc in R. apply reads_app in R as (y & R1 & R2).
    destruct (text_amt s size_units a y b [] t q p Ht Hp R1) as [dec HM]; [apply size_M; split; [reflexivity|]; eauto|].
    exists dec, []. split; [exact A|]. split; [exact HM|]. symmetry. eapply Val; eassumption.
Qed.
Print Assumptions C86_size.
Example C86_size_ex : map (fun m => (m_start m, m_end m, m_value m)) (size_matches (lit "a 12.50 Gb-700MB x3tb")) =
  [(5, 10, MvQuant (50 # 1) (lit "GB")); (11, 16, MvQuant (700 # 1) (lit "MB")); (2, 10, MvQuant (25 # 2) (lit "GB"))].
Proof. vm_compute. reflexivity. Qed.

(** [320kbps], [1.5 Mbits]: an amount, a separator or none, and the unit, alone *)
Definition rate_units : re := RSeq (one_of (lit "kmg")) (RSeq (one_of (lit "b")) bits).
Definition per_second (t : str) : Prop := lower t = lit "bps" \/ lower t = lit "bit" \/ lower t = lit "bits".
Lemma opt_s s i c j d : M s (ropt (one_of (lit "s")) 1) i c j d <-> d = c /\ (j = i \/ j = S i /\ exists y, nth_error s i = Some y /\ to_lower y = 115%N).
Proof.
  split.
  - intros H. apply M_opt1_inv in H as [H|[-> ->]]; [|auto]. apply one_of_iff in H as (-> & -> & H). auto.
  - intros (-> & [->|(-> & H)]); [apply M_opt0|]. apply M_opt1. apply one_of_iff. auto.
Qed.
Lemma rlit_reads s w i c j d : i <= List.length s -> M s (rlit w) i c j d <-> d = c /\ exists t, reads s i j t /\ lower t = w.
Proof.
  intros L. rewrite (M_rlit s w i c j d L). split.
  - intros (-> & -> & L2 & E). split; [reflexivity|]. exists (slice i (i + List.length w) s). split; [split; [lia|reflexivity]|exact E].
  - intros (-> & t & [L2 R] & E). split; [reflexivity|]. assert (List.length w = j - i) by (rewrite <- E; unfold lower; rewrite map_length, <- R; apply slice_len; lia).
    split; [lia|]. split; [lia|]. rewrite R. exact E.
Qed.
Lemma lower_nil t : lower t = [] -> t = [].
Proof. destruct t; [reflexivity|discriminate]. Qed.
Lemma reads_cons s a b x t : reads s a b (x :: t) <-> nth_error s a = Some x /\ reads s (S a) b t.
Proof.
  change (x :: t) with ([x] ++ t). rewrite reads_app. split.
  - intros (k & R1 & R2). apply reads_one in R1 as [-> E]. auto.
  - intros [E R]. exists (S a). split; [apply reads_one; auto|exact R].
Qed.
Lemma reads_len s a b t : reads s a b t -> b = a + List.length t /\ b <= List.length s.
Proof. intros [L E]. pose proof (slice_len s a b L) as H. rewrite E in H. lia. Qed.
Lemma rate_M s i c j d : M s rate_units i c j d -> exists u t, reads s i j (u :: t) /\ In (to_lower u) (lit "kmg") /\ per_second t.
Proof.
  unfold rate_units, bits. intros H. apply M_seq_inv in H as (k & e & H1 & H). unfold one_of in H1. apply M_chr_iff in H1 as (-> & -> & u & Eu & Hu). apply cmem_In in Hu.
  apply M_seq_inv in H as (k & e & H1 & H). apply one_of_iff in H1 as (-> & -> & w & Ew & Hw). apply M_grp_inv in H as (f & -> & H). assert (L : S (S i) <= List.length s) by (apply nth_error_lt in Ew; lia).
  exists u. apply M_alt_inv in H as [H|H].
  - apply rlit_reads in H as (-> & t & R & E); [|exact L]. exists (w :: t). split; [apply reads_cons; split; [exact Eu|]; apply reads_cons; auto|]. split; [exact Hu|]. left. cbn [lower map]. unfold lower in E. rewrite E, Hw. reflexivity.
  - apply M_seq_inv in H as (k & g & H1 & H). apply rlit_reads in H1 as (-> & t & R & E); [|exact L]. unfold lower in E. apply opt_s in H as (_ & [->|(-> & y & Ey & Hy)]).
    + exists (w :: t). split; [apply reads_cons; split; [exact Eu|]; apply reads_cons; auto|]. split; [exact Hu|]. right. left. cbn [lower map]. rewrite E, Hw. reflexivity.
    + exists (w :: t ++ [y]). split; [apply reads_cons; split; [exact Eu|]; apply reads_cons; split; [exact Ew|]; apply reads_app; exists k; split; [exact R|apply reads_one; auto]|]. split; [exact Hu|].
      right. right. cbn [lower map]. rewrite map_app, E, Hw. cbn [map]. rewrite Hy. reflexivity.
Qed.
Lemma rate_intro s i c j u t : reads s i j (u :: t) -> In (to_lower u) (lit "kmg") -> per_second t -> exists d, M s rate_units i c j d.
Proof.
  intros R Hu Ht. apply reads_cons in R as [Eu R].
  assert (K : exists w t', t = w :: t' /\ to_lower w = 98%N /\ (lower t' = lit "ps" \/ lower t' = lit "it" \/ exists t2 y, t' = t2 ++ [y] /\ lower t2 = lit "it" /\ to_lower y = 115%N)).
  { destruct t as [|w t]; [destruct Ht as [H|[H|H]]; discriminate H|]. exists w, t. split; [reflexivity|]. destruct Ht as [H|[H|H]]; injection H as H1 H2.
    - split; [exact H1|]. left. exact H2.
    - split; [exact H1|]. right. left. exact H2.
    - split; [exact H1|]. right. right. destruct t as [|p [|q [|y [|z t]]]]; try discriminate H2. injection H2 as H2 H3 H4. exists [p; q], y. split; [reflexivity|]. split; [cbn [lower map]; rewrite H2, H3; reflexivity|exact H4]. }
  destruct K as (w & t' & -> & Hw & K). apply reads_cons in R as [Ew R]. assert (L : S (S i) <= List.length s) by (apply nth_error_lt in Ew; lia).
  exists ((1, (S (S i), j)) :: c). unfold rate_units, bits. apply (M_seq _ _ _ i c (S i) c); [apply M_chr_iff; split; [reflexivity|]; split; [reflexivity|]; exists u; split; [exact Eu|apply cmem_In, Hu]|].
  apply (M_seq _ _ _ (S i) c (S (S i)) c); [apply one_of_iff; eauto|]. constructor. destruct K as [K|[K|(t2 & y & -> & K & Hy)]].
  - apply M_alt_l. apply rlit_reads; [exact L|]. split; [reflexivity|]. eauto.
  - apply M_alt_r. apply (M_seq _ _ _ (S (S i)) c j c); [apply rlit_reads; [exact L|]; split; [reflexivity|]; eauto|]. apply opt_s. auto.
  - apply M_alt_r. apply reads_app in R as (k & R1 & R2). apply reads_one in R2 as [-> R2]. apply (M_seq _ _ _ (S (S i)) c k c); [apply rlit_reads; [exact L|]; split; [reflexivity|]; eauto|]. apply opt_s. split; [reflexivity|]. right. split; [reflexivity|]. eauto.
Qed.
Lemma in_lower_alpha w t : (forall x, In x w -> is_lower x = true) -> lower t = w -> forall c, In c t -> is_alpha c = true.
Proof. intros Hw E c Hc. apply (lower_alpha c (to_lower c)); [|reflexivity]. apply Hw. rewrite <- E. apply in_map, Hc. Qed.
Lemma per_alpha t : per_second t -> forall c, In c t -> is_alpha c = true.
Proof.
  intros [H|[H|H]]; refine (in_lower_alpha _ _ _ H); intros x Hx; vm_compute in Hx; repeat (destruct Hx as [<-|Hx]; [reflexivity|]); destruct Hx.
Qed.
Lemma rate_units1 s i c j d : M s rate_units i c j d -> i < j /\ all_in s is_alpha i j.
Proof.
  intros H. apply rate_M in H as (u & t & R & Hu & Ht). pose proof (reads_len s i j _ R) as [L _]. cbn [List.length] in L. split; [lia|].
  apply (reads_all s i j (u :: t) is_alpha R). intros x [<-|Hx]; [apply kmg_alpha, Hu|apply (per_alpha t Ht x Hx)].
Qed.
Lemma per_len t : per_second t -> List.length t = 3 \/ lower t = lit "bits" /\ List.length t = 4.
Proof. intros H. assert (E : List.length t = List.length (lower t)) by (unfold lower; rewrite map_length; reflexivity). destruct H as [H|[H|H]]; rewrite H in E; cbn in E; auto. Qed.
Lemma rate_units2 s i c y e j d : mtch s rate_units i c (fun j c => Some (j, c)) = Some (y, e) -> M s rate_units i c j d -> stops s is_alpha j -> j <= y.
Proof.
  intros H H' _. apply rate_M in H' as (u & t & R & Hu & Ht). pose proof (reads_len s i j _ R) as [L _]. cbn [List.length] in L.
  assert (Ly : i + 4 <= y). { apply mtch_sound in H as (k & f & H & E). injection E as -> ->. apply rate_M in H as (u' & t' & R' & _ & Ht'). pose proof (reads_len s i y _ R') as [L' _]. cbn [List.length] in L'. apply per_len in Ht'. lia. }
  apply per_len in Ht as [Ht|[Et Ht]]; [lia|]. 
  unfold rate_units, bits in H. apply mtch_seq in H as (k1 & e1 & H1 & H). unfold one_of in H1. apply M_chr_iff in H1 as (-> & -> & _). apply mtch_seq in H as (k2 & e2 & H2 & H). apply one_of_iff in H2 as (-> & -> & _).
  apply reads_cons in R as [_ R]. destruct t as [|x0 [|x1 [|x2 [|x3 [|]]]]]; try discriminate Ht. injection Et as _ E1 E2 E3. apply reads_cons in R as [R0 R]. apply reads_cons in R as [R1 R]. apply reads_cons in R as [R2 R]. apply reads_cons in R as [R3 R].
  cbn [mtch] in H. match type of H with match ?X with _ => _ end = _ => destruct X eqn:F end.
  - exfalso. change (rlit (lit "ps")) with (RSeq (RChr (fun c => N.eqb (to_lower c) 112)) (RSeq (RChr (fun c => N.eqb (to_lower c) 115)) REps)) in F. cbn [mtch] in F. rewrite R1 in F. rewrite E1 in F. discriminate F.
  - change (rlit (lit "it")) with (RSeq (RChr (fun c => N.eqb (to_lower c) 105)) (RSeq (RChr (fun c => N.eqb (to_lower c) 116)) REps)) in H. cbn [mtch] in H. rewrite R1, E1 in H. cbn [N.eqb Pos.eqb] in H. rewrite R2, E2 in H. cbn [N.eqb Pos.eqb] in H.
    cbn [ropt mtch one_of] in H. rewrite R3, E3 in H. cbn in H. injection H as <- _. lia.
Qed.
Lemma rate_of p u t : maybe_sep p -> In (to_lower u) (lit "kmg") -> per_second t -> parse_units BitRate (Some (p ++ u :: t)) = Ok (to_upper u :: lit "bps").
Proof.
  intros Hp Hu Ht. cbn [parse_units]. f_equal. assert (Au : is_alpha u = true) by apply kmg_alpha, Hu. pose proof (per_alpha t Ht) as At.
  assert (K : strip is_sep (p ++ u :: t) = u :: t).
  { assert (K0 : strip is_sep (u :: t) = u :: t).
    { apply strip_id; intros c E; (destruct (is_sep c) eqn:Es; [exfalso|reflexivity]); apply cmem_In in Es; apply sep_noalpha in Es.
      - cbn in E. injection E as <-. congruence.
      - assert (In c (u :: t)). { apply in_rev. unfold FormattersProofs.last_error in E. destruct (rev (u :: t)) as [|z l]; [discriminate|]. cbn in E. injection E as <-. left. reflexivity. }
        destruct H as [<-|H]; [congruence|]. rewrite (At c H) in Es. discriminate. }
    destruct Hp as [->|(c & -> & Sc & _)]; [exact K0|]. cbn [app]. rewrite <- K0 at 2. unfold strip. f_equal. cbn [lstrip]. assert (is_sep c = true) by (apply cmem_In, Sc). rewrite H. reflexivity. }
  rewrite K. cbn [capitalize]. assert (Eu : exists l, In l (lit "kmg") /\ to_lower u = l) by eauto. destruct Eu as (l & Hl & El).
  change (lit "kmg") with [107; 109; 103]%N in Hl. destruct Hl as [<-|[<-|[<-|[]]]]; (apply lower_is in El; [|reflexivity]); destruct El as [->| ->]; destruct Ht as [->|[->| ->]]; reflexivity.
Qed.

Theorem C86_bit_rate s a b v : shows (bit_rate_matches s) a b (lit "audio_bit_rate") v <->
  exists t q p u w, reads s a b (t ++ p ++ u :: w) /\ amount t q /\ maybe_sep p /\ In (to_lower u) (lit "kmg") /\ (lower w = lit "bps" \/ lower w = lit "bit" \/ lower w = lit "bits") /\ alone s a b /\
    v = MvQuant q (to_upper u :: lit "bps").
Proof.
  unfold bit_rate_matches. rewrite (amt_shows s rate_units bit_rate_rx a b (lit "audio_bit_rate") v (rate_units1 s) (rate_units2 s)); try reflexivity.
  assert (Val : forall t q p u w, reads s a b (t ++ p ++ u :: w) -> amount t q -> maybe_sep p -> In (to_lower u) (lit "kmg") -> per_second w -> forall dec, rx_value (bit_rate_rx dec) (lit "audio_bit_rate") (slice a b s) = MvQuant q (to_upper u :: lit "bps")).
  { intros t q p u w R Ht Hp Hu Hw dec. cbn [rx_value bit_rate_rx]. rewrite (proj2 R). apply amount_value; [exact Ht|destruct p; discriminate| |apply rate_of; assumption].
    intros c Hc. apply in_app_iff in Hc as [Hc|[<-|Hc]]; [|apply alpha_props, kmg_alpha, Hu|apply alpha_props, (per_alpha w Hw c Hc)].
    destruct Hp as [->|(x & -> & Sx & _)]; [destruct Hc|]. destruct Hc as [<-|[]]. apply sep_nodigit, Sx. }
  split.
  - intros (dec & c & A & HM & ->). assert (La : a <= List.length s). { pose proof HM as HM'. apply amt_M in HM' as (x & y & N & _ & _). apply num_first in N as (_ & (z & Ez & _) & _). apply nth_error_lt in Ez. lia. }
    apply amt_text in HM as (t & q & p & Ht & Hp & y & R & U); [|exact La]. apply rate_M in U as (u & w & R' & Hu & Hw).
    assert (R2 : reads s a b (t ++ p ++ u :: w)) by (rewrite app_assoc; apply reads_app; eauto).
    exists t, q, p, u, w. split; [exact R2|]. split; [exact Ht|]. split; [exact Hp|]. split; [exact Hu|]. split; [exact Hw|]. split; [exact A|]. eapply Val; eassumption.
  - intros (t & q & p & u & w & R & Ht & Hp & Hu & Hw & A & ->). pose proof R as R0. rewrite app_assoc in R. apply reads_app in R as (y & R1 & R2).
    destruct (rate_intro s y [] b u w R2 Hu Hw) as [d U]. destruct (text_amt s rate_units a y b d t q p Ht Hp R1 U) as [dec HM].
    exists dec, d. split; [exact A|]. split; [exact HM|]. symmetry. eapply Val; eassumption.
Qed.
Print Assumptions C86_bit_rate.
Example C86_bit_rate_ex : map (fun m => (m_start m, m_end m, m_value m)) (bit_rate_matches (lit "a 1.5 MBits-320kbps x3kbit 12kbitz")) =
  [(4, 11, MvQuant (5 # 1) (lit "Mbps")); (12, 19, MvQuant (320 # 1) (lit "Kbps")); (2, 11, MvQuant (3 # 2) (lit "Mbps"))].
Proof. vm_compute. reflexivity. Qed.
