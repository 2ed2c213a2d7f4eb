(** C96: numbers that may be episodes: 12, 012, 112, 1, 102, e112, 1e18, ep 112, cap 112. *)
From Verif Require Import Py PyFacts Text TextFacts WordsProofs Regex CrcProofs DateProofs RegexFacts Numeral NumeralProofs Date Quantity Sort Rebulk RebulkFacts Episodes EpisodeRulesProps IntProps Patterns PatternsProps Chain ChainProofs EpisodeChains SxxProps XxProps.
From Coq Require Import Arith ZifyBool ZifyNat ZifyN.
Local Open Scope nat_scope.

(** ** the specification *)
(** a number of [m] to [n] digits *)
Definition digits (m n : nat) (t : str) : Prop := number t /\ m <= List.length t <= n.
(** a letter, in any case *)
Definition letter (x : str) (c : N) : Prop := In (to_lower c) x.
Inductive form := Two | Zero | Three | One | Duplicate | Marked | Ep | Cap.
(** what a text says: names, where their numbers are, and the numbers *)
Definition item := (str * nat * str)%type.
(** the first text *)
Inductive opens : form -> str -> list item -> Prop :=
| opens_two d : digits 2 2 d -> opens Two d [(lit "episode", 0, d)]
| opens_zero d : digits 1 2 d -> opens Zero (48%N :: d) [(lit "episode", 1, d)]
| opens_three d : digits 3 4 d -> opens Three d [(lit "episode", 0, d)]
| opens_one d : digits 1 1 d -> opens One d [(lit "episode", 0, d)]
| opens_duplicate d e : digits 1 2 d -> digits 2 2 e -> opens Duplicate (d ++ e) [(lit "season", 0, d); (lit "episode", List.length d, e)]
| opens_e c e : letter (lit "e") c -> digits 1 4 e -> opens Marked (c :: e) [(lit "episode", 1, e)]
| opens_season_e d c e : digits 1 2 d -> letter (lit "e") c -> digits 1 4 e -> opens Marked (d ++ c :: e) [(lit "season", 0, d); (lit "episode", S (List.length d), e)]
| opens_ep w p e : lower w = lit "ep" -> maybe_sep p -> digits 1 4 e -> opens Ep (w ++ p ++ e) [(lit "episode", List.length (w ++ p), e)]
| opens_cap w p d e : lower w = lit "cap" -> maybe_sep p -> digits 1 2 d -> digits 2 2 e ->
    opens Cap (w ++ p ++ d ++ e) [(lit "season", List.length (w ++ p), d); (lit "episode", List.length (w ++ p ++ d), e)].
(** the texts that may follow: a version, or another episode *)
Inductive goes_on : form -> str -> list item -> Prop :=
| on_version k c d : k <> Cap -> letter (lit "v") c -> number d -> goes_on k (c :: d) [(lit "version", 1, d)]
| on_two c d : letter (lit "x-") c -> digits 2 2 d -> goes_on Two (c :: d) [(lit "episode", 1, d)]
| on_zero c d : letter (lit "x-") c -> digits 1 2 d -> goes_on Zero (c :: 48%N :: d) [(lit "episode", 2, d)]
| on_three c d : letter (lit "x-") c -> digits 3 4 d -> goes_on Three (c :: d) [(lit "episode", 1, d)]
| on_one c d : letter (lit "x-") c -> digits 1 2 d -> goes_on One (c :: d) [(lit "episode", 1, d)]
| on_duplicate c d : letter (lit "x-") c -> digits 2 2 d -> goes_on Duplicate (c :: d) [(lit "episode", 1, d)]
| on_e c d : letter (lit "ex-") c -> digits 1 4 d -> goes_on Marked (c :: d) [(lit "episode", 1, d)]
| on_ep w d : lower w = lit "ep" \/ (exists c, w = [c] /\ letter (lit "ex-") c) -> digits 1 4 d -> goes_on Ep (w ++ d) [(lit "episode", List.length w, d)]
| on_cap c d e : In c seps -> c <> 47%N -> c <> 92%N -> digits 1 2 d -> digits 2 2 e ->
    goes_on Cap (c :: d ++ e) [(lit "season", 1, d); (lit "episode", S (List.length d), e)].
(** a digit, a hyphen, and a digit at [a] *)
Definition dashed (s : str) (a : nat) : Prop :=
  exists i c x, S (S i) = a /\ nth_error s i = Some c /\ (48 <= c <= 57)%N /\ nth_error s (S i) = Some 45%N /\ nth_error s a = Some x /\ (48 <= x <= 57)%N.

Definition chain_of (cfg : epcfg) (k : form) : chain :=
  match k with
  | Two => weak2_chain cfg | Zero => weak0_chain cfg | Three => weak34_chain cfg | One => weak1_chain cfg
  | Duplicate => dup_chain cfg | Marked => e_chain cfg | Ep => ep_chain_ cfg | Cap => cap_chain cfg
  end.

(** ** what a part presents *)
Definition reported (s : str) (a : nat) (ms : list mt) (l : list item) : Prop :=
  (forall n i d, In (n, i, d) l -> number d /\ reads s (a + i) (a + i + List.length d) d /\ smem n private_names = false /\
    exists m, In m ms /\ m_start m = a + i /\ m_end m = a + i + List.length d /\ m_name m = n /\ m_value m = MvInt (value_of d) /\ m_private m = false) /\
  (forall m, In m ms -> m_private m = true \/ smem (m_name m) private_names = true \/
    exists n i d, In (n, i, d) l /\ m_start m = a + i /\ m_end m = a + i + List.length d /\ m_name m = n /\ m_value m = MvInt (value_of d)).

Lemma digits_read s x y m n : x < y -> all_in s is_digit x y -> m <= y - x <= n -> exists d, reads s x y d /\ digits m n d /\ List.length d = y - x.
Proof. intros L D H. destruct (number_reads s x y L D) as (d & R & N). pose proof (reads_len s x y d R) as [E _]. exists d. split; [exact R|]. split; [split; [exact N|lia]|lia]. Qed.
Lemma digits_all s x y d m n : 1 <= m -> reads s x y d -> digits m n d -> x < y /\ all_in s is_digit x y /\ x + m <= y <= x + n.
Proof. intros L R [N H]. destruct (reads_number s x y d R N) as [L2 D]. pose proof (reads_len s x y d R) as [E _]. split; [exact L2|]. split; [exact D|]. lia. Qed.
Lemma one_of_In s x i c j d : M s (one_of x) i c j d <-> d = c /\ j = S i /\ exists y, nth_error s i = Some y /\ letter x y.
Proof.
  unfold one_of, letter. rewrite M_chr_iff. split; intros (A & B & y & E & Hy); (split; [exact A|]; split; [exact B|]; exists y; split; [exact E|]; apply cmem_In, Hy).
Qed.
Lemma value_at s x y d : reads s x y d -> number d -> int_of_text (slice x y s) = MvInt (value_of d).
Proof. intros [_ E] N. rewrite E. apply number_value, N. Qed.

(** ** the groups of a part *)
Section Groups.
  Context (s : str) (r : re) (names : list (nat * str)) (name : str) (tags : list str) (mx : option nat) (a b : nat) (c : caps).
  Let p := mk_part (ep_rx r names name tags) mx.
  Lemma group_In m : In m (group_of s (p, (a, b, c))) <-> m = rx_parent (ep_rx r names name tags) s a b c \/
    exists g n x y, In (g, n) names /\ group g c = Some (x, y) /\ m = rx_child (ep_rx r names name tags) a b (mk_c x y n (ep_value n (slice x y s))).
  Proof.
    unfold group_of, p. cbn [pt_rx]. rewrite in_app_iff, in_map_iff. split.
    - intros [(k & <- & Hk)|[<-|[]]]; [right|left; reflexivity]. unfold rx_kids in Hk. cbn [ep_rx rx_names rx_children rx_value] in Hk. apply in_flat_map in Hk as ([g n] & I & Hk). cbn [fst snd] in Hk.
      destruct (group g c) as [[x y]|] eqn:E; [|destruct Hk]. destruct Hk as [<-|[]]. exists g, n, x, y. auto.
    - intros [->|(g & n & x & y & I & E & ->)]; [right; left; reflexivity|left]. eexists. split; [reflexivity|]. unfold rx_kids. cbn [ep_rx rx_names rx_children rx_value]. apply in_flat_map. exists (g, n). split; [exact I|]. cbn [fst snd]. rewrite E. left. reflexivity.
  Qed.
  Lemma group_reported l :
    (forall n i d, In (n, i, d) l -> number d /\ reads s (a + i) (a + i + List.length d) d /\ smem n private_names = false /\ smem n numbered = true /\ exists g, In (g, n) names /\ group g c = Some (a + i, a + i + List.length d)) ->
    (forall g n x y, In (g, n) names -> group g c = Some (x, y) -> smem n private_names = true \/ exists i d, In (n, i, d) l /\ x = a + i /\ y = a + i + List.length d) ->
    reported s a (group_of s (p, (a, b, c))) l.
  Proof.
    intros H1 H2. split.
    - intros n i d I. destruct (H1 n i d I) as (N & R & P & Q & g & Ig & Eg). split; [exact N|]. split; [exact R|]. split; [exact P|].
      eexists. split; [apply group_In; right; exists g, n, (a + i), (a + i + List.length d); split; [exact Ig|split; [exact Eg|reflexivity]]|]. cbn [rx_child m_start m_end m_name m_value m_private c_start c_end c_name c_value].
      repeat (split; [reflexivity|]). split; [|reflexivity]. unfold ep_value. rewrite Q. apply value_at; assumption.
    - intros m Hm. apply group_In in Hm as [->|(g & n & x & y & I & E & ->)]; [left; reflexivity|right]. cbn [rx_child m_start m_end m_name m_value m_private c_start c_end c_name c_value].
      destruct (H2 g n x y I E) as [P|(i & d & Id & -> & ->)]; [left; exact P|right]. exists n, i, d. split; [exact Id|]. repeat (split; [reflexivity|]). destruct (H1 n i d Id) as (N & R & _ & Q & _). unfold ep_value. rewrite Q. apply value_at; assumption.
  Qed.
  Lemma group_one n : str_eqb name n = false -> List.length (filter (fun g : nat * str => str_eqb (snd g) n) names) <= 1 -> at_most_one n (group_of s (p, (a, b, c))).
  Proof.
    intros N. unfold at_most_one, group_of, p. cbn [pt_rx]. rewrite named_filter, filter_app, app_length. cbn [filter]. unfold has_name at 2. cbn [rx_parent m_name ep_rx rx_name]. rewrite N. cbn [List.length]. rewrite Nat.add_0_r.
    unfold rx_kids. cbn [ep_rx rx_names rx_children rx_value]. intros H. eapply Nat.le_trans; [|exact H]. clear H. generalize (ep_rx r names name tags) as R. intros R. clear p. induction names as [|[g n'] l IH]; cbn [flat_map filter]; [cbn; lia|].
    cbn [fst snd]. rewrite map_app, filter_app, app_length. destruct (group g c) as [[x y]|]; cbn [map filter].
    - match goal with |- context [has_name n ?k] => change (has_name n k) with (str_eqb n' n) end. destruct (str_eqb n' n); cbn [List.length] in *; lia.
    - cbn [List.length]. destruct (str_eqb n' n); cbn [List.length] in *; lia.
  Qed.
End Groups.

Lemma item_ok s a names (c : caps) n i d x y g m k : reads s x y d -> digits m k d -> x = a + i -> smem n private_names = false -> smem n numbered = true -> In (g, n) names -> group g c = Some (x, y) ->
  number d /\ reads s (a + i) (a + i + List.length d) d /\ smem n private_names = false /\ smem n numbered = true /\ exists g, In (g, n) names /\ group g c = Some (a + i, a + i + List.length d).
Proof.
  intros R [N _] -> P Q I E. pose proof (reads_len s _ y d R) as [Ey _]. rewrite <- Ey. split; [exact N|]. split; [exact R|]. split; [exact P|]. split; [exact Q|]. eauto.
Qed.
Ltac items := let n := fresh "n" in let i := fresh "i" in let d := fresh "d" in let I := fresh "I" in let E := fresh "E" in
  intros n i d I; cbn [In] in I;
  repeat (destruct I as [E|I]; [symmetry in E; injection E as -> -> ->; eapply item_ok; [eassumption|eassumption|cbn [List.length]; rewrite ?app_length; lia|reflexivity|reflexivity|cbn [In]; eauto|reflexivity]|]); try destruct I.
Ltac groups := let g := fresh "g" in let n := fresh "n" in let x := fresh "x" in let y := fresh "y" in let I := fresh "I" in let E := fresh "E" in let H := fresh "H" in
  intros g n x y I H; cbn [In] in I;
  repeat (destruct I as [E|I]; [symmetry in E; injection E as -> ->; cbn [group Nat.eqb] in H; first [discriminate H|injection H as <- <-; first [left; reflexivity|right; do 2 eexists; split; [cbn [In]; eauto|split; cbn [List.length]; rewrite ?app_length; lia]]]|]); try destruct I.

Section Heads.
  Context (cfg : epcfg) (s : str).
  Definition hre (k : form) : re := rx_re (pt_rx (ch_head (chain_of cfg k))).
  Lemma M_rep_digits n i c j d : M s (rrep digit n) i c j d <-> d = c /\ j = i + n /\ all_in s is_digit i j.
  Proof. unfold digit. rewrite M_rep. tauto. Qed.
  Lemma M_range_digits m n i c j d : m <= n -> M s (rrange digit m n) i c j d <-> d = c /\ i + m <= j <= i + n /\ all_in s is_digit i j.
  Proof. unfold digit. apply M_range_iff. Qed.
  Lemma M_zero i c j d : M s zero i c j d <-> d = c /\ j = S i /\ nth_error s i = Some 48%N.
  Proof.
    unfold zero. rewrite one_of_In. split.
    - intros (A & B & y & E & [Hy|[]]). split; [exact A|]. split; [exact B|]. rewrite E. f_equal. assert (Hy' : 48%N = to_lower y) by exact Hy. unfold to_lower in Hy'. destruct (is_upper y) eqn:U; [unfold is_upper in U; lia|symmetry; exact Hy'].
    - intros (A & B & E). split; [exact A|]. split; [exact B|]. exists 48%N. split; [exact E|left; reflexivity].
  Qed.
  Lemma head_reads k a b c : a <= List.length s -> M s (hre k) a [] b c ->
    exists t l, reads s a b t /\ opens k t l /\ reported s a (group_of s (ch_head (chain_of cfg k), (a, b, c))) l.
  Proof.
    intros La H. destruct k; unfold hre in H; cbn [chain_of weak2_chain weak0_chain weak34_chain weak1_chain dup_chain e_chain ep_chain_ cap_chain weak_chain ep_chain ch_head pt_rx ep_rx rx_re] in H |- *.
    - apply M_group in H as (e & -> & H). apply M_rep_digits in H as (-> & -> & D). destruct (digits_read s a (a + 2) 2 2 ltac:(lia) D ltac:(lia)) as (d & R & N & Ed).
      exists d, [(lit "episode", 0, d)]. split; [exact R|]. split; [constructor; exact N|]. apply group_reported; [items|groups].
    - apply M_sq in H as (x & e & H1 & H). apply M_zero in H1 as (-> & -> & E0). apply M_group in H as (e & -> & H). apply M_range_digits in H as (-> & L & D); [|lia]. destruct (digits_read s (S a) b 1 2 ltac:(lia) D ltac:(lia)) as (d & R & N & Ed).
      exists (48%N :: d), [(lit "episode", 1, d)]. split; [apply reads_cons; auto|]. split; [constructor; exact N|]. apply group_reported; [items|groups].
    - apply M_group in H as (e & -> & H). apply M_range_digits in H as (-> & L & D); [|lia]. destruct (digits_read s a b 3 4 ltac:(lia) D ltac:(lia)) as (d & R & N & Ed).
      exists d, [(lit "episode", 0, d)]. split; [exact R|]. split; [constructor; exact N|]. apply group_reported; [items|groups].
    - apply M_group in H as (e & -> & H). unfold digit in H. apply M_chr_iff in H as (-> & -> & y & Ey & Dy). assert (D : all_in s is_digit a (S a)) by (intros z Hz; replace z with a by lia; eauto). destruct (digits_read s a (S a) 1 1 ltac:(lia) D ltac:(lia)) as (d & R & N & Ed).
      exists d, [(lit "episode", 0, d)]. split; [exact R|]. split; [constructor; exact N|]. apply group_reported; [items|groups].
    - unfold dup_head_re in H. apply M_sq in H as (x & e & H1 & H). apply M_group in H1 as (e1 & -> & H1). apply M_range_digits in H1 as (-> & L1 & D1); [|lia]. apply M_group in H as (e2 & -> & H). apply M_rep_digits in H as (-> & -> & D2).
      destruct (digits_read s a x 1 2 ltac:(lia) D1 ltac:(lia)) as (d & R & N & Ed). destruct (digits_read s x (x + 2) 2 2 ltac:(lia) D2 ltac:(lia)) as (d2 & R2 & N2 & Ed2).
      exists (d ++ d2), [(lit "season", 0, d); (lit "episode", List.length d, d2)]. split; [apply reads_app; eauto|]. split; [constructor; assumption|]. apply group_reported; [items|groups].
    - unfold e_head_re in H. apply M_sq in H as (x & e & H1 & H). apply M_sq in H as (y & e' & H2 & H). apply M_group in H2 as (e2 & -> & H2). apply one_of_In in H2 as (-> & -> & q & Eq & Lq). apply M_group in H as (e3 & -> & H). apply M_range_digits in H as (-> & L3 & D3); [|lia].
      destruct (digits_read s (S x) b 1 4 ltac:(lia) D3 ltac:(lia)) as (d3 & R3 & N3 & Ed3).
      apply M_opt1_inv in H1 as [H1|[-> ->]].
      + apply M_group in H1 as (e1 & -> & H1). apply M_range_digits in H1 as (-> & L1 & D1); [|lia]. destruct (digits_read s a x 1 2 ltac:(lia) D1 ltac:(lia)) as (d & R & N & Ed).
        exists (d ++ q :: d3), [(lit "season", 0, d); (lit "episode", S (List.length d), d3)]. split; [apply reads_app; exists x; split; [exact R|apply reads_cons; auto]|]. split; [constructor; assumption|]. apply group_reported; [items|groups].
      + exists (q :: d3), [(lit "episode", 1, d3)]. split; [apply reads_cons; auto|]. split; [constructor; assumption|]. apply group_reported; [items|groups].
    - unfold ep_head_re in H. apply M_sq in H as (x & e & H1 & H). apply rlit_reads in H1 as (-> & w & Rw & Ew); [|exact La]. apply M_sq in H as (y & e' & H2 & H). apply M_joined in H2 as [-> H2]. apply joined_text in H2 as (p & Rp & Hp); [|apply Rw].
      apply M_group in H as (e3 & -> & H). apply M_range_digits in H as (-> & L3 & D3); [|lia]. destruct (digits_read s y b 1 4 ltac:(lia) D3 ltac:(lia)) as (d3 & R3 & N3 & Ed3). pose proof (reads_len s _ _ _ Rw) as [E1 _]. pose proof (reads_len s _ _ _ Rp) as [E2 _].
      exists (w ++ p ++ d3), [(lit "episode", List.length (w ++ p), d3)]. split; [apply reads_app; exists x; split; [exact Rw|apply reads_app; eauto]|]. split; [constructor; assumption|]. apply group_reported; [items|groups].
    - unfold cap_head_re in H. apply M_sq in H as (x & e & H1 & H). apply M_group in H1 as (e1 & -> & H1). apply rlit_reads in H1 as (-> & w & Rw & Ew); [|exact La]. apply M_sq in H as (y & e' & H2 & H). apply M_joined in H2 as [-> H2]. apply joined_text in H2 as (p & Rp & Hp); [|apply Rw].
      apply M_sq in H as (z & e' & H3 & H). apply M_group in H3 as (e3 & -> & H3). apply M_range_digits in H3 as (-> & L3 & D3); [|lia]. apply M_group in H as (e4 & -> & H). apply M_rep_digits in H as (-> & -> & D4).
      destruct (digits_read s y z 1 2 ltac:(lia) D3 ltac:(lia)) as (d3 & R3 & N3 & Ed3). destruct (digits_read s z (z + 2) 2 2 ltac:(lia) D4 ltac:(lia)) as (d4 & R4 & N4 & Ed4). pose proof (reads_len s _ _ _ Rw) as [E1 _]. pose proof (reads_len s _ _ _ Rp) as [E2 _].
      exists (w ++ p ++ d3 ++ d4), [(lit "season", List.length (w ++ p), d3); (lit "episode", List.length (w ++ p ++ d3), d4)]. split; [apply reads_app; exists x; split; [exact Rw|apply reads_app; exists y; split; [exact Rp|apply reads_app; eauto]]|]. split; [constructor; assumption|]. apply group_reported; [items|groups].
  Qed.
  Lemma version_reads k mx tags name i b c : k <> Cap -> M s (RSeq (one_of (lit "v")) (RGrp 1 digits1)) i [] b c ->
    exists t l, reads s i b t /\ goes_on k t l /\ reported s i (group_of s (mk_part (ep_rx (RSeq (one_of (lit "v")) (RGrp 1 digits1)) [(1, lit "version")] name tags) mx, (i, b, c))) l.
  Proof.
    intros K H. apply M_sq in H as (x & e & H1 & H). apply one_of_In in H1 as (-> & -> & q & Eq & Lq). apply M_group in H as (e3 & -> & H). apply M_digits in H as (-> & L & D).
    destruct (digits_read s (S i) b 1 (b - S i) L D ltac:(lia)) as (d & R & N & Ed). exists (q :: d), [(lit "version", 1, d)]. split; [apply reads_cons; auto|]. split; [constructor; [exact K|exact Lq|apply N]|]. apply group_reported; [items|groups].
  Qed.
  Lemma next_reads k mx x number tags name i b c m n : 1 <= m -> (forall q d, letter x q -> digits m n d -> goes_on k (q :: d) [(lit "episode", 1, d)]) ->
    (forall i c j d, M s number i c j d -> d = (2, (i, j)) :: c /\ i + m <= j <= i + n /\ all_in s is_digit i j) -> M s (RSeq (RGrp 1 (one_of x)) number) i [] b c ->
    exists t l, reads s i b t /\ goes_on k t l /\ reported s i (group_of s (mk_part (ep_rx (RSeq (RGrp 1 (one_of x)) number) [(1, lit "episodeSeparator"); (2, lit "episode")] name tags) mx, (i, b, c))) l.
  Proof.
    intros Lm Hg Hn H. apply M_sq in H as (y & e & H1 & H). apply M_group in H1 as (e1 & -> & H1). apply one_of_In in H1 as (-> & -> & q & Eq & Lq). apply Hn in H as (-> & L & D).
    destruct (digits_read s (S i) b m n ltac:(lia) D ltac:(lia)) as (d & R & N & Ed). exists (q :: d), [(lit "episode", 1, d)]. split; [apply reads_cons; auto|]. split; [apply Hg; assumption|]. apply group_reported; [items|groups].
  Qed.
  Lemma tail_reads k p i b c : In p (ch_tails (chain_of cfg k)) -> i <= List.length s -> M s (rx_re (pt_rx p)) i [] b c ->
    exists t l, reads s i b t /\ goes_on k t l /\ reported s i (group_of s (p, (i, b, c))) l.
  Proof.
    intros I Li H. destruct k; cbn [chain_of weak2_chain weak0_chain weak34_chain weak1_chain dup_chain e_chain ep_chain_ cap_chain weak_chain ep_chain ch_tails In] in I.
    - destruct I as [<-|[<-|[]]]; [apply version_reads; [discriminate|exact H]|]. eapply (next_reads Two); [| |  |exact H].
      + apply (Nat.le_succ_diag_r 1).
      + intros; constructor; eassumption.
      + intros i0 c0 j0 d0 H0. apply M_group in H0 as (e & -> & H0). apply M_rep_digits in H0 as (-> & -> & D). split; [reflexivity|]. split; [lia|exact D].
    - destruct I as [<-|[<-|[]]]; [apply version_reads; [discriminate|exact H]|]. cbn [weak_tail pt_rx ep_rx rx_re] in H. apply M_sq in H as (y & e & H1 & H). apply M_group in H1 as (e1 & -> & H1). apply one_of_In in H1 as (-> & -> & q & Eq & Lq).
      apply M_sq in H as (x & e & H2 & H). apply M_zero in H2 as (-> & -> & E0). apply M_group in H as (e & -> & H). apply M_range_digits in H as (-> & L & D); [|lia].
      destruct (digits_read s (S (S i)) b 1 2 ltac:(lia) D ltac:(lia)) as (d & R & N & Ed). exists (q :: 48%N :: d), [(lit "episode", 2, d)]. split; [apply reads_cons; split; [exact Eq|]; apply reads_cons; auto|]. split; [constructor; assumption|]. apply group_reported; [items|groups].
    - destruct I as [<-|[<-|[]]]; [apply version_reads; [discriminate|exact H]|]. eapply (next_reads Three); [| |  |exact H].
      + apply (le_n_S 0 2). lia.
      + intros; constructor; eassumption.
      + intros i0 c0 j0 d0 H0. apply M_group in H0 as (e & -> & H0). apply M_range_digits in H0 as (-> & L & D); [|lia]. split; [reflexivity|]. split; [exact L|exact D].
    - destruct I as [<-|[<-|[]]]; [apply version_reads; [discriminate|exact H]|]. eapply (next_reads One); [| |  |exact H].
      + apply (le_n 1).
      + intros; constructor; eassumption.
      + intros i0 c0 j0 d0 H0. apply M_group in H0 as (e & -> & H0). apply M_range_digits in H0 as (-> & L & D); [|lia]. split; [reflexivity|]. split; [exact L|exact D].
    - destruct I as [<-|[<-|[]]]; [apply version_reads; [discriminate|exact H]|]. eapply (next_reads Duplicate); [| |  |exact H].
      + apply (Nat.le_succ_diag_r 1).
      + intros; constructor; eassumption.
      + intros i0 c0 j0 d0 H0. apply M_group in H0 as (e & -> & H0). apply M_rep_digits in H0 as (-> & -> & D). split; [reflexivity|]. split; [lia|exact D].
    - destruct I as [<-|[<-|[]]]; [apply version_reads; [discriminate|exact H]|]. eapply (next_reads Marked); [| |  |exact H].
      + apply (le_n 1).
      + intros; constructor; eassumption.
      + intros i0 c0 j0 d0 H0. apply M_group in H0 as (e & -> & H0). apply M_range_digits in H0 as (-> & L & D); [|lia]. split; [reflexivity|]. split; [exact L|exact D].
    - destruct I as [<-|[<-|[]]]; [apply version_reads; [discriminate|exact H]|]. cbn [weak_tail pt_rx ep_rx rx_re] in H. apply M_sq in H as (y & e & H1 & H). apply M_group in H1 as (e1 & -> & H1). apply M_group in H as (e2 & -> & H). apply M_range_digits in H as (-> & L & D); [|lia].
      assert (W : e1 = [] /\ exists w, reads s i y w /\ (lower w = lit "ep" \/ exists c, w = [c] /\ letter (lit "ex-") c)).
      { apply M_alt_inv in H1 as [H1|H1].
        - apply rlit_reads in H1 as (-> & w & Rw & Ew); [|exact Li]. split; [reflexivity|]. eauto.
        - apply one_of_In in H1 as (-> & -> & q & Eq & Lq). split; [reflexivity|]. exists [q]. split; [apply reads_one; auto|]. right. eauto. }
      destruct W as (-> & w & Rw & Ww). destruct (digits_read s y b 1 4 ltac:(lia) D ltac:(lia)) as (d & R & N & Ed). pose proof (reads_len s _ _ _ Rw) as [E1 _].
      exists (w ++ d), [(lit "episode", List.length w, d)]. split; [apply reads_app; eauto|]. split; [constructor; assumption|]. apply group_reported; [items|groups].
    - destruct I as [<-|[]]. cbn [pt_rx ep_rx rx_re cap_tail_re] in H. unfold cap_tail_re in H. apply M_sq in H as (y & e & H1 & H). apply M_group in H1 as (e1 & -> & H1). unfold dash in H1. apply M_chr_iff in H1 as (-> & -> & q & Eq & Sq). apply no_fs_iff in Sq as (Sq & S1 & S2).
      apply M_sq in H as (z & e' & H3 & H). apply M_group in H3 as (e3 & -> & H3). apply M_range_digits in H3 as (-> & L3 & D3); [|lia]. apply M_group in H as (e4 & -> & H). apply M_rep_digits in H as (-> & -> & D4).
      destruct (digits_read s (S i) z 1 2 ltac:(lia) D3 ltac:(lia)) as (d3 & R3 & N3 & Ed3). destruct (digits_read s z (z + 2) 2 2 ltac:(lia) D4 ltac:(lia)) as (d4 & R4 & N4 & Ed4).
      exists (q :: d3 ++ d4), [(lit "season", 1, d3); (lit "episode", S (List.length d3), d4)]. split; [apply reads_cons; split; [exact Eq|]; apply reads_app; eauto|]. split; [constructor; assumption|]. apply group_reported; [items|groups].
  Qed.
End Heads.

(** ** chains whose first part is there once *)
Section Once.
  Context (s : str) (C : chain) (Hmax : pt_max (ch_head C) = Some 1).
  Lemma loop_once fuel : forall pos l, In l (chain_loop C s fuel pos) -> exists h r, l = (ch_head C, h) :: r /\ forall g, In g r -> In (fst g) (ch_tails C).
  Proof.
    induction fuel as [|n IH]; intros pos l; cbn [chain_loop]; [intros []|]. destruct (pos <? List.length s); [|intros []].
    destruct (head_found s pos (ch_head C)) as [|h hs] eqn:E; [intros []|]. assert (hs = []) as ->.
    { unfold head_found in E. rewrite Hmax in E. destruct (finditer_from _ _ _); [discriminate|]. cbn [limit firstn] in E. injection E as _ <-. reflexivity. }
    pose proof (tails_sound s (ch_tails C) (end_of pos [h])) as T. destruct (tails_found s (end_of pos [h]) (ch_tails C)) as [gs e]. cbn [fst] in T.
    intros [<-|H]; [|eapply IH, H]. exists h, gs. split; [reflexivity|]. intros g Hg. apply (T g Hg).
  Qed.
  Lemma chain_sound_once m : (forall f, good s (ch_head C, f) -> ch_breaker C (group_of s (ch_head C, f)) = false) ->
    In m (chain_matches C s) -> exists h r t a e,
    follow a ((ch_head C, h) :: t) e /\ without r t /\
    good s (ch_head C, h) /\ (forall g, In g t -> In (fst g) (ch_tails C) /\ good s g) /\
    ch_valid C s (chain_parent C s ((ch_head C, h) :: r)) (kids_of s ((ch_head C, h) :: r)) = true /\
    (m = chain_parent C s ((ch_head C, h) :: r) \/ exists g m', In g ((ch_head C, h) :: r) /\ In m' (group_of s g) /\ m = hide (ch_private C) m').
  Proof.
    intros Hb. unfold chain_matches. rewrite in_flat_map. intros (l & Hl & Hm). unfold chain_one in Hm. destruct (settled C s l) as [|g gs] eqn:E; [destruct Hm|].
    destruct (settled_spec s C l (g :: gs) E ltac:(discriminate)) as (V & r & K). pose proof (loop_follow s C _ _ _ Hl) as (a & e & F). pose proof (loop_once _ _ _ Hl) as (h1 & t1 & El & T1). apply loop_sound in Hl as (h & t & -> & G1 & G2). injection El as <- <-.
    destruct (kept_head s C (ch_head C, h) t (Hb h G1)) as (r' & K'). pose proof (kept_without s C ((ch_head C, h) :: t)) as W. unfold grp in *. rewrite K in K', W. cbn [app] in K'. injection K' as -> E2.
    cbn [app] in W. apply (without_prefix ((ch_head C, h) :: gs) r) in W.
    assert (W' : without gs t). { inversion W; subst; [|assumption]. clear - H1. remember ((ch_head C, h) :: gs) as l eqn:E. revert E. induction H1; intros E; [discriminate|constructor; auto|]. injection E as -> ->. constructor. assumption. }
    exists h, gs, t, a, e. split; [exact F|]. split; [exact W'|]. split; [exact G1|]. split; [intros x Hx; split; [apply T1, Hx|apply G2, Hx]|]. split; [exact V|].
    destruct Hm as [<-|Hm]; [left; reflexivity|right]. apply in_map_iff in Hm as (m' & <- & Hm). unfold kids_of in Hm. apply in_flat_map in Hm as (g & Hg & Hm). eauto.
  Qed.
End Once.

Lemma head_one cfg k s a b c : at_most_one (lit "season") (group_of s (ch_head (chain_of cfg k), (a, b, c))) /\ at_most_one (lit "episode") (group_of s (ch_head (chain_of cfg k), (a, b, c))).
Proof.
  destruct k; cbn [chain_of weak2_chain weak0_chain weak34_chain weak1_chain dup_chain e_chain ep_chain_ cap_chain weak_chain ep_chain ch_head];
  (split; (apply group_one; [reflexivity|vm_compute; lia])).
Qed.
Lemma chain_is cfg k : exists head tails name tags, chain_of cfg k = ep_chain cfg head tails name tags /\ pt_max head = Some 1.
Proof. destruct k; do 4 eexists; split; reflexivity. Qed.
(** ** C96: nothing else is read *)
Theorem C96_sound cfg k s m : public (chain_matches (chain_of cfg k) s) m ->
  exists a b e t l, alone s a b /\ e <= b /\ reads s a e t /\ opens k t l /\
  exists a' e' t' l' i d, a' <= e' <= b /\ reads s a' e' t' /\ ((a' = a /\ e' = e /\ t' = t /\ l' = l) \/ (e <= a' /\ goes_on k t' l')) /\
    In (m_name m, i, d) l' /\ number d /\ m_start m = a' + i /\ m_end m = a' + i + List.length d /\ reads s (m_start m) (m_end m) d /\ m_value m = MvInt (value_of d).
Proof.
  intros [Hm Pm]. destruct (chain_is cfg k) as (head & tails & nm & tg & Ec & Emax).
  assert (Eh : ch_head (chain_of cfg k) = head) by (rewrite Ec; reflexivity). assert (Et : ch_tails (chain_of cfg k) = tails) by (rewrite Ec; reflexivity).
  apply chain_sound_once in Hm as (h & r & t & a & e & F & W & G1 & G2 & V & Hm).
  2: { rewrite Eh. exact Emax. }
  2: { intros [[x y] c] _. destruct (head_one cfg k s x y c) as [O1 O2]. rewrite Ec in *. cbn [ep_chain ch_breaker ch_head] in *. apply one_unbroken; assumption. }
  set (gs := (ch_head (chain_of cfg k), h) :: r) in *. destruct Hm as [->|(g & m' & Ig & Im & ->)]; [discriminate Pm|].
  assert (GA : forall g, In g ((ch_head (chain_of cfg k), h) :: t) -> good s g) by (intros g0 [<-|I]; [exact G1|apply G2, I]).
  assert (Wg : without gs ((ch_head (chain_of cfg k), h) :: t)) by (apply without_keep, W).
  destruct (follow_ordered s a _ e GA F) as (O & _ & _). pose proof (without_ordered _ _ _ Wg O) as Og.
  assert (Gg : forall g, In g gs -> good s g) by (intros g0 I; apply GA; eapply without_In; eassumption).
  set (b := match rev gs with g :: _ => g_end g | [] => 0 end).
  assert (Al : alone s (f_start h) b).
  { rewrite Ec in V. cbn [ep_chain ch_valid] in V. unfold ep_valid in V. apply Bool.andb_true_iff in V as [V _]. apply seps_alone in V. exact V. }
  assert (Hb : forall g, In g gs -> g_end g <= b) by (intros g0 I; apply (last_end s gs g0 Og Gg I)).
  assert (Hg : forall g, In g gs -> snd g = h /\ fst g = ch_head (chain_of cfg k) \/ f_end h <= f_start (snd g)).
  { intros g0 [<-|I]; [left; auto|right]. inversion Og as [|? ? F1 _]. rewrite Forall_forall in F1. exact (F1 g0 I). }
  assert (Hp : forall g, In g r -> In (fst g) (ch_tails (chain_of cfg k))) by (intros g0 I; apply (G2 g0 (without_In _ _ _ W I))).
  assert (Ep : ch_private (chain_of cfg k) = private_names) by (rewrite Ec; reflexivity). rewrite Ep in *.
  destruct (hide_fields private_names m') as (-> & -> & -> & -> & Eq). rewrite Eq in Pm. apply Bool.orb_false_iff in Pm as [Pm Sm].
  destruct G1 as [M1 L1]. cbn [fst snd] in M1, L1. apply match_at_M in M1. destruct h as [[a0 e0] c0]. unfold g_end in M1. cbn [f_start f_end fst snd] in *.
  destruct (head_reads cfg s k a0 e0 c0 L1 M1) as (t0 & l0 & R0 & Op & Rp0). exists a0, b, e0, t0, l0. split; [exact Al|]. split; [apply (Hb (ch_head (chain_of cfg k), (a0, e0, c0))); left; reflexivity|]. split; [exact R0|]. split; [exact Op|].
  destruct Ig as [<-|Ig].
  - destruct Rp0 as [Rp1 Rp2]. destruct (Rp2 m' Im) as [X|[X|(n & i & d & I & E1 & E2 & E3 & E4)]]; [congruence|congruence|]. destruct (Rp1 n i d I) as (N & Rd & _).
    exists a0, e0, t0, l0, i, d. split; [split; [apply R0|apply (Hb (ch_head (chain_of cfg k), (a0, e0, c0))); left; reflexivity]|]. split; [exact R0|]. split; [left; auto|]. rewrite E3, E1, E2, E4. split; [exact I|]. split; [exact N|]. split; [reflexivity|]. split; [reflexivity|]. split; [exact Rd|reflexivity].
  - assert (I2 : In g gs) by (right; exact Ig). destruct (Gg g I2) as [M2 L2]. destruct (Hg g I2) as [[Eg1 Eg2]|Lg].
    { exfalso. pose proof (Hp g Ig) as Hq. rewrite Eg2 in Hq. clear - Hq. destruct k; cbn in Hq; repeat (destruct Hq as [Hq|Hq]; [discriminate Hq|]); destruct Hq. }
    pose proof (Hb g I2) as B2. pose proof (Hp g Ig) as P2. destruct g as [p [[i1 j1] c1]]. unfold g_end in *. cbn [f_start f_end fst snd] in *. apply match_at_M in M2.
    destruct (tail_reads cfg s k p i1 j1 c1 P2 L2 M2) as (t1 & l1 & R1 & On & Rq1 & Rq2). destruct (Rq2 m' Im) as [X|[X|(n & i & d & I & E1 & E2 & E3 & E4)]]; [congruence|congruence|]. destruct (Rq1 n i d I) as (N & Rd & _).
    exists i1, j1, t1, l1, i, d. split; [split; [apply R1|exact B2]|]. split; [exact R1|]. split; [right; auto|]. rewrite E3, E1, E2, E4. split; [exact I|]. split; [exact N|]. split; [reflexivity|]. split; [reflexivity|]. split; [exact Rd|reflexivity].
Qed.
Print Assumptions C96_sound.

(** ** a text is read in one way *)
Lemma number_nosep d c : number d -> In c d -> is_digit c = true.
Proof. intros [_ N] I. apply is_digit_iff, N, I. Qed.
Lemma e_nodigit c : letter (lit "e") c -> is_digit c = false.
Proof. intros [H|[]]. assert (H' : 101%N = to_lower c) by exact H. unfold to_lower in H'. unfold is_digit. destruct (is_upper c) eqn:U; [unfold is_upper in U|]; lia. Qed.
Lemma split_at (P : N -> bool) : forall (u v : str) x y u' v', (forall c, In c u -> P c = true) -> (forall c, In c u' -> P c = true) -> P x = false -> P y = false -> u ++ x :: v = u' ++ y :: v' -> u = u' /\ x = y /\ v = v'.
Proof.
  induction u as [|a u IH]; intros v x y u' v' Hu Hu' Px Py E; destruct u' as [|a' u']; cbn [app] in E.
  - injection E as -> ->. auto.
  - injection E as -> _. rewrite (Hu' a' (or_introl eq_refl)) in Px. discriminate.
  - injection E as -> _. rewrite (Hu y (or_introl eq_refl)) in Py. discriminate.
  - injection E as -> E. apply IH in E as (-> & -> & ->); [auto|intros c Hc; apply Hu; right; exact Hc|intros c Hc; apply Hu'; right; exact Hc|exact Px|exact Py].
Qed.
Lemma sep_split p p' d d' : maybe_sep p -> maybe_sep p' -> number d -> number d' -> p ++ d = p' ++ d' -> p = p' /\ d = d'.
Proof.
  intros Hp Hp' N N' E. destruct d as [|x d]; [destruct N; congruence|]. destruct d' as [|x' d']; [destruct N'; congruence|]. pose proof (number_nosep _ x N (or_introl eq_refl)) as Dx. pose proof (number_nosep _ x' N' (or_introl eq_refl)) as Dx'.
  destruct Hp as [->|(c & -> & I & _)], Hp' as [->|(c' & -> & I' & _)]; cbn [app] in E; injection E as E1 E2; subst.
  - auto.
  - rewrite (sep_nodigit c' I') in Dx. discriminate.
  - rewrite (sep_nodigit x' I) in Dx'. discriminate.
  - auto.
Qed.
Lemma opens_fun k t l l' : opens k t l -> opens k t l' -> l = l'.
Proof.
  intros H H'. destruct k.
  - inversion H; inversion H'; subst. reflexivity.
  - inversion H; inversion H'; subst. congruence.
  - inversion H; inversion H'; subst. reflexivity.
  - inversion H; inversion H'; subst. reflexivity.
  - inversion H as [| | | |d e [_ D] [_ E] E0 E1 E2| | | |]. inversion H' as [| | | |d' e' [_ D'] [_ E'] E0' E1' E2'| | | |]. subst l l'. rewrite <- E1' in E1. apply app_inj_len in E1 as [-> ->]; [reflexivity|]. apply (f_equal (@List.length _)) in E1. rewrite !app_length in E1. lia.
  - inversion H as [| | | | |c e Lc D E0 E1 E2|d c e D0 Lc D E0 E1 E2| |]; inversion H' as [| | | | |c' e' Lc' D' E0' E1' E2'|d' c' e' D0' Lc' D' E0' E1' E2'| |]; subst l l'; rewrite <- E1' in E1.
    + injection E1 as -> ->. reflexivity.
    + destruct (split_at is_digit [] e c c' d' e') as (<- & _ & _); [intros ? []|intros x; apply number_nosep, D0'|apply e_nodigit, Lc|apply e_nodigit, Lc'|exact E1|]. destruct D0' as [[D0' _] _]. congruence.
    + destruct (split_at is_digit d e c c' [] e') as (-> & _ & _); [intros x; apply number_nosep, D0|intros ? []|apply e_nodigit, Lc|apply e_nodigit, Lc'|exact E1|]. destruct D0 as [[D0 _] _]. congruence.
    + destruct (split_at is_digit d e c c' d' e') as (-> & _ & ->); [intros x; apply number_nosep, D0|intros x; apply number_nosep, D0'|apply e_nodigit, Lc|apply e_nodigit, Lc'|exact E1|]. reflexivity.
  - inversion H as [| | | | | | |w p e W P D E0 E1 E2|]. inversion H' as [| | | | | | |w' p' e' W' P' D' E0' E1' E2'|]. subst l l'. rewrite <- E1' in E1. apply app_inj_len in E1 as [-> E1].
    + apply (sep_split p p' e e' P P' (proj1 D) (proj1 D')) in E1 as [-> ->]. reflexivity.
    + apply (f_equal (@List.length _)) in W, W'. unfold lower in W, W'. rewrite map_length in W, W'. lia.
  - inversion H as [| | | | | | | |w p d e W P D0 D E0 E1 E2]. inversion H' as [| | | | | | | |w' p' d' e' W' P' D0' D' E0' E1' E2']. subst l l'. rewrite <- E1' in E1. apply app_inj_len in E1 as [-> E1].
    + assert (NA : forall u v m n m' n', digits m n u -> digits m' n' v -> number (u ++ v)).
      { intros u v m n m' n' [[U1 U2] _] [[V1 V2] _]. split; [destruct u; [congruence|discriminate]|]. intros c I. apply in_app_iff in I as [I|I]; auto. }
      apply (sep_split p p' (d ++ e) (d' ++ e') P P' (NA _ _ _ _ _ _ D0 D) (NA _ _ _ _ _ _ D0' D')) in E1 as [-> E1]. destruct D0 as [_ D0], D as [_ D], D0' as [_ D0'], D' as [_ D'].
      apply app_inj_len in E1 as [-> ->]; [reflexivity|]. apply (f_equal (@List.length _)) in E1. rewrite !app_length in E1. lia.
    + apply (f_equal (@List.length _)) in W, W'. unfold lower in W, W'. rewrite map_length in W, W'. lia.
Qed.

(** ** the expression takes the whole text *)
Section Whole.
  Context (s : str).
  Lemma greedy_end i j b n : all_in s is_digit i j -> all_in s is_digit i b -> stops s is_digit b -> j = i + n \/ stops s is_digit j -> b <= i + n -> i <= j -> i <= b -> j = b.
  Proof.
    intros D D' S H L L1 L2. destruct H as [->|H]; [|apply (runs_agree s is_digit i j b); assumption].
    destruct (Nat.lt_ge_cases b (i + n)) as [G|G]; [|lia]. destruct (D b ltac:(lia)) as (c & Ec & Dc). rewrite (S c Ec) in Dc. discriminate.
  Qed.
  Lemma dup_greedy {A} g1 g2 i c (k : nat -> caps -> option A) x : (forall j d, k j d <> None) ->
    mtch s (RSeq (RGrp g1 (rrange digit 1 2)) (RGrp g2 (rrep digit 2))) i c k = Some x ->
    exists j d, i + 3 <= j <= i + 4 /\ all_in s is_digit i j /\ (j = i + 4 \/ stops s is_digit j) /\ k j d = Some x.
  Proof.
    intros Hk. unfold rrange, digit. cbn [rrep ropt Nat.sub mtch]. 
    destruct (nth_error s i) as [c1|] eqn:E1; [|discriminate]. destruct (is_digit c1) eqn:D1; [|discriminate].
    destruct (nth_error s (S i)) as [c2|] eqn:E2; [|discriminate]. destruct (is_digit c2) eqn:D2; [|discriminate].
    destruct (nth_error s (S (S i))) as [c3|] eqn:E3; [|discriminate]. destruct (is_digit c3) eqn:D3; [|discriminate].
    assert (A3 : all_in s is_digit i (S (S (S i)))). { intros z Hz. assert (Q : z = i \/ z = S i \/ z = S (S i)) by lia. destruct Q as [->|[->| -> ]]; eauto. }
    assert (K3 : forall d, k (S (S (S i))) d = Some x -> stops s is_digit (S (S (S i))) -> exists j d, i + 3 <= j <= i + 4 /\ all_in s is_digit i j /\ (j = i + 4 \/ stops s is_digit j) /\ k j d = Some x).
    { intros d Ed St. exists (S (S (S i))), d. split; [lia|]. split; [exact A3|]. split; [right; exact St|exact Ed]. }
    destruct (nth_error s (S (S (S i)))) as [c4|] eqn:E4.
    - destruct (is_digit c4) eqn:D4.
      + match goal with |- context [k (S (S (S (S i)))) ?d] => destruct (k (S (S (S (S i)))) d) as [z|] eqn:Ek; [|exfalso; exact (Hk _ _ Ek)]; intros H; injection H as ->; exists (S (S (S (S i)))), d end.
        split; [lia|]. split; [intros z Hz; destruct (Nat.eq_dec z (S (S (S i)))) as [->|]; [eauto|apply A3; lia]|]. split; [left; lia|exact Ek].
      + intros H. eapply K3; [exact H|]. intros c0 E0. rewrite E4 in E0. injection E0 as <-. exact D4.
    - intros H. eapply K3; [exact H|]. intros c0 E0. rewrite E4 in E0. discriminate.
  Qed.
End Whole.

Section Match.
  Context (cfg : epcfg) (s : str).
  Lemma letter_M x i y : nth_error s i = Some y -> letter x y -> forall c, M s (one_of x) i c (S i) c.
  Proof. intros E L c. apply one_of_In. split; [reflexivity|]. split; [reflexivity|]. eauto. Qed.
  Lemma opens_M k a b t l : reads s a b t -> opens k t l -> exists c, M s (hre cfg k) a [] b c.
  Proof.
    intros R H. assert (La : a <= List.length s) by (destruct R; lia).
    destruct H as [d D|d D|d D|d D|d e D D2|q e Lq D|d q e D0 Lq D|w p e W P D|w p d e W P D0 D]; unfold hre; cbn [chain_of weak2_chain weak0_chain weak34_chain weak1_chain dup_chain e_chain ep_chain_ cap_chain weak_chain ep_chain ch_head pt_rx ep_rx rx_re].
    - destruct (digits_all s a b d 2 2 ltac:(lia) R D) as (L & A & B). eexists. apply M_group. eexists. split; [reflexivity|]. apply M_rep_digits. split; [reflexivity|]. split; [lia|exact A].
    - apply reads_cons in R as [E R]. destruct (digits_all s (S a) b d 1 2 ltac:(lia) R D) as (L & A & B). eexists. apply M_sq. exists (S a), []. split; [apply M_zero; auto|]. apply M_group. eexists. split; [reflexivity|]. apply M_range_digits; [lia|]. split; [reflexivity|]. split; [lia|exact A].
    - destruct (digits_all s a b d 3 4 ltac:(lia) R D) as (L & A & B). eexists. apply M_group. eexists. split; [reflexivity|]. apply M_range_digits; [lia|]. split; [reflexivity|]. split; [lia|exact A].
    - destruct (digits_all s a b d 1 1 ltac:(lia) R D) as (L & A & B). eexists. apply M_group. eexists. split; [reflexivity|]. unfold digit. apply M_chr_iff. split; [reflexivity|]. split; [lia|apply A; lia].
    - apply reads_app in R as (x & R1 & R2). destruct (digits_all s a x d 1 2 ltac:(lia) R1 D) as (L & A & B). destruct (digits_all s x b e 2 2 ltac:(lia) R2 D2) as (L2 & A2 & B2).
      eexists. unfold dup_head_re. apply M_sq. exists x. eexists. split; [apply M_group; eexists; split; [reflexivity|]; apply M_range_digits; [lia|]; split; [reflexivity|]; split; [lia|exact A]|]. apply M_group. eexists. split; [reflexivity|]. apply M_rep_digits. split; [reflexivity|]. split; [lia|exact A2].
    - apply reads_cons in R as [E R]. destruct (digits_all s (S a) b e 1 4 ltac:(lia) R D) as (L & A & B). eexists. unfold e_head_re. apply M_sq. exists a, []. split; [apply M_opt0|]. apply M_sq. exists (S a). eexists. split; [apply M_group; eexists; split; [reflexivity|]; eapply letter_M; eassumption|].
      apply M_group. eexists. split; [reflexivity|]. apply M_range_digits; [lia|]. split; [reflexivity|]. split; [lia|exact A].
    - apply reads_app in R as (x & R1 & R). apply reads_cons in R as [E R]. destruct (digits_all s a x d 1 2 ltac:(lia) R1 D0) as (L0 & A0 & B0). destruct (digits_all s (S x) b e 1 4 ltac:(lia) R D) as (L & A & B). eexists. unfold e_head_re. apply M_sq. exists x. eexists. split; [apply M_opt1, M_group; eexists; split; [reflexivity|]; apply M_range_digits; [lia|]; split; [reflexivity|]; split; [lia|exact A0]|].
      apply M_sq. exists (S x). eexists. split; [apply M_group; eexists; split; [reflexivity|]; eapply letter_M; eassumption|].
      apply M_group. eexists. split; [reflexivity|]. apply M_range_digits; [lia|]. split; [reflexivity|]. split; [lia|exact A].
    - apply reads_app in R as (x & R1 & R). apply reads_app in R as (y & R2 & R). destruct (digits_all s y b e 1 4 ltac:(lia) R D) as (L & A & B). eexists. unfold ep_head_re. apply M_sq. exists x, []. split; [apply rlit_reads; [exact La|]; eauto|]. apply M_sq. exists y, []. split; [apply M_joined; split; [reflexivity|]; apply joined_text; [apply R1|eauto]|].
      apply M_group. eexists. split; [reflexivity|]. apply M_range_digits; [lia|]. split; [reflexivity|]. split; [lia|exact A].
    - apply reads_app in R as (x & R1 & R). apply reads_app in R as (y & R2 & R). apply reads_app in R as (z & R3 & R). destruct (digits_all s y z d 1 2 ltac:(lia) R3 D0) as (L0 & A0 & B0). destruct (digits_all s z b e 2 2 ltac:(lia) R D) as (L & A & B). eexists. unfold cap_head_re. apply M_sq. exists x. eexists. split; [apply M_group; eexists; split; [reflexivity|]; apply rlit_reads; [exact La|]; eauto|]. apply M_sq. exists y. eexists. split; [apply M_joined; split; [reflexivity|]; apply joined_text; [apply R1|eauto]|].
      apply M_sq. exists z. eexists. split; [apply M_group; eexists; split; [reflexivity|]; apply M_range_digits; [lia|]; split; [reflexivity|]; split; [lia|exact A0]|]. apply M_group. eexists. split; [reflexivity|]. apply M_rep_digits. split; [reflexivity|]. split; [lia|exact A].
  Qed.
  (** the digits that end the text are taken as far as possible *)
  Lemma grp_greedy {A} g m n i c (k : nat -> caps -> option A) x : m <= n -> (forall j d, k j d <> None) -> mtch s (RGrp g (rrange digit m n)) i c k = Some x ->
    exists j d, i + m <= j <= i + n /\ all_in s is_digit i j /\ (j = i + n \/ stops s is_digit j) /\ k j d = Some x.
  Proof. intros L Hk H. cbn [mtch] in H. apply range_greedy in H as (j & H1 & H2 & H3 & H4); [|exact L|intros; apply Hk]. eauto 7. Qed.
  Lemma digit_nostop i b : i < b -> all_in s is_digit i b -> exists z, nth_error s i = Some z /\ is_digit z = true.
  Proof. intros L D. apply D. lia. Qed.
  Lemma head_match k a b t l : reads s a b t -> opens k t l -> stops s is_digit b -> exists c, match_at s (hre cfg k) a = Some (b, c) /\ reported s a (group_of s (ch_head (chain_of cfg k), (a, b, c))) l.
  Proof.
    intros R H S. assert (La : a <= List.length s) by (destruct R; lia). destruct (opens_M k a b t l R H) as (c0 & HM). destruct (M_match_at s (hre cfg k) a b c0 La HM) as (b' & c & E).
    assert (Eb : b' = b).
    { clear HM c0. unfold match_at, hre in E. destruct H as [d D|d D|d D|d D|d e D D2|q e Lq D|d q e D0 Lq D|w p e W P D|w p d e W P D0 D]; cbn [chain_of weak2_chain weak0_chain weak34_chain weak1_chain dup_chain e_chain ep_chain_ cap_chain weak_chain ep_chain ch_head pt_rx ep_rx rx_re] in E.
      - destruct (digits_all s a b d 2 2 ltac:(lia) R D) as (L & A & B). cbn [mtch] in E. apply mtch_rep in E as [_ E]. injection E as <- _. lia.
      - apply reads_cons in R as [E0 R]. destruct (digits_all s (Datatypes.S a) b d 1 2 ltac:(lia) R D) as (L & A & B). apply mtch_seq in E as (x & e & H1 & E). apply M_zero in H1 as (-> & -> & _). apply grp_greedy in E as (j & e & H1 & H2 & H3 & E); [|lia|discriminate]. injection E as <- _. eapply greedy_end; try eassumption; lia.
      - destruct (digits_all s a b d 3 4 ltac:(lia) R D) as (L & A & B). apply grp_greedy in E as (j & e & H1 & H2 & H3 & E); [|lia|discriminate]. injection E as <- _. eapply greedy_end; try eassumption; lia.
      - destruct (digits_all s a b d 1 1 ltac:(lia) R D) as (L & A & B). cbn [mtch] in E. unfold digit in E. cbn [mtch] in E. destruct (nth_error s a); [|discriminate]. destruct (is_digit n); [|discriminate]. injection E as <- _. lia.
      - apply reads_app in R as (x & R1 & R2). destruct (digits_all s a x d 1 2 ltac:(lia) R1 D) as (L & A & B). destruct (digits_all s x b e 2 2 ltac:(lia) R2 D2) as (L2 & A2 & B2). unfold dup_head_re in E. apply dup_greedy in E as (j & e' & H1 & H2 & H3 & E); [|discriminate]. injection E as <- _.
        apply (greedy_end s a j b 4); try assumption; try lia. intros z Hz. destruct (Nat.lt_ge_cases z x); [apply A; lia|apply A2; lia].
      - apply reads_cons in R as [E0 R]. destruct (digits_all s (Datatypes.S a) b e 1 4 ltac:(lia) R D) as (L & A & B). unfold e_head_re in E. apply mtch_seq in E as (x & e1 & H1 & E). apply mtch_seq in E as (y & e2 & H2 & E). apply M_group in H2 as (e3 & -> & H2). apply one_of_In in H2 as (-> & -> & q' & Eq' & Lq').
        assert (x = a) as ->. { apply M_opt1_inv in H1 as [H1|[-> _]]; [exfalso|reflexivity]. apply M_group in H1 as (e4 & _ & H1). apply M_range_digits in H1 as (_ & L1 & D1); [|lia]. destruct (D1 a ltac:(lia)) as (z & Ez & Dz). rewrite E0 in Ez. injection Ez as <-. rewrite (e_nodigit q Lq) in Dz. discriminate. }
        apply grp_greedy in E as (j & e4 & H3 & H4 & H5 & E); [|lia|discriminate]. injection E as <- _. eapply greedy_end; try eassumption; lia.
      - apply reads_app in R as (x & R1 & R). apply reads_cons in R as [E0 R]. destruct (digits_all s a x d 1 2 ltac:(lia) R1 D0) as (L0 & A0 & B0). destruct (digits_all s (Datatypes.S x) b e 1 4 ltac:(lia) R D) as (L & A & B). unfold e_head_re in E. apply mtch_seq in E as (x' & e1 & H1 & E). apply mtch_seq in E as (y & e2 & H2 & E). apply M_group in H2 as (e3 & -> & H2). apply one_of_In in H2 as (-> & -> & q' & Eq' & Lq').
        assert (x' = x) as ->. { apply (runs_agree s is_digit a x' x); [| |exact A0| | |lia].
          - apply M_opt1_inv in H1 as [H1|[-> _]]; [|intros z Hz; lia]. apply M_group in H1 as (e4 & _ & H1). apply M_range_digits in H1 as (_ & L1 & D1); [exact D1|lia].
          - intros z Ez. rewrite Eq' in Ez. injection Ez as <-. apply e_nodigit, Lq'.
          - intros z Ez. rewrite E0 in Ez. injection Ez as <-. apply e_nodigit, Lq.
          - apply M_mono in H1 as [H1 _]. lia. }
        apply grp_greedy in E as (j & e4 & H3 & H4 & H5 & E); [|lia|discriminate]. injection E as <- _. eapply greedy_end; try eassumption; lia.
      - apply reads_app in R as (x & R1 & R). apply reads_app in R as (y & R2 & R). destruct (digits_all s y b e 1 4 ltac:(lia) R D) as (L & A & B). unfold ep_head_re in E. apply mtch_seq in E as (x' & e1 & H1 & E). apply rlit_reads in H1 as (-> & w' & Rw & Ew); [|exact La]. apply mtch_seq in E as (y' & e2 & H2 & E). apply M_joined in H2 as [-> H2].
        assert (x' = x) as ->. { pose proof (reads_len s _ _ _ Rw) as [Q1 _]. pose proof (reads_len s _ _ _ R1) as [Q2 _]. rewrite <- W in Ew. apply (f_equal (@List.length _)) in Ew. unfold lower in Ew. rewrite !map_length in Ew. lia. }
        apply grp_greedy in E as (j & e4 & H3 & H4 & H5 & E); [|lia|discriminate]. injection E as <- _.
        assert (J : joined s x y) by (apply joined_text; [apply R1|eauto]). destruct (digit_nostop y b L A) as (z & Ez & Dz). destruct (digit_nostop y' j ltac:(lia) H4) as (z' & Ez' & Dz'). assert (y' = y) as -> by exact (joined_det s x y' y z' z H2 Ez' (digit_nosep z' Dz') J Ez (digit_nosep z Dz)).
        eapply greedy_end; try eassumption; lia.
      - apply reads_app in R as (x & R1 & R). apply reads_app in R as (y & R2 & R). apply reads_app in R as (v & R3 & R). destruct (digits_all s y v d 1 2 ltac:(lia) R3 D0) as (L0 & A0 & B0). destruct (digits_all s v b e 2 2 ltac:(lia) R D) as (L & A & B). unfold cap_head_re in E. apply mtch_seq in E as (x' & e1 & H1 & E). apply M_group in H1 as (e5 & -> & H1). apply rlit_reads in H1 as (-> & w' & Rw & Ew); [|exact La]. apply mtch_seq in E as (y' & e2 & H2 & E). apply M_joined in H2 as [-> H2].
        assert (x' = x) as ->. { pose proof (reads_len s _ _ _ Rw) as [Q1 _]. pose proof (reads_len s _ _ _ R1) as [Q2 _]. rewrite <- W in Ew. apply (f_equal (@List.length _)) in Ew. unfold lower in Ew. rewrite !map_length in Ew. lia. }
        apply dup_greedy in E as (j & e4 & H3 & H4 & H5 & E); [|discriminate]. injection E as <- _.
        assert (A' : all_in s is_digit y b) by (intros z Hz; destruct (Nat.lt_ge_cases z v); [apply A0; lia|apply A; lia]).
        assert (J : joined s x y) by (apply joined_text; [apply R1|eauto]). destruct (digit_nostop y b ltac:(lia) A') as (z & Ez & Dz). destruct (digit_nostop y' j ltac:(lia) H4) as (z' & Ez' & Dz'). assert (y' = y) as -> by exact (joined_det s x y' y z' z H2 Ez' (digit_nosep z' Dz') J Ez (digit_nosep z Dz)).
        apply (greedy_end s y j b 4); try assumption; lia. }
    subst b'. exists c. split; [exact E|]. destruct (head_reads cfg s k a b c La (match_at_M _ _ _ _ _ E)) as (t' & l' & R' & H' & Rp). assert (t' = t) as -> by (destruct R as [_ <-], R' as [_ <-]; reflexivity). rewrite (opens_fun k t l l' H H'). exact Rp.
  Qed.
End Match.

(** ** what is before does not reach it *)
Lemma nth_num d i c : number d -> nth_error d i = Some c -> In c seps -> False.
Proof. intros N E I. apply nth_error_In in E. pose proof (number_nosep d c N E) as D. rewrite (sep_nodigit c I) in D. discriminate. Qed.
Lemma nth_app_inv {A} (u v : list A) i c : nth_error (u ++ v) i = Some c -> nth_error u i = Some c \/ exists j, i = List.length u + j /\ nth_error v j = Some c.
Proof.
  intros H. destruct (Nat.lt_ge_cases i (List.length u)) as [L|L]; [left; rewrite nth_error_app1 in H; assumption|right]. exists (i - List.length u). split; [lia|]. rewrite nth_error_app2 in H; assumption.
Qed.
Lemma nth_word w x i c : (forall y, In y x -> is_lower y = true) -> lower w = x -> nth_error w i = Some c -> In c seps -> False.
Proof. intros Hx E H I. apply nth_error_In in H. pose proof (in_lower_alpha x w Hx E c H) as Al. rewrite (sep_noalpha c I) in Al. discriminate. Qed.
Lemma first_digit d : number d -> exists c, nth_error d 0 = Some c /\ is_digit c = true.
Proof. intros N. destruct d as [|c d]; [destruct N; congruence|]. exists c. split; [reflexivity|]. apply (number_nosep _ c N). left. reflexivity. Qed.
Lemma in_word y : In y (lit "ep") \/ In y (lit "cap") -> is_lower y = true.
Proof. intros [H|H]; vm_compute in H; repeat (destruct H as [<-|H]; [reflexivity|]); destruct H. Qed.
Lemma letter_sep x c : (x = lit "x-" \/ x = lit "ex-" \/ x = lit "v" \/ x = lit "e") -> letter x c -> In c seps -> c = 45%N.
Proof.
  intros Hx L I. assert (U : is_upper c = false) by (pose proof (sep_noalpha c I) as Q; unfold is_alpha in Q; apply Bool.orb_false_iff in Q; tauto).
  assert (Al : is_alpha c = false) by apply (sep_noalpha c I). unfold letter, to_lower in L. rewrite U in L. unfold is_alpha, is_upper, is_lower in Al.
  assert (Q : c = 120%N \/ c = 45%N \/ c = 101%N \/ c = 118%N). { destruct Hx as [->|[->|[->| -> ]]]; vm_compute in L; intuition. }
  destruct Q as [->|[->|[->| -> ]]]; [discriminate Al|reflexivity|discriminate Al|discriminate Al].
Qed.
Lemma opens_seps k t l i c : opens k t l -> nth_error t i = Some c -> In c seps -> (k = Ep \/ k = Cap) /\ exists x, nth_error t (S i) = Some x /\ is_digit x = true.
Proof.
  intros H E I. destruct H as [d D|d D|d D|d D|d e D D2|q e Lq D|d q e D0 Lq D|w p e W P D|w p d e W P D0 D].
  - destruct (nth_num d i c (proj1 D) E I).
  - exfalso. destruct i as [|i]; [injection E as <-; vm_compute in I; repeat (destruct I as [I|I]; [discriminate I|]); destruct I|]. exact (nth_num d i c (proj1 D) E I).
  - destruct (nth_num d i c (proj1 D) E I).
  - destruct (nth_num d i c (proj1 D) E I).
  - exfalso. apply nth_app_inv in E as [E|(j & _ & E)]; [exact (nth_num d i c (proj1 D) E I)|exact (nth_num e j c (proj1 D2) E I)].
  - exfalso. destruct i as [|i]; [injection E as <-|exact (nth_num e i c (proj1 D) E I)]. pose proof (letter_sep _ q ltac:(auto) Lq I) as ->. vm_compute in Lq. destruct Lq as [Lq|[]]. discriminate.
  - exfalso. apply nth_app_inv in E as [E|(j & _ & E)]; [exact (nth_num d i c (proj1 D0) E I)|]. destruct j as [|i0]; [injection E as <-|exact (nth_num e i0 c (proj1 D) E I)]. pose proof (letter_sep _ q ltac:(auto) Lq I) as ->. vm_compute in Lq. destruct Lq as [Lq|[]]. discriminate.
  - split; [auto|]. apply nth_app_inv in E as [E|(j & -> & E)]; [destruct (nth_word w _ i c (fun y H => in_word y (or_introl H)) W E I)|]. apply nth_app_inv in E as [E|(j' & -> & E)]; [|destruct (nth_num e j' c (proj1 D) E I)].
    destruct P as [->|(c' & -> & _)]; [destruct j; discriminate|]. destruct j as [|[|]]; try discriminate. destruct (first_digit e (proj1 D)) as (x & Ex & Dx). exists x. split; [|exact Dx].
    rewrite nth_error_app2 by lia. replace (S (List.length w + 0) - List.length w) with 1 by lia. exact Ex.
  - split; [auto|]. assert (N : number (d ++ e)). { destruct D0 as [[U1 U2] _], D as [[V1 V2] _]. split; [destruct d; [congruence|discriminate]|]. intros x Hx. apply in_app_iff in Hx as [Hx|Hx]; auto. }
    apply nth_app_inv in E as [E|(j & -> & E)]; [destruct (nth_word w _ i c (fun y H => in_word y (or_intror H)) W E I)|]. apply nth_app_inv in E as [E|(j' & -> & E)]; [|destruct (nth_num (d ++ e) j' c N E I)].
    destruct P as [->|(c' & -> & _)]; [destruct j; discriminate|]. destruct j as [|[|]]; try discriminate. destruct (first_digit _ N) as (x & Ex & Dx). exists x. split; [|exact Dx].
    rewrite nth_error_app2 by lia. replace (S (List.length w + 0) - List.length w) with 1 by lia. exact Ex.
Qed.
Lemma opens_first k t l c : opens k t l -> k = Ep \/ k = Cap -> nth_error t 0 = Some c -> is_digit c = false.
Proof.
  intros H K E. assert (G : forall w x r, (x = lit "ep" \/ x = lit "cap") -> lower w = x -> nth_error (w ++ r) 0 = Some c -> is_digit c = false).
  { intros w x r Hx W E'. destruct w as [|c' w]; [destruct Hx as [-> | ->]; discriminate W|]. injection E' as ->. apply alpha_nodigit. apply (in_lower_alpha x (c :: w)); [intros y Hy; apply in_word; destruct Hx as [-> | ->]; auto|exact W|left; reflexivity]. }
  destruct H as [d D|d D|d D|d D|d e D D2|q e Lq D|d q e D0 Lq D|w p e W P D|w p d e W P D0 D]; try (destruct K; discriminate); (eapply G; [|exact W|exact E]; auto).
Qed.
Lemma on_seps k t l i c : goes_on k t l -> nth_error t i = Some c -> In c seps -> i = 0 /\ (c = 45%N \/ k = Cap) /\ exists x, nth_error t 1 = Some x /\ is_digit x = true.
Proof.
  assert (G : forall x d q, (x = lit "x-" \/ x = lit "ex-" \/ x = lit "v" \/ x = lit "e") -> letter x q -> number d -> nth_error (q :: d) i = Some c -> In c seps -> i = 0 /\ (c = 45%N \/ k = Cap) /\ exists x, nth_error (q :: d) 1 = Some x /\ is_digit x = true).
  { intros x d q Hx Lq N E I. destruct i as [|i]; [injection E as <-|destruct (nth_num d i c N E I)]. split; [reflexivity|]. split; [left; exact (letter_sep x q Hx Lq I)|]. exact (first_digit d N). }
  assert (Z : forall d, number d -> number (48%N :: d)) by (intros d [N1 N2]; split; [discriminate|]; intros x [<-|Hx]; [lia|auto]).
  intros H E I. destruct H as [k q d K Lq N|q d Lq D|q d Lq D|q d Lq D|q d Lq D|q d Lq D|q d Lq D|w d W D|q d e Iq Q1 Q2 D D2].
  - apply (G (lit "v")); auto.
  - apply (G (lit "x-")); auto. apply D.
  - apply (G (lit "x-")); auto. apply Z, D.
  - apply (G (lit "x-")); auto. apply D.
  - apply (G (lit "x-")); auto. apply D.
  - apply (G (lit "x-")); auto. apply D.
  - apply (G (lit "ex-")); auto. apply D.
  - destruct W as [W|(q & -> & Lq)]; [exfalso|apply (G (lit "ex-")); auto; apply D]. apply nth_app_inv in E as [E|(j & _ & E)]; [exact (nth_word w _ i c (fun y H => in_word y (or_introl H)) W E I)|exact (nth_num d j c (proj1 D) E I)].
  - assert (N : number (d ++ e)). { destruct D2 as [[U1 U2] _], D as [[V1 V2] _]. split; [destruct d; [congruence|discriminate]|]. intros x Hx. apply in_app_iff in Hx as [Hx|Hx]; auto. }
    destruct i as [|i]; [|destruct (nth_num (d ++ e) i c N E I)]. split; [reflexivity|]. split; [auto|]. exact (first_digit _ N).
Qed.
Lemma last_digit (u d : str) : number d -> exists v x, u ++ d = v ++ [x] /\ is_digit x = true.
Proof.
  intros N. destruct (@exists_last _ d) as (v & x & E); [intros ->; destruct N; congruence|]. exists (u ++ v), x. split; [rewrite E, app_assoc; reflexivity|]. apply (number_nosep d x N). rewrite E. apply in_app_iff. right. left. reflexivity.
Qed.
Lemma opens_last k t l : opens k t l -> exists v x, t = v ++ [x] /\ is_digit x = true.
Proof.
  intros H. destruct H as [d D|d D|d D|d D|d e D D2|q e Lq D|d q e D0 Lq D|w p e W P D|w p d e W P D0 D].
  - apply (last_digit [] d (proj1 D)).
  - apply (last_digit [48%N] d (proj1 D)).
  - apply (last_digit [] d (proj1 D)).
  - apply (last_digit [] d (proj1 D)).
  - apply (last_digit d e (proj1 D2)).
  - apply (last_digit [q] e (proj1 D)).
  - replace (d ++ q :: e) with ((d ++ [q]) ++ e) by (rewrite <- app_assoc; reflexivity). apply (last_digit _ e (proj1 D)).
  - rewrite app_assoc. apply (last_digit _ e (proj1 D)).
  - rewrite !app_assoc. apply (last_digit _ e (proj1 D)).
Qed.
Lemma on_last k t l : goes_on k t l -> exists v x, t = v ++ [x] /\ is_digit x = true.
Proof.
  intros H. destruct H as [k q d K Lq N|q d Lq D|q d Lq D|q d Lq D|q d Lq D|q d Lq D|q d Lq D|w d W D|q d e Iq Q1 Q2 D D2].
  - apply (last_digit [q] d N).
  - apply (last_digit [q] d (proj1 D)).
  - apply (last_digit [q; 48%N] d (proj1 D)).
  - apply (last_digit [q] d (proj1 D)).
  - apply (last_digit [q] d (proj1 D)).
  - apply (last_digit [q] d (proj1 D)).
  - apply (last_digit [q] d (proj1 D)).
  - apply (last_digit w d (proj1 D)).
  - apply (last_digit (q :: d) e (proj1 D2)).
Qed.
Lemma reads_nth s a b t i : reads s a b t -> i < List.length t -> nth_error s (a + i) = nth_error t i.
Proof. intros R L. pose proof (reads_len s a b t R) as [E _]. destruct R as [_ Es]. rewrite <- Es, slice_nth. destruct (Nat.ltb_spec i (b - a)); [reflexivity|lia]. Qed.

Lemma head_in cfg s k a c b d : M s (hre cfg k) a c b d -> a < b /\ a < List.length s.
Proof.
  assert (G : forall x y, a <= x -> x < y -> y <= b -> all_in s is_digit x y -> a < b /\ a < List.length s).
  { intros x y L1 L2 L3 D. destruct (D x ltac:(lia)) as (z & Ez & _). apply nth_error_lt in Ez. lia. }
  intros H. destruct k; unfold hre in H; cbn [chain_of weak2_chain weak0_chain weak34_chain weak1_chain dup_chain e_chain ep_chain_ cap_chain weak_chain ep_chain ch_head pt_rx ep_rx rx_re] in H.
  - apply M_group in H as (e & _ & H). apply M_rep_digits in H as (_ & -> & D). apply (G a (a + 2)); try assumption; lia.
  - apply M_sq in H as (x & e & H1 & H). apply M_mono in H1 as [H1 _]. apply M_group in H as (e1 & _ & H). apply M_range_digits in H as (_ & L & D); [|lia]. apply (G x b); try assumption; lia.
  - apply M_group in H as (e & _ & H). apply M_range_digits in H as (_ & L & D); [|lia]. apply (G a b); try assumption; lia.
  - apply M_group in H as (e & _ & H). unfold digit in H. apply M_chr_iff in H as (_ & -> & z & Ez & _). apply nth_error_lt in Ez. lia.
  - unfold dup_head_re in H. apply M_sq in H as (x & e & H1 & H). apply M_mono in H1 as [H1 _]. apply M_group in H as (e1 & _ & H). apply M_rep_digits in H as (_ & -> & D). apply (G x (x + 2)); try assumption; lia.
  - unfold e_head_re in H. apply M_sq in H as (x & e & H1 & H). apply M_mono in H1 as [H1 _]. apply M_sq in H as (y & e' & H2 & H). apply M_mono in H2 as [H2 _]. apply M_group in H as (e1 & _ & H). apply M_range_digits in H as (_ & L & D); [|lia]. apply (G y b); try assumption; lia.
  - unfold ep_head_re in H. apply M_sq in H as (x & e & H1 & H). apply M_mono in H1 as [H1 _]. apply M_sq in H as (y & e' & H2 & H). apply M_mono in H2 as [H2 _]. apply M_group in H as (e1 & _ & H). apply M_range_digits in H as (_ & L & D); [|lia]. apply (G y b); try assumption; lia.
  - unfold cap_head_re in H. apply M_sq in H as (x & e & H1 & H). apply M_mono in H1 as [H1 _]. apply M_sq in H as (y & e' & H2 & H). apply M_mono in H2 as [H2 _]. apply M_sq in H as (z & e2 & H3 & H). apply M_mono in H3 as [H3 _]. apply M_group in H as (e1 & _ & H). apply M_rep_digits in H as (_ & -> & D). apply (G z (z + 2)); try assumption; lia.
Qed.
Section Found96.
  Context (cfg : epcfg) (k : form) (s : str) (a b : nat) (t : str) (l : list item).
  Context (R : reads s a b t) (Op : opens k t l) (Al : forall c, 0 < a -> nth_error s (a - 1) = Some c -> In c seps) (Nd : ~ dashed s a).
  Lemma text_first : exists c, nth_error s a = Some c /\ nth_error t 0 = Some c.
  Proof. clear Al Nd.
    destruct (opens_last k t l Op) as (v & x & Et & _). assert (L : 0 < List.length t) by (rewrite Et, app_length; cbn [List.length]; lia). pose proof (reads_nth s a b t 0 R L) as E. rewrite Nat.add_0_r in E.
    destruct t as [|c t']; [cbn in L; lia|]. exists c. split; [exact E|reflexivity].
  Qed.
  Lemma no_start x : k = Ep \/ k = Cap -> nth_error s a = Some x -> is_digit x = true -> False.
  Proof. intros K E D. destruct text_first as (c & Ec & Et). rewrite E in Ec. injection Ec as <-. rewrite (opens_first k t l x Op K Et) in D. discriminate. Qed.
  Lemma crossed a' b' u : a' < a -> a <= b' -> reads s a' b' u -> exists i c, a' + i = a - 1 /\ nth_error u i = Some c /\ In c seps /\ nth_error s (a - 1) = Some c /\ forall x, nth_error u (S i) = Some x -> nth_error s a = Some x.
  Proof.
    intros L L2 R'. pose proof (reads_len s a' b' u R') as [E _]. pose proof (reads_nth s a' b' u (a - 1 - a') R' ltac:(lia)) as E1. replace (a' + (a - 1 - a')) with (a - 1) in E1 by lia.
    case_eq (nth_error s (a - 1)); [intros c Ec|intros Ec].
    - exists (a - 1 - a'), c. split; [lia|]. split; [rewrite <- E1; exact Ec|]. split; [apply (Al c ltac:(lia) Ec)|]. split; [first [reflexivity|exact Ec]|]. intros x Ex. pose proof (nth_error_lt _ _ _ Ex) as Lx. rewrite <- (reads_nth s a' b' u _ R' Lx) in Ex. replace (a' + S (a - 1 - a')) with a in Ex by lia. exact Ex.
    - exfalso. apply nth_error_None in Ec. destruct R as [Q _]. destruct text_first as (c & E0 & _). apply nth_error_lt in E0. lia.
  Qed.
  Lemma heads_before a' b' d : a' < a -> M s (hre cfg k) a' [] b' d -> b' < a.
  Proof.
    intros L H. destruct (Nat.lt_ge_cases b' a) as [G|G]; [exact G|exfalso]. assert (La : a' <= List.length s) by (destruct R; lia). destruct (head_reads cfg s k a' b' d La H) as (u & l' & Ru & Ou & _).
    destruct (crossed a' b' u L G Ru) as (i & c & _ & Ei & Ic & _ & Hx). destruct (opens_seps k u l' i c Ou Ei Ic) as (K & x & Ex & Dx). exact (no_start x K (Hx x Ex) Dx).
  Qed.
  Lemma ended_digit e : ended s (chain_of cfg k) e -> e <= List.length s /\ exists c, 0 < e /\ nth_error s (e - 1) = Some c /\ is_digit c = true.
  Proof.
    assert (G : forall a0 b0 u, reads s a0 b0 u -> (exists v x, u = v ++ [x] /\ is_digit x = true) -> b0 <= List.length s /\ exists c, 0 < b0 /\ nth_error s (b0 - 1) = Some c /\ is_digit c = true).
    { intros a0 b0 u Ru (v & x & -> & Dx). split; [apply Ru|]. apply reads_app in Ru as (y & _ & Ru). apply reads_one in Ru as [-> Ex]. exists x. split; [lia|]. replace (S y - 1) with y by lia. auto. }
    intros He. induction He as [a0 e d H|q a0 e d He IH I H].
    - destruct (head_reads cfg s k a0 e d ltac:(pose proof (head_in cfg s k a0 [] e d H); lia) H) as (u & l' & Ru & Ou & _). apply (G a0 e u Ru), (opens_last k u l' Ou).
    - destruct IH as (La & _). destruct (tail_reads cfg s k q a0 e d I La H) as (u & l' & Ru & Ou & _). apply (G a0 e u Ru), (on_last k u l' Ou).
  Qed.
  Lemma tails_before96 p a' b' d : In p (ch_tails (chain_of cfg k)) -> ended s (chain_of cfg k) a' -> a' < a -> M s (rx_re (pt_rx p)) a' [] b' d -> b' < a.
  Proof.
    intros I He L H. destruct (Nat.lt_ge_cases b' a) as [G|G]; [exact G|exfalso]. destruct (ended_digit a' He) as (La & q & Lq & Eq & Dq). destruct (tail_reads cfg s k p a' b' d I La H) as (u & l' & Ru & Ou & _).
    destruct (crossed a' b' u L G Ru) as (i & c & Ei & Eu & Ic & Ec & Hx). destruct (on_seps k u l' i c Ou Eu Ic) as (-> & K & x & Ex & Dx). specialize (Hx x Ex).
    destruct K as [-> |K]; [|exact (no_start x (or_intror K) Hx Dx)]. apply Nd. exists (a' - 1), q, x. split; [lia|]. split; [exact Eq|]. split; [apply is_digit_iff, Dq|]. split; [replace (S (a' - 1)) with (a - 1) by lia; exact Ec|]. split; [exact Hx|apply is_digit_iff, Dx].
  Qed.
End Found96.
(** ** C96: a text that stands alone is read, unless it is the end of an interval *)
Theorem C96_found cfg k s a b t l : reads s a b t -> opens k t l -> alone s a b -> ~ dashed s a ->
  forall n i d, In (n, i, d) l -> shows (chain_matches (chain_of cfg k) s) (a + i) (a + i + List.length d) n (MvInt (value_of d)).
Proof.
  intros R Op Al Nd n i d I. destruct (chain_is cfg k) as (head & tails & nm & tg & Ec & Emax).
  destruct (head_match cfg s k a b t l R Op (stops_sep s b (proj2 Al))) as (c & Mat & Rp & _). destruct (head_one cfg k s a b c) as [O1 O2]. destruct (text_first k s a b t l R Op) as (c0 & Ec0 & _).
  destruct (Rp n i d I) as (N & Rd & Pn & m & Im & E1 & E2 & E3 & E4 & E5).
  assert (F : In (hide private_names m) (chain_matches (chain_of cfg k) s)).
  { pose proof (heads_before cfg k s a b t l R Op (proj1 Al)) as HB. pose proof (tails_before96 cfg k s a b t l R Op (proj1 Al) Nd) as TB. unfold hre in *. pose proof (head_in cfg s k) as HI. unfold hre in HI. rewrite Ec in *. cbn [ep_chain ch_head ch_tails] in *. apply (ep_found cfg head tails nm tg s a b c); try assumption.
    - intros i0 c1 j d0 H. apply HI in H. lia.
    - rewrite Emax. discriminate.
    - apply nth_error_lt in Ec0. exact Ec0. }
  apply (hidden_shows _ private_names _ _ _ _ m); assumption.
Qed.
Print Assumptions C96_found.

(** ** a version after it *)
Lemma settled_two s C g g' l : ch_breaker C (group_of s g) = false -> ch_breaker C (group_of s g ++ group_of s g') = false -> ch_valid C s (chain_parent C s [g; g']) (group_of s g ++ group_of s g') = true ->
  exists r, settled C s (g :: g' :: l) = g :: g' :: r.
Proof.
  intros B1 B2 V. assert (K : exists r, kept C s (g :: g' :: l) = g :: g' :: r).
  { assert (K1 : kids_of s [g] = group_of s g) by (unfold kids_of; cbn [flat_map]; apply app_nil_r). assert (K2 : kids_of s [g; g'] = group_of s g ++ group_of s g') by (unfold kids_of; cbn [flat_map]; rewrite app_nil_r; reflexivity).
    unfold kept. cbn [fold_left app]. rewrite K1, B1. cbn [app]. rewrite K2, B2. cbn [app].
    assert (Q : forall l cur, exists r, fold_left (fun cur g => if ch_breaker C (kids_of s (cur ++ [g])) then cur else cur ++ [g]) l (g :: g' :: cur) = g :: g' :: r).
    { induction l0 as [|x l0 IH]; intros cur; cbn [fold_left]; [eauto|]. destruct (ch_breaker C (kids_of s ((g :: g' :: cur) ++ [x]))); [apply IH|]. cbn [app]. apply IH. }
    apply Q. }
  destruct K as (r & K). unfold settled. rewrite K. assert (E : rev (g :: g' :: r) = rev r ++ [g'; g]) by (cbn [rev]; rewrite <- app_assoc; reflexivity). rewrite E.
  set (ok := fun gs => ch_valid C s (chain_parent C s gs) (kids_of s gs)). assert (Hok : ok [g; g'] = true) by (unfold ok, kids_of; cbn [flat_map]; rewrite app_nil_r; exact V).
  generalize (rev r) as u. induction u as [|x u IH]; cbn [shrink app].
  - change (rev [g'; g]) with [g; g']. rewrite Hok. eauto.
  - destruct (ok (rev (x :: u ++ [g'; g]))); [|exact IH]. cbn [rev]. rewrite rev_app_distr. cbn [rev app]. eauto.
Qed.
Lemma loop_tails s C : pt_max (ch_head C) = Some 1 -> forall fuel pos l, In l (chain_loop C s fuel pos) -> exists h, l = (ch_head C, h) :: fst (tails_found s (f_end h) (ch_tails C)).
Proof.
  intros Hmax. induction fuel as [|n IH]; intros pos l; cbn [chain_loop]; [intros []|]. destruct (pos <? List.length s); [|intros []].
  destruct (head_found s pos (ch_head C)) as [|h hs] eqn:E; [intros []|]. assert (hs = []) as ->.
  { unfold head_found in E. rewrite Hmax in E. destruct (finditer_from _ _ _); [discriminate|]. cbn [limit firstn] in E. injection E as _ <-. reflexivity. }
  change (end_of pos [h]) with (f_end h). destruct (tails_found s (f_end h) (ch_tails C)) as [gs e] eqn:Et. intros [<-|H]; [|eapply IH, H]. exists h. rewrite Et. reflexivity.
Qed.
Lemma tail_first s p r pos e c : pos <= List.length s -> pt_max p = Some 1 -> match_at s (rx_re (pt_rx p)) pos = Some (e, c) -> exists l, fst (tails_found s pos (p :: r)) = (p, (pos, e, c)) :: l.
Proof.
  intros Lp Hp H. assert (E : tail_found s pos p = [(pos, e, c)]).
  { unfold tail_found, finditer_from. rewrite Hp. cbn [finditer_loop]. destruct (search s (rx_re (pt_rx p)) pos) as [[[x y] d]|] eqn:Es.
    - apply search_at in Es as (H1 & H2 & H3). assert (x = pos) as ->. { destruct (Nat.eq_dec x pos); [assumption|]. rewrite (H3 pos ltac:(lia)) in H. discriminate. }
      rewrite H in H2. injection H2 as <- <-. cbn [run f_start fst]. rewrite Nat.eqb_refl. reflexivity.
    - exfalso. rewrite (search_none _ _ _ Es pos ltac:(lia)) in H. discriminate. }
  cbn [tails_found]. rewrite E. destruct (tails_found s (end_of pos [(pos, e, c)]) r) as [gs z]. exists gs. reflexivity.
Qed.
Lemma version_first cfg k : k <> Cap -> exists tags name r, ch_tails (chain_of cfg k) = version_tail tags name :: r /\ str_eqb name (lit "season") = false /\ str_eqb name (lit "episode") = false.
Proof. intros K. destruct k; try congruence; do 3 eexists; split; try reflexivity; split; reflexivity. Qed.
Lemma at_most_app n u v : at_most_one n u -> List.length (named n v) = 0 -> at_most_one n (u ++ v).
Proof. unfold at_most_one. rewrite !named_filter, filter_app, app_length. lia. Qed.
Theorem C96_version cfg k s a b t l q d : reads s a b (t ++ q :: d) -> opens k t l -> k <> Cap -> letter (lit "v") q -> number d -> alone s a b -> ~ dashed s a ->
  (forall n i e, In (n, i, e) l -> shows (chain_matches (chain_of cfg k) s) (a + i) (a + i + List.length e) n (MvInt (value_of e))) /\
  shows (chain_matches (chain_of cfg k) s) (b - List.length d) b (lit "version") (MvInt (value_of d)).
Proof.
  intros R Op K Lq Nd Al Nh. destruct (chain_is cfg k) as (head & tails & nm & tg & Ec & Emax). apply reads_app in R as (x & R & R2). apply reads_cons in R2 as [Eq R2]. destruct (reads_number s _ _ d R2 Nd) as [L2 D2].
  assert (Sq : stops s is_digit x). { intros z Ez. rewrite Eq in Ez. injection Ez as <-. assert (Q : 118%N = to_lower q) by (destruct Lq as [Lq|[]]; exact Lq). unfold to_lower in Q. unfold is_digit. destruct (is_upper q) eqn:U; [unfold is_upper in U|]; lia. }
  destruct (head_match cfg s k a x t l R Op Sq) as (c & Mat & Rp & _). destruct (text_first k s a x t l R Op) as (c0 & Ec0 & _).
  destruct (version_first cfg k K) as (tags & name & r & Et & Nn1 & Nn2). set (vt := version_tail tags name) in *.
  assert (Mv : match_at s (rx_re (pt_rx vt)) x = Some (b, [(1, (S x, b))])).
  { assert (HM : M s (rx_re (pt_rx vt)) x [] b [(1, (S x, b))]) by (apply M_sq; exists (S x), []; split; [eapply letter_M; eassumption|apply M_group; eexists; split; [reflexivity|apply M_digits; auto]]).
    destruct (M_match_at s _ x b _ ltac:(apply nth_error_lt in Eq; lia) HM) as (b' & c' & E). rewrite E. unfold match_at in E. cbn [vt version_tail pt_rx ep_rx rx_re] in E. apply mtch_seq in E as (y & e & H1 & E). apply one_of_In in H1 as (-> & -> & _). cbn [mtch] in E. apply plus_max in E as (j & L3 & H2 & H3 & E); [|discriminate]. injection E as <- <-.
    assert (j = b) as ->; [|reflexivity]. apply (runs_agree s is_digit (S x) j b); [exact H2|exact H3|exact D2|apply stops_sep, Al|lia|lia]. }
  set (g := (ch_head (chain_of cfg k), (a, x, c))). set (g' := (vt, (x, b, [(1, (S x, b))])) : grp).
  assert (Hin : exists r', In (g :: g' :: r') (chain_loop (chain_of cfg k) s (S (List.length s)) 0)).
  { destruct (loop_reaches s (chain_of cfg k) a x c) with (fuel := S (List.length s)) (pos := 0) as (r0 & Hr).
    - intros i0 c1 j d0 H. apply (head_in cfg s k) in H. lia.
    - rewrite Ec. cbn [ep_chain ch_head]. rewrite Emax. discriminate.
    - apply nth_error_lt in Ec0. exact Ec0.
    - exact Mat.
    - exact (heads_before cfg k s a x t l R Op (proj1 Al)).
    - exact (tails_before96 cfg k s a x t l R Op (proj1 Al) Nh).
    - lia.
    - lia.
    - pose proof Hr as Hr'. apply loop_tails in Hr as (h & Eh); [|rewrite Ec; exact Emax]. injection Eh as Eh1 Eh2. subst h. cbn [f_end fst snd] in Eh2. rewrite Et in Eh2.
      destruct (tail_first s vt r x b [(1, (S x, b))] ltac:(apply nth_error_lt in Eq; lia) eq_refl Mv) as (l0 & El). rewrite El in Eh2. subst r0. exists l0. exact Hr'. }
  destruct Hin as (r' & Hin). destruct (head_one cfg k s a x c) as [O1 O2]. fold g in O1, O2.
  assert (Vg : forall n, (n = lit "season" \/ n = lit "episode") -> List.length (named n (group_of s g')) = 0).
  { intros n Hn. assert (EG : exists k1 pp, group_of s g' = [k1; pp] /\ m_name k1 = lit "version" /\ m_name pp = name) by (do 2 eexists; split; [reflexivity|split; reflexivity]).
    destruct EG as (k1 & pp & -> & N1 & N2). rewrite named_filter. unfold has_name. cbn [filter]. rewrite N1, N2. destruct Hn as [-> | ->]; rewrite ?Nn1, ?Nn2; reflexivity. }
  destruct (settled_two s (chain_of cfg k) g g' r') as (r2 & Es).
  - rewrite Ec. apply one_unbroken; assumption.
  - rewrite Ec. apply one_unbroken; apply at_most_app; auto.
  - replace (ch_valid (chain_of cfg k)) with (ep_valid cfg) by (rewrite Ec; reflexivity). unfold ep_valid. rewrite one_valid by (apply at_most_app; auto). rewrite Bool.andb_true_r. apply seps_alone. exact Al.
  - assert (F : forall m, In m (group_of s g) \/ In m (group_of s g') -> In (hide private_names m) (chain_matches (chain_of cfg k) s)).
    { intros m Hm. unfold chain_matches. apply in_flat_map. eexists. split; [exact Hin|]. unfold chain_one. unfold grp, found in *. rewrite Es. right. replace (ch_private (chain_of cfg k)) with private_names by (rewrite Ec; reflexivity). apply in_map. unfold kids_of. cbn [flat_map]. rewrite !in_app_iff. tauto. }
    split.
    + intros n i e I. destruct (Rp n i e I) as (N & Rd & Pn & m & Im & E1 & E2 & E3 & E4 & E5). apply (hidden_shows _ private_names _ _ _ _ m); try assumption. apply F. left. exact Im.
    + pose proof (reads_len s _ _ d R2) as [E2 _]. set (m := mk_mt (S x) b (lit "version") (int_of_text (slice (S x) b s)) tags false (S x) b (Some (mk_p x b name tags)) []).
      apply (hidden_shows _ private_names _ _ _ _ m); try reflexivity.
      * apply F. right. left. reflexivity.
      * cbn [m m_start]. lia.
      * cbn [m m_value]. apply value_at; assumption.
Qed.
Print Assumptions C96_version.
(** every hypothesis is met *)
Example C96_ex :
  seen (weak2_chain default_cfg) (lit "show 12v2 14-15") = [(5, 7, lit "episode", MvInt 12); (8, 9, lit "version", MvInt 2); (10, 12, lit "episode", MvInt 14); (13, 15, lit "episode", MvInt 15)] /\
  seen (weak0_chain default_cfg) (lit "a.012") = [(3, 5, lit "episode", MvInt 12)] /\
  seen (weak34_chain default_cfg) (lit "a.112") = [(2, 5, lit "episode", MvInt 112)] /\
  seen (dup_chain default_cfg) (lit "a.112.1012") = [(2, 3, lit "season", MvInt 1); (3, 5, lit "episode", MvInt 12); (6, 8, lit "season", MvInt 10); (8, 10, lit "episode", MvInt 12)] /\
  seen (e_chain default_cfg) (lit "a 1e18 E5v3") = [(2, 3, lit "season", MvInt 1); (4, 6, lit "episode", MvInt 18); (8, 9, lit "episode", MvInt 5); (10, 11, lit "version", MvInt 3)] /\
  seen (ep_chain_ default_cfg) (lit "a ep.112-113") = [(5, 8, lit "episode", MvInt 112); (9, 12, lit "episode", MvInt 113)] /\
  seen (cap_chain default_cfg) (lit "a Cap.112_114") = [(6, 7, lit "season", MvInt 1); (7, 9, lit "episode", MvInt 12); (10, 11, lit "season", MvInt 1); (11, 13, lit "episode", MvInt 14)].
Proof. vm_compute. repeat split. Qed.
(** the exception is needed: a number that ends an interval goes with what is before, and is lost with it *)
Theorem C96_limit : seen (weak2_chain default_cfg) (lit "1234-56") = [] /\ dashed (lit "1234-56") 5 /\ alone (lit "1234-56") 5 7 /\ opens Two (lit "56") [(lit "episode", 0, lit "56")].
Proof.
  split; [vm_compute; reflexivity|]. split; [exists 3, 52%N, 53%N; vm_compute; repeat split; discriminate|]. split; [split; intros c; vm_compute; [intros _ H; injection H as <-; tauto|discriminate]|].
  constructor. split; [|vm_compute; lia]. split; [discriminate|]. intros c H. vm_compute in H. destruct H as [<-|[<-|[]]]; split; discriminate.
Qed.
Print Assumptions C96_limit.
