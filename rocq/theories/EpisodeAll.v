(** C93, continued: a whole season, [S01xAll]. *)
From Verif Require Import Py PyFacts Text TextFacts WordsProofs Regex CrcProofs DateProofs RegexFacts RegexOuts Numeral NumeralProofs Date Rebulk RebulkFacts Episodes EpisodeRules EpisodeRulesProps IntProps Patterns PatternsProps DiscProps SxxProps Chain EpisodeChains NumeralRe NumeralReProofs PartProps EpisodeWords EpisodeWordsProofs EpisodeWordsProps EpisodeNumerals.
From Coq Require Import Arith ZifyBool ZifyNat ZifyN.
Local Open Scope nat_scope.

(** the hypotheses of the theorems about words are met, and the limits of the numeral pattern *)
Example C93_digits_ex : episode_written (lit "Show Episode 4 of 12") 5 13 14 14 20 (lit "4") None (Some (lit "12")).
Proof.
  assert (N : forall t, forallb is_digit t = true -> t <> [] -> number t) by (intros t H Nt; split; [exact Nt|]; rewrite forallb_forall in H; intros c Hc; apply is_digit_iff, H, Hc).
  split; [exists (lit "Episode"), (lit " "); split; [split; [vm_compute; lia|vm_compute; reflexivity]|]; split; [vm_compute; tauto|right; exists 32%N; split; [reflexivity|]; split; [vm_compute; tauto|split; discriminate]]|].
  split; [apply N; [reflexivity|discriminate]|]. split; [reflexivity|]. split.
  - split; [reflexivity|]. intros z' n t R (c & -> & Hc & _). apply reads_cons in R as [E _]. vm_compute in E. injection E as <-. destruct Hc; discriminate.
  - split.
    + exists (lit " of 12"). split; [split; [vm_compute; lia|vm_compute; reflexivity]|]. split; [|intros c E; discriminate]. exists (lit " "), (lit "of"), (lit " "). split; [reflexivity|].
      assert (P : maybe_sep (lit " ")) by (right; exists 32%N; split; [reflexivity|]; split; [vm_compute; tauto|split; discriminate]). split; [exact P|]. split; [left; reflexivity|]. split; [exact P|]. apply N; [reflexivity|discriminate].
    + split; [intros c _ E; vm_compute in E; injection E as <-; vm_compute; tauto|intros c E; discriminate].
Qed.
Example C93_numeral_ex : seen_rx (numeral_episode_rx default_cfg) (lit "Show Episode Seven, ep.0012v2 Capitulos IX of 12") =
  [(13, 18, lit "episode", MvInt 7); (23, 27, lit "episode", MvInt 12); (28, 29, lit "version", MvInt 2); (40, 42, lit "episode", MvInt 9); (46, 48, lit "count", MvInt 12)].
Proof. vm_compute. reflexivity. Qed.
(** A limit of the code: with [type: episode], [Episodio 3] is not read, nor is [capitulo] just after another of the words *)
Example C93_limit_ex : seen_rx (numeral_episode_rx default_cfg) (lit "Serie Episodio 3") = [] /\ seen_rx (digit_episode_rx default_cfg) (lit "Serie Episodio 3") = [(15, 16, lit "episode", MvInt 3)] /\
  seen_rx (numeral_episode_rx default_cfg) (lit "ep capitulo 3") = [].
Proof. vm_compute. auto. Qed.
(** ** Specification *)
(** from [k] to [b], alone: perhaps [s], a number from [x] to [y], [xE], [Ex], [E] or [x], and [All], with or without separators *)
Definition whole_season (s : str) (k x y c b : nat) (d : str) : Prop :=
  exists o p1 m p2 a, reads s k b (o ++ d ++ p1 ++ m ++ p2 ++ a) /\ (o = [] \/ lower o = lit "s") /\ number d /\ maybe_sep p1 /\ In (lower m) (map lit ["xe"; "ex"; "e"; "x"]%string) /\ maybe_sep p2 /\
    lower a = lit "all" /\ x = k + List.length o /\ y = x + List.length d /\ c = b - 3 /\ alone s k b.

Section All.
  Context (s : str).
  Definition marks : list str := map lit ["xe"; "ex"; "e"; "x"]%string.
  Lemma marks_letters : letters marks.
  Proof. apply letters_dec. vm_compute. reflexivity. Qed.
  Definition start_at (k x : nat) : Prop := x = k \/ (x = S k /\ exists q, nth_error s k = Some q /\ to_lower q = 115%N).
  Definition all_at (k x y c b : nat) : Prop := start_at k x /\ x < y /\ all_in s is_digit x y /\ exists u w, joined s y u /\ word s marks u w /\ joined s w c /\ spelt s (lit "all") c b.
  Lemma all_M k c b d : k <= List.length s -> M s all_re k c b d <-> exists x y a, all_at k x y a b /\ d = (2, (a, b)) :: (1, (x, y)) :: c.
  Proof.
    intros L. unfold all_re, all_at, start_at. fold marks. split.
    - intros H. apply M_sq in H as (x & e & H1 & H). assert (S1 : e = c /\ start_at k x).
      { change (lit "s") with [115]%N in H1. apply M_opt1_inv in H1 as [H1|[-> ->]]; [|split; [reflexivity|left; reflexivity]]. apply one_of_iff in H1 as (-> & -> & H1). split; [reflexivity|right; auto]. }
      destruct S1 as [-> S1]. apply M_sq in H as (y & e & H2 & H). apply M_group in H2 as (e1 & -> & H2). apply M_digits in H2 as (-> & H2 & H3). pose proof (all_in_len s is_digit x y H2 H3) as Ly.
      apply M_sq in H as (u & e & H4 & H). apply M_joined in H4 as [-> H4]. pose proof (joined_le s y u ltac:(lia) H4) as Lu. apply M_sq in H as (w & e & H5 & H). apply M_word in H5 as [-> H5]; [|exact marks_letters|lia]. apply M_sq in H as (a & e & H6 & H). apply M_joined in H6 as [-> H6].
      pose proof (word_alpha s marks u w marks_letters H5) as [Lw _]. pose proof (joined_le s w a ltac:(lia) H6) as La. apply M_group in H as (e & -> & H7). unfold all_words in H7. cbn [rwords] in H7. apply M_lit in H7 as [-> H7]; [|lia]. exists x, y, a. split; [|reflexivity]. split; [exact S1|]. split; [exact H2|]. split; [exact H3|]. exists u, w. auto.
    - intros (x & y & a & (S1 & H2 & H3 & u & w & H4 & H5 & H6 & H7) & ->). pose proof (all_in_len s is_digit x y H2 H3) as Ly. pose proof (joined_le s y u ltac:(lia) H4) as Lu. pose proof (word_alpha s marks u w marks_letters H5) as [Lw _]. pose proof (joined_le s w a ltac:(lia) H6) as La.
      apply M_sq. exists x, c. split; [destruct S1 as [->|[-> S1]]; [apply M_opt0|apply M_opt1; change (lit "s") with [115]%N; apply one_of_iff; auto]|].
      apply M_sq. exists y, ((1, (x, y)) :: c). split; [apply M_group; eexists; split; [reflexivity|apply M_digits; auto]|]. apply M_sq. exists u, ((1, (x, y)) :: c). split; [apply M_joined; auto|]. apply M_sq. exists w, ((1, (x, y)) :: c). split; [apply M_word; [exact marks_letters|lia|auto]|].
      apply M_sq. exists a, ((1, (x, y)) :: c). split; [apply M_joined; auto|]. apply M_group. eexists. split; [reflexivity|]. unfold all_words. cbn [rwords]. apply M_lit; [lia|auto].
  Qed.
  Lemma start_det k x y x' y' : start_at k x -> start_at k x' -> x < y -> all_in s is_digit x y -> x' < y' -> all_in s is_digit x' y' -> x' = x.
  Proof.
    intros [->|(-> & q & Eq & Lq)] [->|(-> & q' & Eq' & Lq')] L D L' D'; try reflexivity; exfalso.
    - destruct (D k ltac:(lia)) as (r & Er & Dr). rewrite Eq' in Er. injection Er as <-. apply lower_is in Lq'; [|reflexivity]. destruct Lq' as [->| ->]; discriminate.
    - destruct (D' k ltac:(lia)) as (r & Er & Dr). rewrite Eq in Er. injection Er as <-. apply lower_is in Lq; [|reflexivity]. destruct Lq as [->| ->]; discriminate.
  Qed.
  (** after the digits *)
  Definition rest_at (y c b : nat) : Prop := exists u w, joined s y u /\ word s marks u w /\ joined s w c /\ spelt s (lit "all") c b.
  Lemma rest_stops y c b : rest_at y c b -> stops s is_digit y.
  Proof. intros (u & w & J & W & _). destruct (word_alpha s marks u w marks_letters W) as [L A]. destruct (A u ltac:(lia)) as (q & Eq & Aq). exact (joined_no s is_digit y u q sep_nodigit J Eq (alpha_nodigit q Aq)). Qed.
  Lemma all_a c b : spelt s (lit "all") c b -> exists q, nth_error s c = Some q /\ to_lower q = 97%N.
  Proof. intros H. destruct (spelt_char s (lit "all") c b 0 97%N H eq_refl) as (q & Eq & Lq). rewrite Nat.add_0_r in Eq. eauto. Qed.
  Lemma mark_chars u w n : word s marks u w -> u <= n < w -> exists q, nth_error s n = Some q /\ (to_lower q = 120%N \/ to_lower q = 101%N).
  Proof.
    intros (t & R & I) H. pose proof (reads_len s u w t R) as [E L]. destruct R as [Lr Er]. destruct (nth_error s n) as [q|] eqn:Eq; [|apply nth_error_None in Eq; lia]. exists q. split; [reflexivity|].
    assert (Hq : In q t). { rewrite <- Er. apply (nth_error_In _ (n - u)). rewrite slice_nth. destruct (Nat.ltb_spec (n - u) (w - u)); [|lia]. replace (u + (n - u)) with n by lia. exact Eq. }
    assert (G : forallb (fun w => forallb (fun c => N.eqb c 120 || N.eqb c 101) w) marks = true) by (vm_compute; reflexivity). rewrite forallb_forall in G. specialize (G _ I). rewrite forallb_forall in G. specialize (G (to_lower q)). assert (In (to_lower q) (lower t)) by (unfold lower; apply in_map, Hq). specialize (G H0). lia.
  Qed.
  Lemma rest_det y c b c' b' : rest_at y c b -> rest_at y c' b' -> c' = c /\ b' = b.
  Proof.
    intros (u & w & J & W & J2 & A) (u' & w' & J' & W' & J2' & A'). destruct (word_alpha s marks u w marks_letters W) as [L Al]. destruct (word_alpha s marks u' w' marks_letters W') as [L' Al'].
    destruct (Al u ltac:(lia)) as (q & Eq & Aq). destruct (Al' u' ltac:(lia)) as (q' & Eq' & Aq'). assert (u' = u) by exact (joined_det s y u' u q' q J' Eq' (alpha_nosep q' Aq') J Eq (alpha_nosep q Aq)). subst u'.
    destruct (all_a c b A) as (a & Ea & La). destruct (all_a c' b' A') as (a' & Ea' & La').
    assert (X : forall w1 c1 a1 w2, joined s w1 c1 -> nth_error s c1 = Some a1 -> to_lower a1 = 97%N -> word s marks u w2 -> u < w1 -> ~ w1 < w2).
    { intros w1 c1 a1 w2 J1 E1 L1 W2 Lu G. destruct (mark_chars u w2 w1 W2 ltac:(lia)) as (z & Ez & Lz). destruct J1 as [->|(-> & sp & Es & Ss)].
      - rewrite E1 in Ez. injection Ez as <-. destruct Lz; congruence.
      - rewrite Es in Ez. injection Ez as <-. apply no_fs_iff in Ss as (Ss & _). rewrite (sep_lower sp Ss) in Lz. destruct Lz; subst sp; vm_compute in Ss; intuition discriminate. }
    assert (w' = w). { pose proof (X w c a w' J2 Ea La W' ltac:(lia)). pose proof (X w' c' a' w J2' Ea' La' W ltac:(lia)). lia. } subst w'.
    assert (Sa : forall q, to_lower q = 97%N -> ~ In q seps) by (intros z Lz Sz; rewrite (sep_lower z Sz) in Lz; subst z; vm_compute in Sz; intuition discriminate).
    assert (c' = c) by exact (joined_det s w c' c a' a J2' Ea' (Sa a' La') J2 Ea (Sa a La)). subst c'. apply spelt_len in A, A'. lia.
  Qed.
  Lemma all_det k x y c b x' y' c' b' : all_at k x y c b -> all_at k x' y' c' b' -> x' = x /\ y' = y /\ c' = c /\ b' = b.
  Proof.
    intros (S1 & L & D & R) (S1' & L' & D' & R'). assert (x' = x) by exact (start_det k x y x' y' S1 S1' L D L' D'). subst x'. fold (rest_at y c b) in R. fold (rest_at y' c' b') in R'.
    assert (y' = y) by (apply (runs_agree s is_digit x y' y); try assumption; try lia; [exact (rest_stops _ _ _ R')|exact (rest_stops _ _ _ R)]). subst y'. destruct (rest_det y c b c' b' R R') as [-> ->]. auto.
  Qed.
  Lemma all_len k x y c b : all_at k x y c b -> k <= x < y /\ y < c /\ c < b <= List.length s.
  Proof.
    intros (S1 & L & D & u & w & J & W & J2 & A). destruct (word_alpha s marks u w marks_letters W) as [Lw _]. apply spelt_len in A as [-> A]. unfold joined in J, J2. unfold start_at in S1. cbn in A |- *. lia.
  Qed.
  Lemma all_consumes : consumes s all_re.
  Proof.
    intros k c b d H. destruct (Nat.le_gt_cases k (List.length s)) as [L|L].
    - apply all_M in H as (x & y & a & H & _); [|exact L]. apply all_len in H. lia.
    - exfalso. unfold all_re in H. apply M_sq in H as (x & e & H1 & H). apply M_mono in H1 as [H1 _]. apply M_sq in H as (y & e2 & H2 & _). apply M_group in H2 as (e3 & _ & H2). apply M_digits in H2 as (_ & H2 & H3). pose proof (all_in_len s is_digit x y H2 H3). lia.
  Qed.
  Lemma all_isolated k x y c b : all_at k x y c b -> (forall q, 0 < k -> nth_error s (k - 1) = Some q -> In q seps) -> forall k' b' d, k' < k -> M s all_re k' [] b' d -> b' <= k.
  Proof.
    intros H Sq k' b' d L HM. pose proof (all_len _ _ _ _ _ H) as Lh. apply all_M in HM as (x' & y' & c' & H' & _); [|lia]. destruct (Nat.le_gt_cases b' k) as [|G]; [assumption|exfalso].
    destruct (nth_error s (k - 1)) as [r|] eqn:Er; [|apply nth_error_None in Er; lia]. specialize (Sq r ltac:(lia) eq_refl).
    assert (F : exists q, nth_error s k = Some q /\ (is_digit q = true \/ to_lower q = 115%N)).
    { destruct H as ([->|(-> & q & Eq & Lq)] & L1 & D & _); [destruct (D k ltac:(lia)) as (q & Eq & Dq); eauto|eauto]. }
    destruct F as (q & Eq & Hq). destruct H' as (S1 & L1 & D & u & w & J & W & J2 & A). destruct (word_alpha s marks u w marks_letters W) as [Lw Aw].
    assert (Qs : ~ In q seps) by (destruct Hq as [Hq|Hq]; [apply digit_nosep, Hq|intros K; rewrite (sep_lower q K) in Hq; subst q; vm_compute in K; intuition discriminate]).
    assert (DB : forall i j, all_in s is_digit i j -> i <= k - 1 < j -> False) by (intros i j' Al Hij; destruct (Al (k - 1) Hij) as (q' & Eq' & Dq'); rewrite Er in Eq'; injection Eq' as <-; exact (digit_nosep r Dq' Sq)).
    assert (JN : forall i j, joined s i j -> i <= k < j -> False) by (intros i j' [->|(-> & q' & Eq' & Sq')] Hij; [lia|]; assert (i = k) by lia; subst i; rewrite Eq in Eq'; injection Eq' as <-; apply no_fs_iff in Sq'; tauto).
    assert (W1 : x' <= k - 1). { destruct S1 as [->|(-> & z & Ez & Lz)]; [lia|]. destruct (Nat.eq_dec k' (k - 1)) as [->|]; [exfalso|lia]. rewrite Er in Ez. injection Ez as <-. rewrite (sep_lower r Sq) in Lz. subst r. vm_compute in Sq. intuition discriminate. }
    assert (W2 : y' <= k - 1) by (destruct (Nat.le_gt_cases y' (k - 1)); [assumption|exfalso; apply (DB x' y' D); lia]).
    assert (W3 : u <= k) by (destruct (Nat.le_gt_cases u k); [assumption|exfalso; apply (JN y' u J); lia]).
    assert (W4 : w <= k).
    { destruct (Nat.le_gt_cases w k) as [|Gw]; [assumption|exfalso]. destruct (mark_chars u w k W ltac:(lia)) as (z & Ez & Lz). rewrite Eq in Ez. injection Ez as <-. destruct Hq as [Hq|Hq]; [|destruct Lz; congruence]. destruct Lz as [Lz|Lz]; apply lower_is in Lz; try reflexivity; destruct Lz as [->| ->]; discriminate. }
    assert (W5 : c' <= k) by (destruct (Nat.le_gt_cases c' k); [assumption|exfalso; apply (JN w c' J2); lia]).
    pose proof (spelt_len s _ _ _ A) as [Eb _]. change (List.length (lit "all")) with 3 in Eb. destruct (nth_error (lit "all") (k - c')) as [v|] eqn:Ev; [|apply nth_error_None in Ev; change (List.length (lit "all")) with 3 in Ev; lia].
    destruct (spelt_char s _ c' b' _ v A Ev) as (z & Ez & Lz). replace (c' + (k - c')) with k in Ez by lia. rewrite Eq in Ez. injection Ez as <-.
    assert (V : v = 97%N \/ v = 108%N) by (apply nth_error_In in Ev; vm_compute in Ev; destruct Ev as [<-|[<-|[<-|[]]]]; auto).
    destruct Hq as [Hq|Hq]; [|destruct V; congruence]. assert (is_lower v = true) by (destruct V as [->| ->]; reflexivity). apply lower_is in Lz; [|assumption]. destruct V as [->| ->], Lz as [->| ->]; discriminate.
  Qed.
  Lemma all_found k b d : (forall q, 0 < k -> nth_error s (k - 1) = Some q -> In q seps) -> In (k, b, d) (finditer s all_re) <-> exists x y c, all_at k x y c b /\ d = [(2, (c, b)); (1, (x, y))].
  Proof.
    intros A. split.
    - intros H. apply finditer_sound in H as (L & _ & HM); [|exact all_consumes]. apply all_M in HM; [exact HM|lia].
    - intros (x & y & c & H & ->). pose proof (all_len _ _ _ _ _ H) as L. apply finditer_exact; [exact all_consumes|lia| |].
      + intros k' b' d' L' HM. exact (all_isolated k x y c b H A k' b' d' L' HM).
      + destruct (M_match_at s all_re k b [(2, (c, b)); (1, (x, y))]) as (b' & c' & E); [lia|apply all_M; [lia|]; exists x, y, c; auto|]. rewrite E. apply match_at_M, all_M in E as (x' & y' & a' & H' & ->); [|lia]. destruct (all_det k x y c b x' y' a' b' H H') as (-> & -> & -> & ->). reflexivity.
  Qed.
End All.
Lemma season_iff s k x y c b d : whole_season s k x y c b d <-> all_at s k x y c b /\ reads s x y d /\ k <= List.length s /\ alone s k b.
Proof.
  unfold whole_season, all_at. split.
  - intros (o & p1 & m & p2 & a & R & O & N & P1 & Hm & P2 & Ha & -> & -> & -> & A). apply reads_app in R as (x & R1 & R). pose proof (reads_len s k x o R1) as [E1 _]. rewrite <- E1. apply reads_app in R as (y & R2 & R). pose proof (reads_len s x y d R2) as [E2 _]. rewrite <- E2.
    apply reads_app in R as (u & R3 & R). apply reads_app in R as (w & R4 & R). apply reads_app in R as (c & R5 & R6). pose proof (reads_len s c b a R6) as [E6 _]. assert (List.length a = 3) by (rewrite <- lower_length, Ha; reflexivity). replace (b - 3) with c by lia.
    split; [|split; [exact R2|]; split; [destruct R1; lia|exact A]]. split.
    + destruct O as [->|O]; [left; cbn [List.length] in E1; lia|]. right. destruct o as [|q [|q' o]]; [discriminate| |discriminate]. apply reads_one in R1 as [-> Eq]. split; [reflexivity|]. exists q. split; [exact Eq|]. cbn [lower map] in O. change (lit "s") with [115]%N in O. congruence.
    + destruct (reads_number s x y d R2 N) as [L D]. split; [exact L|]. split; [exact D|]. exists u, w. split; [apply joined_text; [destruct R3; lia|eauto]|]. split; [exists m; auto|]. split; [apply joined_text; [destruct R5; lia|eauto]|]. exists a. auto.
  - intros ((S1 & L & D & u & w & J & (m & R4 & Hm) & J2 & (a & R6 & Ha)) & R2 & Lk & A). apply joined_text in J as (p1 & R3 & P1); [|destruct R2; lia]. apply joined_text in J2 as (p2 & R5 & P2); [|destruct R4; lia].
    assert (O : exists o, reads s k x o /\ (o = [] \/ lower o = lit "s")).
    { destruct S1 as [->|(-> & q & Eq & Lq)]; [exists []; split; [apply reads_nil; auto|auto]|]. exists [q]. split; [apply reads_one; auto|]. right. cbn [lower map]. rewrite Lq. reflexivity. }
    destruct O as (o & R1 & O). exists o, p1, m, p2, a. split; [apply reads_app; exists x; split; [exact R1|]; apply reads_app; exists y; split; [exact R2|]; apply reads_app; exists u; split; [exact R3|]; apply reads_app; exists w; split; [exact R4|]; apply reads_app; exists c; auto|].
    split; [exact O|]. split; [rewrite <- (proj2 R2); apply digits_iff; [apply R2|exact L|exact D]|]. split; [exact P1|]. split; [exact Hm|]. split; [exact P2|]. split; [exact Ha|]. pose proof (reads_len _ _ _ _ R1) as [E1 _]. pose proof (reads_len _ _ _ _ R2) as [E2 _]. pose proof (reads_len _ _ _ _ R6) as [E6 _].
    assert (List.length a = 3) by (rewrite <- lower_length, Ha; reflexivity). split; [lia|]. split; [lia|]. split; [lia|exact A].
Qed.
(** ** C93: whole seasons *)
Theorem C93_all cfg s x' y' name v : shows (word_matches (all_rx cfg) s) x' y' name v <->
  exists k x y c b d, whole_season s k x y c b d /\
    ((name = lit "season" /\ x' = x /\ y' = y /\ v = MvInt (value_of d)) \/ (name = lit "other" /\ x' = c /\ y' = b /\ v = MvStr (lit "Complete"))).
Proof.
  unfold word_matches. rewrite (kids_hidden (all_rx cfg) s x' y' name v eq_refl eq_refl). cbn [rx_re all_rx rx_valid].
  assert (KE : forall x y c b, rx_kids (all_rx cfg) s [(2, (c, b)); (1, (x, y))] = [mk_c x y (lit "season") (int_of_text (slice x y s)); mk_c c b (lit "other") (MvStr (lit "Complete"))]) by reflexivity.
  assert (PV : forall k x y c b, ep_parent_valid cfg s (rx_parent (all_rx cfg) s k b [(2, (c, b)); (1, (x, y))]) = true <-> alone s k b).
  { intros k x y c b. unfold ep_parent_valid, ep_valid. rewrite one_valid; [rewrite Bool.andb_true_r; apply seps_alone| |]; unfold at_most_one; rewrite named_filter; unfold kid_matches; cbn [rx_parent m_children]; rewrite KE; vm_compute; lia. }
  split.
  - intros (_ & k & b & cs & Hf & Hv & _ & Hk).
    assert (A : alone s k b). { unfold ep_parent_valid, ep_valid in Hv. apply Bool.andb_true_iff in Hv as [Hv _]. apply seps_alone in Hv. exact Hv. }
    apply all_found in Hf as (x & y & c & H & ->); [|apply A]. rewrite KE in Hk. pose proof (all_len s _ _ _ _ _ H) as L. exists k, x, y, c, b, (slice x y s). split; [apply season_iff; split; [exact H|]; split; [split; [lia|reflexivity]|]; split; [lia|exact A]|].
    destruct Hk as [Hk|[Hk|[]]]; [left|right]; (split; [congruence|]; split; [congruence|]; split; [congruence|]); [assert (v = int_of_text (slice x y s)) as -> by congruence; reflexivity|congruence].
  - intros (k & x & y & c & b & d & H & Hk). apply season_iff in H as (H & R & L & A). split; [destruct Hk as [(-> & _)|(-> & _)]; reflexivity|]. exists k, b, [(2, (c, b)); (1, (x, y))]. split; [apply all_found; [apply A|eauto]|]. split; [apply PV, A|]. split; [reflexivity|]. rewrite KE, (proj2 R).
    destruct Hk as [(-> & -> & -> & ->)|(-> & -> & -> & ->)]; [left|right; left]; reflexivity.
Qed.
Print Assumptions C93_all.
Example C93_all_ex : whole_season (lit "Show S2.xE.All") 5 6 7 11 14 (lit "2").
Proof.
  exists (lit "S"), (lit "."), (lit "xE"), (lit "."), (lit "All"). split; [split; [vm_compute; lia|vm_compute; reflexivity]|]. split; [right; reflexivity|]. split; [split; [discriminate|]; intros c [<-|[]]; split; discriminate|].
  assert (P : maybe_sep (lit ".")) by (right; exists 46%N; split; [reflexivity|]; split; [vm_compute; tauto|split; discriminate]). split; [exact P|]. split; [left; reflexivity|]. split; [exact P|]. split; [reflexivity|]. split; [reflexivity|]. split; [reflexivity|]. split; [reflexivity|].
  split; [intros c _ E; vm_compute in E; injection E as <-; vm_compute; tauto|intros c E; discriminate].
Qed.
