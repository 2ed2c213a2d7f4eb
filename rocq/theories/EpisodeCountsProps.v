(** C101: an episode number followed by a count, with no word before: [3 of 12], [4sur5 ep]; a version alone, [v2]. *)
From Verif Require Import Py PyFacts Text TextFacts WordsProofs Regex CrcProofs DateProofs RegexFacts RegexOuts Numeral NumeralProofs Date Common CommonProps Rebulk RebulkFacts Episodes EpisodeRules EpisodeRulesProps IntProps Patterns PatternsProps DiscProps SxxProps Chain EpisodeChains NumeralRe NumeralReProofs PartProps EpisodeWords EpisodeWordsProofs EpisodeWordsProps EpisodeCounts.
From Coq Require Import Arith ZifyBool ZifyNat ZifyN.
Local Open Scope nat_scope.

(** ** Specification *)
(** from [x] to [e], alone: the number [t] up to [y], [of] or [sur] and the number [n] up to [b], then perhaps a separator
    and one of four words *)
Definition counted (s : str) (x y b e : nat) (t n : str) : Prop :=
  reads s x y t /\ number t /\ (exists c, reads s y b c /\ count_text n c) /\
  ((e = b /\ forall z p w, reads s b z (p ++ w) -> maybe_sep p -> lower w <> lit "ep" /\ lower w <> lit "capitulo") \/
   exists p w, reads s b e (p ++ w) /\ maybe_sep p /\ In (lower w) (map lit ["episode"; "eps"; "ep"; "capitulo"]%string)) /\
  alone s x e.
(** what is written at [x] is not itself a count: no digit, [of] or [sur], stand before it *)
Definition not_a_count (s : str) (x : nat) : Prop := forall k p1 o p2 c, 0 < k -> reads s k x (p1 ++ o ++ p2) ->
  maybe_sep p1 -> (lower o = lit "of" \/ lower o = lit "sur") -> maybe_sep p2 -> nth_error s (k - 1) = Some c -> ~ (48 <= c <= 57)%N.

(** ** the expression *)
Section Counted.
  Context (s : str).
  Definition pair_re : re := RSeq (RGrp 1 digits1) (of_re of_words).
  Definition end_re : re := RSeq dash_opt (ropt (rwords episode_words) 1).
  Lemma outs_assoc a b c : forall i d, outs s (RSeq a (RSeq b c)) i d = outs s (RSeq (RSeq a b) c) i d.
  Proof.
    intros i d. cbn [outs]. induction (outs s a i d) as [|o l IH]; [reflexivity|]. cbn [flat_map]. rewrite IH, flat_map_app. reflexivity.
  Qed.
  Definition pair_at (x y v b : nat) : Prop := x < y /\ all_in s is_digit x y /\ of_at s of_words y v b.
  Lemma of_stops y v b : of_at s of_words y v b -> stops s is_digit y.
  Proof. intros (u & w & J & W & _). destruct (of_alpha s of_words of_letters u w W) as (q & Eq & Aq). exact (joined_no s is_digit y u q sep_nodigit J Eq (alpha_nodigit q Aq)). Qed.
  Lemma pair_M x b d : M s pair_re x [] b d <-> exists y v, pair_at x y v b /\ d = [(4, (v, b)); (1, (x, y))].
  Proof.
    unfold pair_re, pair_at. split.
    - intros H. apply M_sq in H as (y & e & H1 & H2). apply M_group in H1 as (e1 & -> & H1). apply M_digits in H1 as (-> & L & D). pose proof (all_in_len s is_digit x y L D) as L'.
      apply of_M in H2 as (v & O & ->); [|exact of_letters|exact L']. exists y, v. auto.
    - intros (y & v & (L & D & O) & ->). pose proof (all_in_len s is_digit x y L D) as L'. apply M_sq. exists y, [(1, (x, y))]. split; [apply M_group; exists []; split; [reflexivity|apply M_digits; auto]|]. apply of_M; [exact of_letters|exact L'|]. eauto.
  Qed.
  Lemma pair_det x y v b y' v' b' : pair_at x y v b -> pair_at x y' v' b' -> stops s is_digit b -> stops s is_digit b' -> y' = y /\ v' = v /\ b' = b.
  Proof.
    intros (L & D & O) (L' & D' & O') S S'. assert (y' = y) by (apply (runs_agree s is_digit x y' y); [exact D'|exact (of_stops _ _ _ O')|exact D|exact (of_stops _ _ _ O)|lia|lia]). subst y'. split; [reflexivity|].
    exact (of_det s of_words of_letters y v b v' b' O O' S S').
  Qed.
  Lemma pair_le x y v b : pair_at x y v b -> y <= List.length s /\ y < b <= List.length s.
  Proof.
    intros (L & D & (u & w & J & W & J2 & L2 & D2)). pose proof (all_in_len s is_digit x y L D) as L'. pose proof (all_in_len s is_digit v b L2 D2) as L3. split; [exact L'|]. split; [|exact L3].
    destruct (word_alpha s of_words u w of_letters W) as [Lw _]. destruct J as [->|(-> & _)], J2 as [->|(-> & _)]; lia.
  Qed.
  Lemma best_pair x b d : x <= List.length s -> best s pair_re x [] = Some (b, d) <-> exists y v, pair_at x y v b /\ stops s is_digit b /\ d = [(4, (v, b)); (1, (x, y))].
  Proof.
    intros L.
    assert (F : forall b d, best s pair_re x [] = Some (b, d) -> exists y v, pair_at x y v b /\ stops s is_digit b /\ d = [(4, (v, b)); (1, (x, y))]).
    { intros b0 d0 E. pose proof (best_M _ _ _ _ _ _ E) as HM. apply pair_M in HM as (y & v & P & ->). exists y, v. split; [exact P|]. split; [|reflexivity].
      rewrite <- best_mtch in E. unfold pair_re, of_re in E. do 4 (apply mtch_seq in E as (? & ? & _ & E)). cbn [mtch] in E. apply plus_max in E as (j' & _ & _ & S & E); [|discriminate]. injection E as <- _ _ _. exact S. }
    split; [apply F|]. intros (y & v & P & S & ->). destruct (best s pair_re x []) as [[b' d']|] eqn:E.
    - destruct (F b' d' eq_refl) as (y' & v' & P' & S' & ->). destruct (pair_det x y v b y' v' b' P P' S S') as (-> & -> & ->). reflexivity.
    - exfalso. apply (best_none s pair_re x [] L E b [(4, (v, b)); (1, (x, y))]). apply pair_M. eauto.
  Qed.
  Definition first_word (u : nat) : option str := find (fun w => startswith w (at_ s u)) episode_words.
  Definition word_end (u : nat) : nat := match first_word u with Some w => u + List.length w | None => u end.
  Lemma best_end b d : best s end_re b d = Some (word_end (after_dash s b), d).
  Proof.
    unfold end_re. assert (T : forall j e, best s (ropt (rwords episode_words) 1) j e = Some (word_end j, e)).
    { intros j e. rewrite best_opt_re. unfold best. rewrite outs_words by discriminate. unfold word_end, first_word. generalize episode_words as l. induction l as [|w l IH]; [reflexivity|]. cbn [filter find]. destruct (startswith w (at_ s j)); [reflexivity|exact IH]. }
    rewrite best_seq by (intros j e; rewrite T; discriminate). unfold dash_opt. rewrite best_opt_re. unfold best at 1, dash. cbn [outs]. unfold after_dash. destruct (nth_error s b) as [c|]; [|apply T]. destruct (cmem c seps_no_fs); apply T.
  Qed.
  Lemma counted_match x e d : x <= List.length s -> match_at s (counted_re episode_words of_words) x = Some (e, d) <->
    exists y v b, pair_at x y v b /\ stops s is_digit b /\ d = [(4, (v, b)); (1, (x, y))] /\ e = word_end (after_dash s b).
  Proof.
    intros L. rewrite best_match. unfold counted_re. assert (E : best s (RSeq (RGrp 1 digits1) (RSeq (of_re of_words) end_re)) x [] = best s (RSeq pair_re end_re) x []) by (unfold best; rewrite outs_assoc; reflexivity).
    change (RSeq dash_opt (ropt (rwords episode_words) 1)) with end_re. rewrite E. rewrite best_seq by (intros j d'; rewrite best_end; discriminate). split.
    - destruct (best s pair_re x []) as [[b d']|] eqn:B; [|discriminate]. rewrite best_end. intros H. injection H as <- <-. apply best_pair in B as (y & v & P & S & ->); [|exact L]. eauto 8.
    - intros (y & v & b & P & S & -> & ->). rewrite (proj2 (best_pair x b [(4, (v, b)); (1, (x, y))] L)); [apply best_end|]. eauto.
  Qed.
  (** what it can take *)
  Lemma counted_M k e d : k <= List.length s -> M s (counted_re episode_words of_words) k [] e d -> exists y v b u, pair_at k y v b /\ joined s b u /\ (e = u \/ word s episode_words u e).
  Proof.
    intros L H. unfold counted_re in H. apply M_sq in H as (y & d1 & H1 & H). apply M_sq in H as (b & d2 & H2 & H). apply M_sq in H as (u & d3 & H3 & H4).
    assert (HP : M s pair_re k [] b d2) by (apply M_sq; eauto). apply pair_M in HP as (y' & v & P & ->). pose proof (pair_le _ _ _ _ P) as Lp. apply M_joined in H3 as [-> H3]. exists y', v, b, u. split; [exact P|]. split; [exact H3|].
    apply M_opt1_inv in H4 as [H4|[-> _]]; [|left; reflexivity]. right. apply M_word in H4 as [_ H4]; [exact H4|exact ep_letters|]. apply joined_le in H3; lia.
  Qed.
  Lemma counted_consumes : consumes s (counted_re episode_words of_words).
  Proof. intros k c j d H. unfold counted_re in H. apply M_sq in H as (y & d1 & H1 & H). apply M_mono in H as [H _]. apply M_group in H1 as (e1 & _ & H1). apply M_digits in H1 as (_ & H1 & _). lia. Qed.
  (** nothing begun before a number that is not a count goes past its beginning *)
  Lemma counted_before x q : nth_error s x = Some q -> is_digit q = true -> (forall c, 0 < x -> nth_error s (x - 1) = Some c -> In c seps) -> not_a_count s x ->
    forall k e d, k < x -> M s (counted_re episode_words of_words) k [] e d -> e <= x.
  Proof.
    intros Eq Dq A F k e d L H. pose proof (nth_error_lt _ _ _ Eq) as Lx. apply counted_M in H as (y & v & b & u & (Ly & D & O) & J & E); [|lia].
    destruct (nth_error s (x - 1)) as [r|] eqn:Er; [|apply nth_error_None in Er; lia]. specialize (A r ltac:(lia) eq_refl).
    assert (DB : forall i j, all_in s is_digit i j -> i <= x - 1 < j -> False) by (intros i j D' Hij; destruct (D' (x - 1) Hij) as (q' & Eq' & Dq'); rewrite Er in Eq'; injection Eq' as <-; exact (digit_nosep r Dq' A)).
    assert (AB : forall i j, all_in s is_alpha i j -> i <= x - 1 < j -> False) by (intros i j D' Hij; destruct (D' (x - 1) Hij) as (q' & Eq' & Dq'); rewrite Er in Eq'; injection Eq' as <-; exact (alpha_nosep r Dq' A)).
    assert (AX : forall j, x < j -> all_in s is_alpha x j -> False) by (intros j Hj D'; destruct (D' x ltac:(lia)) as (q' & Eq' & Dq'); rewrite Eq in Eq'; injection Eq' as <-; rewrite (alpha_nodigit q Dq') in Dq; discriminate).
    assert (JX : forall i j, joined s i j -> i < x -> j <= x) by (intros i j [->|(-> & _)] Hi; lia).
    assert (WX : forall l i j, letters l -> word s l i j -> i <= x -> j < x).
    { intros l i j Hl W Hi. destruct (word_alpha s l i j Hl W) as [Lw Aw]. destruct (Nat.le_gt_cases x j) as [G|]; [exfalso|assumption]. destruct (Nat.eq_dec i x) as [->|N]; [exact (AX j ltac:(lia) Aw)|exact (AB i j Aw ltac:(lia))]. }
    assert (Yx : y < x) by (destruct (Nat.le_gt_cases x y); [exfalso; apply (DB k y D); lia|assumption]).
    pose proof O as (u1 & w1 & J1 & W1 & J2 & Lv & Dv). pose proof (JX _ _ J1 Yx) as U1. pose proof (WX of_words u1 w1 of_letters W1 U1) as Wx. pose proof (JX _ _ J2 Wx) as Vx.
    assert (Vlt : v < x).
    { destruct (Nat.eq_dec v x) as [->|]; [exfalso|lia]. destruct (D (y - 1) ltac:(lia)) as (c & Ec & Dc). destruct W1 as (o & Ro & Io). pose proof J1 as J1'. pose proof J2 as J2'.
      apply joined_text in J1' as (p1 & R1 & P1); [|lia]. apply joined_text in J2' as (p2 & R2 & P2); [|destruct Ro; lia].
      apply (F y p1 o p2 c); [lia|apply reads_app; exists u1; split; [exact R1|]; apply reads_app; exists w1; auto|exact P1|apply of_words_iff, Io|exact P2|exact Ec|unfold is_digit in Dc; lia]. }
    assert (Bx : b < x) by (destruct (Nat.le_gt_cases x b); [exfalso; apply (DB v b Dv); lia|assumption]).
    pose proof (JX _ _ J Bx) as Ux. destruct E as [->|W]; [exact Ux|]. pose proof (WX episode_words u e ep_letters W Ux). lia.
  Qed.
  (** what is left once the separators at the ends are gone *)
  Definition kept_end (b : nat) : nat := match first_word (after_dash s b) with Some w => after_dash s b + List.length w | None => b end.
  Lemma first_word_in u w : first_word u = Some w -> In w episode_words /\ startswith w (at_ s u) = true.
  Proof. intros H. apply find_some in H. exact H. Qed.
  Lemma starts_word u w : In w episode_words -> startswith w (at_ s u) = true -> word s episode_words u (u + List.length w).
  Proof.
    intros I H. apply startswith_app in H as [r H]. assert (N : 0 < List.length w) by (destruct w; [exfalso; destruct (proj2 ep_letters [] I); congruence|cbn [List.length]; lia]).
    pose proof (at_len s u) as L. rewrite H, app_length in L. exists (slice u (u + List.length w) s). split; [split; [lia|reflexivity]|]. rewrite <- at_slice, H, firstn_app, firstn_all, Nat.sub_diag. cbn [firstn]. rewrite app_nil_r. exact I.
  Qed.
  Lemma after_range b : b <= after_dash s b <= S b.
  Proof. unfold after_dash. destruct (nth_error s b) as [c|]; [destruct (cmem c seps_no_fs)|]; lia. Qed.
  Lemma stripped_ok x y v b d : pair_at x y v b -> stripped s (x, word_end (after_dash s b), d) = (x, kept_end b, d).
  Proof.
    intros P. pose proof (pair_le _ _ _ _ P) as Lp. destruct P as (Ly & D & (u1 & w1 & _ & _ & _ & Lv & Dv)). pose proof (after_range b) as Ra.
    destruct (D x ltac:(lia)) as (cx & Ex & Dx). pose proof (digit_nosep cx Dx) as Nx.
    assert (NS : forall c, ~ In c seps -> is_sep c = false) by (intros c Hc; destruct (is_sep c) eqn:E; [|reflexivity]; apply cmem_In in E; tauto).
    unfold stripped, word_end, kept_end. destruct (first_word (after_dash s b)) as [w|] eqn:Fw.
    - apply first_word_in in Fw as [Iw Sw]. pose proof (starts_word _ _ Iw Sw) as W. destruct (word_alpha s _ _ _ ep_letters W) as [Lw Aw]. set (u := after_dash s b) in *. set (e := u + List.length w) in *. destruct (Aw (e - 1) ltac:(lia)) as (ce & Ee & De).
      rewrite (C51_strip is_sep s x e x (e - 1)); [rewrite !Nat2Z.id; do 3 f_equal; lia|lia|lia|lia|exists cx; auto|exists ce; split; [exact Ee|apply NS, alpha_nosep, De]|intros k c Hk; lia].
    - destruct (Dv (b - 1) ltac:(lia)) as (ce & Ee & De). set (e := after_dash s b) in *.
      assert (Le : e <= List.length s) by (unfold e, after_dash in *; destruct (nth_error s b) as [c|] eqn:Eb; [|lia]; apply nth_error_lt in Eb; destruct (cmem c seps_no_fs); lia).
      rewrite (C51_strip is_sep s x e x (b - 1)); [rewrite !Nat2Z.id; do 3 f_equal; lia|lia|lia|lia|exists cx; auto|exists ce; split; [exact Ee|apply NS, digit_nosep, De]|].
      intros k c [Hk|Hk] Ec; [lia|]. assert (k = b /\ e = S b) as [-> Eb] by lia. unfold e, after_dash in Eb. rewrite Ec in Eb. destruct (cmem c seps_no_fs) eqn:Cm; [|lia]. apply no_fs_iff in Cm. apply cmem_In. apply Cm.
  Qed.
End Counted.
(** ** the words after the count *)
Definition ending (s : str) (b e : nat) : Prop :=
  (e = b /\ forall z p w, reads s b z (p ++ w) -> maybe_sep p -> lower w <> lit "ep" /\ lower w <> lit "capitulo") \/
   exists p w, reads s b e (p ++ w) /\ maybe_sep p /\ In (lower w) (map lit ["episode"; "eps"; "ep"; "capitulo"]%string).
Lemma starts_reads s u w : startswith (lower w) (at_ s u) = true <-> lower w = [] \/ exists t, reads s u (u + List.length w) t /\ lower t = lower w.
Proof.
  rewrite startswith_app. split.
  - intros [r H]. destruct w as [|c w']; [left; reflexivity|right]. set (w := c :: w') in *. pose proof (at_len s u) as L. rewrite H, app_length, lower_length in L. exists (slice u (u + List.length w) s).
    assert (0 < List.length w) by (cbn [w List.length]; lia). split; [split; [lia|reflexivity]|]. rewrite <- at_slice, H. rewrite <- (lower_length w) at 1. rewrite firstn_app, firstn_all, Nat.sub_diag. cbn [firstn]. apply app_nil_r.
  - intros [->|(t & [L R] & E)]; [exists (at_ s u); reflexivity|]. exists (skipn (List.length w) (at_ s u)). rewrite <- (firstn_skipn (List.length w) (at_ s u)) at 1. f_equal. rewrite at_slice, R. exact E.
Qed.
Lemma starts_lit s u w : w <> [] -> lower w = w -> startswith w (at_ s u) = true <-> exists t, reads s u (u + List.length w) t /\ lower t = w.
Proof. intros N E. rewrite <- E at 1. rewrite starts_reads, E. split; [intros [H|H]; [contradiction|exact H]|right; exact H]. Qed.
Lemma word_place s b z p w : b <= List.length s -> reads s b z (p ++ w) -> maybe_sep p -> (exists c r, lower w = c :: r /\ is_lower c = true) -> after_dash s b = b + List.length p /\ reads s (after_dash s b) z w.
Proof.
  intros L R P (c & r & E & Hc). apply reads_app in R as (u & R1 & R2). pose proof (reads_len _ _ _ _ R1) as [E1 _]. assert (J : joined s b u) by (apply joined_text; eauto).
  assert (Ad : after_dash s b = u).
  { destruct w as [|q w]; [discriminate|]. cbn [lower map] in E. injection E as E _. apply reads_cons in R2 as [Eq _]. pose proof (nth_error_lt _ _ _ Eq). apply after_dash_joined; [exact J| |lia]. intros y Ey. rewrite Eq in Ey. injection Ey as <-. apply alpha_nosep. exact (lower_alpha q c Hc E). }
  rewrite Ad. split; [lia|exact R2].
Qed.
Lemma starts_trans p w t : startswith (p ++ w) t = true -> startswith p t = true.
Proof. rewrite !startswith_app. intros [r ->]. exists (w ++ r). rewrite app_assoc. reflexivity. Qed.
(** the word taken, when what follows it is not a letter *)
Lemma first_word_cases s u : match first_word s u with
  | Some w => In w (map lit ["episode"; "eps"; "ep"; "capitulo"]%string) /\ startswith w (at_ s u) = true
  | None => startswith (lit "ep") (at_ s u) = false /\ startswith (lit "capitulo") (at_ s u) = false end.
Proof.
  unfold first_word, episode_words. cbn [map find].
  destruct (startswith (lit "episode") (at_ s u)) eqn:E1; [split; [left; reflexivity|exact E1]|].
  destruct (startswith (lit "episodes") (at_ s u)) eqn:E2; [exfalso; change (lit "episodes") with (lit "episode" ++ [115]%N) in E2; apply starts_trans in E2; congruence|].
  destruct (startswith (lit "eps") (at_ s u)) eqn:E3; [split; [right; left; reflexivity|exact E3]|].
  destruct (startswith (lit "ep") (at_ s u)) eqn:E4; [split; [right; right; left; reflexivity|exact E4]|].
  destruct (startswith (lit "episodio") (at_ s u)) eqn:E5; [exfalso; change (lit "episodio") with (lit "ep" ++ lit "isodio") in E5; apply starts_trans in E5; congruence|].
  destruct (startswith (lit "episodios") (at_ s u)) eqn:E6; [exfalso; change (lit "episodios") with (lit "ep" ++ lit "isodios") in E6; apply starts_trans in E6; congruence|].
  destruct (startswith (lit "capitulo") (at_ s u)) eqn:E7; [split; [right; right; right; left; reflexivity|exact E7]|].
  destruct (startswith (lit "capitulos") (at_ s u)) eqn:E8; [exfalso; change (lit "capitulos") with (lit "capitulo" ++ [115]%N) in E8; apply starts_trans in E8; congruence|]. auto.
Qed.
Lemma first_word_is s u w : In w (map lit ["episode"; "eps"; "ep"; "capitulo"]%string) -> startswith w (at_ s u) = true -> (forall c, nth_error s (u + List.length w) = Some c -> In c seps) -> first_word s u = Some w.
Proof.
  intros I H St. apply startswith_app in H as [r H]. assert (R : r = at_ s (u + List.length w)) by (rewrite <- at_skip, H, skipn_app, skipn_all, Nat.sub_diag; reflexivity).
  assert (Nr : match r with c :: _ => is_lower c = false | [] => True end).
  { subst r. destruct (nth_error s (u + List.length w)) as [c|] eqn:Ec; [|rewrite at_nil by exact Ec; exact Logic.I]. rewrite (at_cons s _ c Ec). destruct (is_lower (to_lower c)) eqn:Il; [|reflexivity]. exfalso. exact (sep_lower_alpha c (to_lower c) (St c eq_refl) Il eq_refl). }
  unfold first_word. rewrite H. clear - I Nr. unfold episode_words. cbn [map find].
  assert (NE : forall x, is_lower x = true -> match r with c :: _ => N.eqb x c = false | [] => True end) by (intros x Hx; destruct r as [|c r]; [exact Logic.I|]; destruct (N.eqb_spec x c); [congruence|reflexivity]). clear Nr.
  pose proof (NE 105%N eq_refl) as N1. pose proof (NE 115%N eq_refl) as N2. clear NE.
  destruct I as [<-|[<-|[<-|[<-|[]]]]].
  - reflexivity.
  - reflexivity.
  - destruct r as [|c r]; [reflexivity|].
    assert (E : forall x t, N.eqb x c = false -> startswith (lit "ep" ++ x :: t) (lit "ep" ++ c :: r) = false) by (intros x t E; cbn; rewrite E; reflexivity).
    change (lit "episode") with (lit "ep" ++ 105%N :: lit "sode"). change (lit "episodes") with (lit "ep" ++ 105%N :: lit "sodes"). change (lit "eps") with (lit "ep" ++ 115%N :: []). rewrite !E by assumption. reflexivity.
  - reflexivity.
Qed.
Lemma ending_iff s x b e : b <= List.length s -> alone s x e -> kept_end s b = e <-> ending s b e.
Proof.
  intros L [_ A]. unfold kept_end, ending. pose proof (first_word_cases s (after_dash s b)) as C. split.
  - destruct (first_word s (after_dash s b)) as [w|] eqn:Fw.
    + intros <-. right. destruct C as [Iw Sw]. pose proof (joined_after s b) as J. apply joined_text in J as (p & Rp & Pp); [|exact L].
      assert (Lw : w <> [] /\ lower w = w) by (destruct Iw as [<-|[<-|[<-|[<-|[]]]]]; split; [discriminate|reflexivity|discriminate|reflexivity|discriminate|reflexivity|discriminate|reflexivity]).
      apply starts_lit in Sw as (t & Rt & Et); [|apply Lw|apply Lw]. exists p, t. split; [apply reads_app; eauto|]. split; [exact Pp|]. rewrite Et. exact Iw.
    + intros <-. left. split; [reflexivity|]. intros z p w R P. destruct C as [C1 C2].
      split; intros Ew.
      * destruct (word_place s b z p w L R P) as [_ Rw]; [rewrite Ew; eexists; eexists; split; [reflexivity|reflexivity]|]. pose proof (reads_len _ _ _ _ Rw) as [Lz _].
        assert (K : startswith (lit "ep") (at_ s (after_dash s b)) = true) by (apply starts_lit; [discriminate|reflexivity|]; exists w; split; [|exact Ew]; pose proof (lower_length w) as Ll; rewrite Ew in Ll; rewrite Ll, <- Lz; exact Rw). congruence.
      * destruct (word_place s b z p w L R P) as [_ Rw]; [rewrite Ew; eexists; eexists; split; [reflexivity|reflexivity]|]. pose proof (reads_len _ _ _ _ Rw) as [Lz _].
        assert (K : startswith (lit "capitulo") (at_ s (after_dash s b)) = true) by (apply starts_lit; [discriminate|reflexivity|]; exists w; split; [|exact Ew]; pose proof (lower_length w) as Ll; rewrite Ew in Ll; rewrite Ll, <- Lz; exact Rw). congruence.
  - intros [[-> N]|(p & w & R & P & I)].
    + destruct (first_word s (after_dash s b)) as [w|]; [exfalso|reflexivity]. destruct C as [Iw Sw]. pose proof (joined_after s b) as J. apply joined_text in J as (p & Rp & Pp); [|exact L].
      assert (K : startswith (lit "ep") (at_ s (after_dash s b)) = true \/ startswith (lit "capitulo") (at_ s (after_dash s b)) = true).
      { destruct Iw as [<-|[<-|[<-|[<-|[]]]]]; [left|left|left|right]; [exact (starts_trans (lit "ep") (lit "isode") _ Sw)|exact (starts_trans (lit "ep") (lit "s") _ Sw)|exact Sw|exact Sw]. }
      destruct K as [K|K]; apply starts_lit in K as (t & Rt & Et); try discriminate; try reflexivity; (destruct (N _ p t (proj2 (reads_app s b _ p t) (ex_intro _ _ (conj Rp Rt))) Pp); congruence).
    + destruct (word_place s b e p w L R P) as [_ Rw]; [destruct I as [<-|[<-|[<-|[<-|[]]]]]; eexists; eexists; split; reflexivity|]. pose proof (reads_len _ _ _ _ Rw) as [Le _]. pose proof (lower_length w) as Ll.
      rewrite (first_word_is s (after_dash s b) (lower w) I); [lia| |].
      * apply starts_reads. right. exists w. split; [rewrite <- Le; exact Rw|reflexivity].
      * rewrite Ll, <- Le. exact A.
Qed.
Lemma ending_stops s x b e : b <= List.length s -> alone s x e -> ending s b e -> stops s is_digit b.
Proof.
  intros L [_ A] [[-> _]|(p & w & R & P & I)]; [apply stops_sep, A|]. destruct (word_place s b e p w L R P) as [_ Rw]; [destruct I as [<-|[<-|[<-|[<-|[]]]]]; eexists; eexists; split; reflexivity|].
  destruct w as [|q w]; [destruct I as [I|[I|[I|[I|[]]]]]; discriminate|]. assert (Aq : is_alpha q = true).
  { cbn [lower map] in I. destruct I as [I|[I|[I|[I|[]]]]]; injection I as I _; symmetry in I; (refine (lower_alpha q _ _ I); reflexivity). }
  apply reads_cons in Rw as [Eq _]. exact (joined_no s is_digit b (after_dash s b) q sep_nodigit (joined_after s b) Eq (alpha_nodigit q Aq)).
Qed.

(** ** the matches *)
Lemma stripped_shows p s x y n v : rx_children p = true -> rx_validate_all p = true ->
  shows (stripped_matches p s) x y n v <-> smem n later_private_names = false /\
    exists f a b c, In f (finditer s (rx_re p)) /\ stripped s f = (a, b, c) /\ rx_valid p s (rx_parent p s a b c) = true /\ (forall k, In k (rx_kids p s c) -> rx_child_valid p s (rx_child p a b k) = true) /\ In (mk_c x y n v) (rx_kids p s c).
Proof.
  intros Hc Hv. unfold shows, stripped_matches. split.
  - intros (m0 & Hm & <- & <- & <- & <- & Pm). apply in_map_iff in Hm as (m & <- & Hm). cbn [hide m_start m_end m_name m_value m_private] in *. apply Bool.orb_false_iff in Pm as [Pm Sm]. split; [exact Sm|].
    apply in_flat_map in Hm as (f & Hf & Hm). destruct (stripped s f) as [[a b] c] eqn:Es. exists f, a, b, c. split; [exact Hf|]. split; [exact Es|]. unfold rx_one in Hm. rewrite Hc, Hv in Hm. cbn [negb orb] in Hm. destruct (rx_valid p s (rx_parent p s a b c)); [|destruct Hm]. split; [reflexivity|]. cbn [andb] in Hm.
    destruct (forallb (rx_child_valid p s) (map (rx_child p a b) (rx_kids p s c))) eqn:F; [|destruct Hm]. rewrite forallb_forall in F. split; [intros k Hk; apply F, in_map, Hk|].
    apply in_app_iff in Hm as [Hm|Hm].
    + destruct (rx_private_parent p); [|destruct Hm]. destruct Hm as [<-|[]]. cbn [rx_parent m_private] in Pm. congruence.
    + apply in_map_iff in Hm as (k & <- & Hk). destruct k. exact Hk.
  - intros (Sm & f & a & b & c & Hf & Es & V0 & V & Hk). exists (hide later_private_names (rx_child p a b (mk_c x y n v))). split; [|cbn [hide rx_child m_start m_end m_name m_value m_private c_start c_end c_name c_value]; repeat split; exact Sm].
    apply in_map, in_flat_map. exists f. split; [exact Hf|]. rewrite Es. unfold rx_one. rewrite Hc, Hv, V0. cbn [negb orb andb].
    assert (F : forallb (rx_child_valid p s) (map (rx_child p a b) (rx_kids p s c)) = true) by (apply forallb_forall; intros m Hm; apply in_map_iff in Hm as (k & <- & Hk'); apply V, Hk'). rewrite F. apply in_app_iff. right. apply in_map, Hk.
Qed.
Lemma counted_kids cfg s x y v b : rx_kids (counted_rx cfg) s [(4, (v, b)); (1, (x, y))] = [mk_c x y (lit "episode") (int_of_text (slice x y s)); mk_c v b (lit "count") (int_of_text (slice v b s))].
Proof. reflexivity. Qed.
Lemma counted_valid cfg s x y v b e : ep_parent_valid cfg s (rx_parent (counted_rx cfg) s x e [(4, (v, b)); (1, (x, y))]) = true <-> alone s x e.
Proof.
  unfold ep_parent_valid, ep_valid. rewrite one_valid; [rewrite Bool.andb_true_r, seps_alone; reflexivity| |]; unfold at_most_one; rewrite named_filter; unfold kid_matches; cbn [rx_parent m_children]; rewrite counted_kids; vm_compute; lia.
Qed.
Lemma pair_text s x y b t n : (exists v, pair_at s x y v b /\ t = slice x y s /\ reads s v b n) <-> reads s x y t /\ number t /\ (exists c, reads s y b c /\ count_text n c).
Proof.
  split.
  - intros (v & P & -> & Rn). pose proof (pair_le s _ _ _ _ P) as Lp. destruct P as (L & D & O). split; [split; [lia|reflexivity]|]. split; [apply digits_iff; [lia|lia|exact D]|]. apply of_iff; [lia|]. eauto.
  - intros (R & N & T). pose proof (reads_number s x y t R N) as [L D]. apply of_iff in T as (v & O & Rn); [|destruct R; lia]. exists v. split; [split; [exact L|]; auto|]. split; [symmetry; apply R|exact Rn].
Qed.

(** ** C101 *)
(** every episode and every count shown is written so *)
Theorem C101_sound cfg s x' y' name v : shows (counted_matches cfg s) x' y' name v ->
  exists x y b e t n, counted s x y b e t n /\
    ((name = lit "episode" /\ x' = x /\ y' = y /\ v = MvInt (value_of t)) \/ (name = lit "count" /\ x' = b - List.length n /\ y' = b /\ v = MvInt (value_of n))).
Proof.
  unfold counted_matches. rewrite (stripped_shows (counted_rx cfg) s x' y' name v eq_refl eq_refl). cbn [rx_re counted_rx rx_valid rx_child_valid].
  intros (Sm & ((x & e0) & d) & a & e & c & Hf & Es & Hv & _ & Hk). apply finditer_sound in Hf as (Lx & E & _); [|apply counted_consumes]. apply counted_match in E as (y & v0 & b & P & S & -> & ->); [|lia].
  rewrite (stripped_ok s x y v0 b _ P) in Es. assert (a = x /\ e = kept_end s b /\ c = [(4, (v0, b)); (1, (x, y))]) as (-> & Ee & ->) by (split; [congruence|]; split; congruence). clear Es. apply counted_valid in Hv. pose proof (pair_le s _ _ _ _ P) as Lp.
  destruct P as (P1 & P2 & P3). pose proof P3 as (u1 & w1 & _ & _ & _ & Lv & Dv). assert (Rn : reads s v0 b (slice v0 b s)) by (split; [lia|reflexivity]).
  exists x, y, b, e, (slice x y s), (slice v0 b s). rewrite (counted_kids cfg) in Hk. split.
  - unfold counted. destruct (proj1 (pair_text s x y b (slice x y s) (slice v0 b s))) as (R & N & T); [exists v0; split; [split; auto|]; auto|]. split; [exact R|]. split; [exact N|]. split; [exact T|]. split; [|exact Hv]. apply (ending_iff s x b e ltac:(lia) Hv). symmetry. exact Ee.
  - destruct Hk as [Hk|[Hk|[]]].
    + left. split; [congruence|]. split; [congruence|]. split; [congruence|]. assert (v = int_of_text (slice x y s)) as -> by congruence. reflexivity.
    + right. rewrite slice_len by lia. split; [congruence|]. split; [assert (x' = v0) by congruence; lia|]. split; [congruence|]. assert (v = int_of_text (slice v0 b s)) as -> by congruence. reflexivity.
Qed.
Print Assumptions C101_sound.
(** and what is written so is shown, unless the first number is the count of another *)
Theorem C101_found cfg s x y b e t n : counted s x y b e t n -> not_a_count s x ->
  shows (counted_matches cfg s) x y (lit "episode") (MvInt (value_of t)) /\ shows (counted_matches cfg s) (b - List.length n) b (lit "count") (MvInt (value_of n)).
Proof.
  intros (R & N & T & En & A) F. destruct (proj2 (pair_text s x y b t n) (conj R (conj N T))) as (v & P & Et & Rn). pose proof (pair_le s _ _ _ _ P) as Lp. pose proof (reads_number s x y t R N) as [L D].
  pose proof (ending_stops s x b e ltac:(lia) A En) as S. apply (ending_iff s x b e ltac:(lia) A) in En. destruct (D x ltac:(lia)) as (q & Eq & Dq).
  assert (Hf : In (x, word_end s (after_dash s b), [(4, (v, b)); (1, (x, y))]) (finditer s (counted_re episode_words of_words))).
  { apply finditer_exact; [apply counted_consumes|lia|exact (counted_before s x q Eq Dq (proj1 A) F)|]. apply counted_match; [lia|]. exists y, v, b. auto. }
  assert (K : forall x' y' name w, smem name later_private_names = false -> In (mk_c x' y' name w) (rx_kids (counted_rx cfg) s [(4, (v, b)); (1, (x, y))]) -> shows (counted_matches cfg s) x' y' name w).
  { intros x' y' name w Sm Hk. unfold counted_matches. rewrite (stripped_shows (counted_rx cfg) s x' y' name w eq_refl eq_refl). split; [exact Sm|]. eexists. exists x, e, [(4, (v, b)); (1, (x, y))]. split; [exact Hf|]. split; [rewrite (stripped_ok s x y v b _ P), En; reflexivity|].
    split; [apply counted_valid, A|]. split; [reflexivity|exact Hk]. }
  pose proof (reads_len _ _ _ _ Rn) as [Lb _]. split; apply K; try reflexivity; rewrite counted_kids.
  - left. rewrite <- Et. reflexivity.
  - right. left. replace (b - List.length n) with v by lia. rewrite (proj2 Rn). reflexivity.
Qed.
Print Assumptions C101_found.
(** so a count followed by [episodes], [episodio], [episodios] or [capitulos] is not seen: the expression stops at the shorter word *)
Theorem C101_limit cfg s x y b t n c p w z v : reads s x y t -> number t -> reads s y b c -> count_text n c -> no_digit_after s b ->
  reads s b z (p ++ w) -> maybe_sep p -> In (lower w) (map lit ["episodes"; "episodio"; "episodios"; "capitulos"]%string) ->
  ~ shows (counted_matches cfg s) x y (lit "episode") v.
Proof.
  intros R N Rc Tc Nd Rw P I H. apply C101_sound in H as (x1 & y1 & b1 & e & t1 & n1 & C & [(_ & <- & <- & _)|(K & _)]); [|discriminate K].
  destruct C as (R1 & N1 & T1 & En & A). destruct (proj2 (pair_text s x y b t n) (conj R (conj N (ex_intro _ c (conj Rc Tc))))) as (v0 & P0 & _ & _). destruct (proj2 (pair_text s x y b1 t1 n1) (conj R1 (conj N1 T1))) as (v1 & P1 & _ & _).
  pose proof (pair_le s _ _ _ _ P0) as L0. pose proof (pair_le s _ _ _ _ P1) as L1. pose proof (ending_stops s x b1 e ltac:(lia) A En) as S1.
  destruct (pair_det s x y v0 b y v1 b1 P0 P1 (proj1 (no_digit_iff s b) Nd) S1) as (_ & _ & ->). destruct (word_place s b z p w ltac:(lia) Rw P) as [_ Rw']; [destruct I as [<-|[<-|[<-|[<-|[]]]]]; eexists; eexists; split; reflexivity|].
  assert (Aw : all_in s is_alpha (after_dash s b) z). { apply (reads_all s _ _ w _ Rw'). apply (in_lower_alpha (lower w)); [|reflexivity]. intros q Hq. assert (G : forallb (forallb is_lower) (map lit ["episodes"; "episodio"; "episodios"; "capitulos"]%string) = true) by (vm_compute; reflexivity). rewrite forallb_forall in G. specialize (G _ I). rewrite forallb_forall in G. exact (G q Hq). }
  pose proof (lower_length w) as Lw. pose proof (reads_len _ _ _ _ Rw') as [Ez _].
  destruct En as [[-> Nw]|(p' & w' & Rp' & Pp' & I')].
  - apply reads_app in Rw as (u & Rp & Rw). assert (Ln : 8 <= List.length w) by (destruct I as [I|[I|[I|[I|[]]]]]; rewrite <- I in Lw; cbn in Lw; lia).
    assert (K : lower (firstn 2 w) = lit "ep" \/ lower (firstn 8 w) = lit "capitulo").
    { unfold lower. rewrite <- !firstn_map. change (map to_lower w) with (lower w). destruct I as [<-|[<-|[<-|[<-|[]]]]]; [left|left|left|right]; reflexivity. }
    assert (Q : forall k, k <= List.length w -> reads s b (b + List.length p + k) (p ++ firstn k w)).
    { intros k Hk. pose proof (reads_len _ _ _ _ Rp) as [Eu _]. apply reads_app. exists u. split; [exact Rp|]. rewrite <- (firstn_skipn k w) in Rw. apply reads_app in Rw as (m & Rm & _). pose proof (reads_len _ _ _ _ Rm) as [Em _]. rewrite firstn_length_le in Em by exact Hk. replace (b + List.length p + k) with m by lia. exact Rm. }
    destruct K as [K|K]; [destruct (Nw _ p _ (Q 2 ltac:(lia)) P)|destruct (Nw _ p _ (Q 8 ltac:(lia)) P)]; congruence.
  - destruct (word_place s b e p' w' ltac:(lia) Rp' Pp') as [_ Rw2]; [destruct I' as [<-|[<-|[<-|[<-|[]]]]]; eexists; eexists; split; reflexivity|]. pose proof (reads_len _ _ _ _ Rw2) as [Ee _]. pose proof (lower_length w') as Lw'.
    destruct (Nat.lt_ge_cases e z) as [G|G].
    + destruct (Aw e ltac:(lia)) as (q & Eq & Aq). exact (alpha_nosep q Aq (proj2 A q Eq)).
    + assert (E8 : e = z /\ lower w' = lit "capitulo" /\ (lower w = lit "episodes" \/ lower w = lit "episodio")).
      { destruct I as [I|[I|[I|[I|[]]]]]; rewrite <- I in Lw; cbn in Lw; (destruct I' as [I'|[I'|[I'|[I'|[]]]]]; rewrite <- I' in Lw'; cbn in Lw'; try (exfalso; lia)); (split; [lia|]; split; [symmetry; exact I'|]; [left|right..]; symmetry; exact I) || (split; [lia|]; split; [symmetry; exact I'|]; first [left; symmetry; exact I|right; symmetry; exact I]). }
      destruct E8 as (-> & E1 & E2). assert (w' = w) by (transitivity (slice (after_dash s b) z s); [symmetry; apply Rw2|apply Rw']). subst w'. rewrite E1 in E2. destruct E2 as [E2|E2]; discriminate E2.
Qed.
Print Assumptions C101_limit.

(** a version alone *)
Theorem C101_version cfg s x b v : shows (version_matches cfg s) x b (lit "version") v <->
  exists a t q, reads s a b (q :: t) /\ (q = 118 \/ q = 86)%N /\ number t /\ alone s a b /\ x = S a /\ v = MvInt (value_of t).
Proof.
  unfold version_matches, word_matches. rewrite (kids_hidden (version_rx cfg) s x b (lit "version") v eq_refl eq_refl). cbn [rx_re version_rx rx_valid rx_child_valid].
  assert (PV : forall a b c, ep_parent_valid cfg s (rx_parent (version_rx cfg) s a b [(1, c)]) = true <-> alone s a b).
  { intros a b0 [c d]. unfold ep_parent_valid, ep_valid. rewrite one_valid; [rewrite Bool.andb_true_r, seps_alone; reflexivity| |]; unfold at_most_one; rewrite named_filter; vm_compute; lia. }
  assert (F : forall a b c, alone s a b -> In (a, b, c) (finditer s (RSeq (one_of (lit "v")) (RGrp 1 digits1))) <->
    c = [(1, (S a, b))] /\ (exists y, nth_error s a = Some y /\ to_lower y = 118%N) /\ S a < b /\ all_in s is_digit (S a) b /\ True).
  { intros a b0 c A. apply (letter_found s 118%N eq_refl digits1 (fun _ _ => True)); [intros; apply M_p|intros i c' j d y H1 H2 H3 H4; eapply plus_max_j; eassumption|exact A]. }
  split.
  - intros (_ & a & b0 & c & Hf & Hv & _ & Hk). pose proof Hf as HM. apply finditer_sound in HM as (_ & _ & HM); [|apply (letter_consumes s 118%N digits1 (fun _ _ => True)); intros; apply M_p].
    apply (letter_M s 118%N digits1 (fun _ _ => True)) in HM; [|intros; apply M_p]. destruct HM as (-> & (y & Ey & Hy) & L & D & _). apply PV in Hv.
    change (rx_kids (version_rx cfg) s [(1, (S a, b0))]) with [mk_c (S a) b0 (lit "version") (int_of_text (slice (S a) b0 s))] in Hk. destruct Hk as [Hk|[]]. pose proof (all_in_len s is_digit (S a) b0 L D) as Lb.
    assert (x = S a /\ b = b0 /\ v = int_of_text (slice (S a) b0 s)) as (-> & -> & ->) by (split; [congruence|]; split; congruence).
    exists a, (slice (S a) b0 s), y. split; [apply reads_cons; split; [exact Ey|split; [lia|reflexivity]]|]. split; [apply (lower_is y 118) in Hy; [|reflexivity]; lia|]. split; [apply digits_iff; [lia|lia|exact D]|]. split; [exact Hv|]. split; reflexivity.
  - intros (a & t & q & R & Q & N & A & -> & ->). apply reads_cons in R as [Eq R]. pose proof (reads_number s _ _ _ R N) as [L D]. split; [reflexivity|]. exists a, b, [(1, (S a, b))]. split; [apply F; [exact A|]; split; [reflexivity|]; split; [exists q; split; [exact Eq|destruct Q as [->| ->]; reflexivity]|]; auto|].
    split; [apply PV, A|]. split; [reflexivity|]. change (rx_kids (version_rx cfg) s [(1, (S a, b))]) with [mk_c (S a) b (lit "version") (int_of_text (slice (S a) b s))]. left. rewrite (proj2 R). reflexivity.
Qed.
Print Assumptions C101_version.
Example C101_ex : counted (lit "a 3 of 12.ep") 2 3 9 12 (lit "3") (lit "12") /\ not_a_count (lit "a 3 of 12.ep") 2.
Proof.
  split.
  - split; [vm_compute; split; [lia|reflexivity]|]. split; [split; [discriminate|]; intros c [<-|[]]; vm_compute; split; discriminate|]. split.
    + exists (lit " of 12"). split; [vm_compute; split; [lia|reflexivity]|]. exists [32%N], (lit "of"), [32%N]. split; [reflexivity|]. assert (M : maybe_sep [32%N]) by (right; exists 32%N; split; [reflexivity|]; split; [vm_compute; tauto|split; discriminate]).
      split; [exact M|]. split; [left; reflexivity|]. split; [exact M|]. split; [discriminate|]. intros c [<-|[<-|[]]]; vm_compute; split; discriminate.
    + split; [right; exists [46%N], (lit "ep"); split; [vm_compute; split; [lia|reflexivity]|]; split; [right; exists 46%N; split; [reflexivity|]; split; [vm_compute; tauto|split; discriminate]|]; do 2 right; left; reflexivity|].
      split; [intros c _ E; injection E as <-; vm_compute; tauto|intros c E; discriminate E].
  - intros k p1 o p2 c K R _ O _ E. apply reads_app in R as (k1 & [R1 _] & R). apply reads_app in R as (k2 & R2 & R3). pose proof (reads_len _ _ _ _ R2) as [L _]. destruct R3 as [R3 _].
    assert (List.length o >= 2) by (rewrite <- lower_length; destruct O as [->| ->]; cbn; lia). exfalso. lia.
Qed.
