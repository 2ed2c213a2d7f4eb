(** C93: episodes written with a word: [Episode 4], [ep.12v2], [Episode 4 of 12]. *)
From Verif Require Import Py PyFacts Text TextFacts WordsProofs Regex CrcProofs DateProofs RegexFacts RegexOuts Numeral NumeralProofs Date Rebulk RebulkFacts Episodes EpisodeRules EpisodeRulesProps IntProps Patterns PatternsProps DiscProps SxxProps Chain EpisodeChains NumeralRe NumeralReProofs PartProps EpisodeWords EpisodeWordsProofs.
From Coq Require Import Arith ZifyBool ZifyNat ZifyN.
Local Open Scope nat_scope.

(** ** Specification *)
(** [v2] *)
Definition version_text (n t : str) : Prop := exists v, t = v :: n /\ (v = 118 \/ v = 86)%N /\ number n.
(** [of 12], [sur 12], with or without separators *)
Definition count_text (n t : str) : Prop := exists p1 o p2, t = p1 ++ o ++ p2 ++ n /\ maybe_sep p1 /\ (lower o = lit "of" \/ lower o = lit "sur") /\ maybe_sep p2 /\ number n.
(** what is written from [y] to [z] is such a text, of a number that no digit follows, or there is none and [z] is [y] *)
Definition perhaps (text : str -> str -> Prop) (s : str) (y z : nat) (o : option str) : Prop :=
  match o with
  | Some n => exists t, reads s y z t /\ text n t /\ no_digit_after s z
  | None => z = y /\ forall z' n t, reads s y z' t -> ~ text n t
  end.
(** from [k] to [b], alone: a word, perhaps a separator, the number [t] from [x] to [y], perhaps a version up to [z], perhaps a count *)
Definition episode_written (s : str) (k x y z b : nat) (t : str) (ver cnt : option str) : Prop :=
  (exists w p, reads s k y (w ++ p ++ t) /\ In (lower w) (map lit ["episode"; "episodes"; "eps"; "ep"; "episodio"; "episodios"; "capitulo"; "capitulos"]%string) /\ maybe_sep p) /\
  number t /\ x = y - List.length t /\ perhaps version_text s y z ver /\ perhaps count_text s z b cnt /\ alone s k b.

(** ** Lemmas *)
Lemma ep_letters : letters episode_words.
Proof. apply letters_dec. vm_compute. reflexivity. Qed.
Lemma of_letters : letters of_words.
Proof. apply letters_dec. vm_compute. reflexivity. Qed.
Lemma of_words_iff o : In (lower o) of_words <-> lower o = lit "of" \/ lower o = lit "sur".
Proof. unfold of_words. cbn [map In]. split; [intros [H|[H|[]]]; auto|intros [H|H]; auto]. Qed.
Lemma version_iff s y z n : y <= List.length s -> (exists t, reads s y z t /\ version_text n t) <-> version_at s y z /\ reads s (S y) z n.
Proof.
  intros L. unfold version_text, version_at. split.
  - intros (t & R & v & -> & V & N). apply reads_cons in R as [E R]. pose proof (reads_number s _ _ _ R N) as [L1 D]. split; [|exact R]. split; [exists v; split; [exact E|destruct V as [->| ->]; reflexivity]|]. auto.
  - intros (((q & E & Q) & L1 & D) & R). exists (q :: n). split; [apply reads_cons; auto|]. exists q. split; [reflexivity|]. split; [apply lower_is in Q; [|reflexivity]; lia|]. rewrite <- (proj2 R). apply digits_iff; [apply R|exact L1|exact D].
Qed.
Lemma of_iff s z b n : z <= List.length s -> (exists t, reads s z b t /\ count_text n t) <-> exists v, of_at s of_words z v b /\ reads s v b n.
Proof.
  intros L. unfold count_text, of_at. split.
  - intros (t & R & p1 & o & p2 & -> & P1 & O & P2 & N). apply reads_app in R as (u & R1 & R). apply reads_app in R as (w & R2 & R). apply reads_app in R as (v & R3 & R4). exists v. split; [|exact R4].
    exists u, w. split; [apply joined_text; eauto|]. split; [exists o; split; [exact R2|apply of_words_iff, O]|]. split; [apply joined_text; [destruct R3; lia|eauto]|]. apply (reads_number s v b n R4 N).
  - intros (v & (u & w & J1 & (o & R2 & O) & J2 & L1 & D) & R4). apply joined_text in J1 as (p1 & R1 & P1); [|exact L]. apply joined_text in J2 as (p2 & R3 & P2); [|destruct R2; lia].
    exists (p1 ++ o ++ p2 ++ n). split; [apply reads_app; exists u; split; [exact R1|]; apply reads_app; exists w; split; [exact R2|]; apply reads_app; exists v; auto|]. exists p1, o, p2. split; [reflexivity|]. split; [exact P1|]. split; [apply of_words_iff, O|]. split; [exact P2|].
    rewrite <- (proj2 R4). apply digits_iff; [apply R4|exact L1|exact D].
Qed.
Lemma ver_iff s y c z e : y <= List.length s -> ver_step s y c z e <-> exists ver, perhaps version_text s y z ver /\ e = match ver with Some n => (3, (z - List.length n, z)) :: c | None => c end.
Proof.
  intros L. split.
  - intros [(-> & -> & N)|(V & S & ->)].
    + exists None. split; [|reflexivity]. split; [reflexivity|]. intros z' n t R T. destruct (proj1 (version_iff s y z' n L) (ex_intro _ t (conj R T))) as [V _]. exact (N z' V).
    + pose proof V as (_ & L1 & D). pose proof (all_in_len s is_digit _ _ L1 D) as L2. exists (Some (slice (Datatypes.S y) z s)). assert (Rn : reads s (Datatypes.S y) z (slice (Datatypes.S y) z s)) by (split; [lia|reflexivity]).
      destruct (proj2 (version_iff s y z _ L) (conj V Rn)) as (t & R & T). split; [exists t; split; [exact R|]; split; [exact T|apply no_digit_iff, S]|]. rewrite slice_len by lia. do 3 f_equal. lia.
  - intros ([n|] & P & ->).
    + destruct P as (t & R & T & Nd). right. destruct (proj1 (version_iff s y z n L) (ex_intro _ t (conj R T))) as [V Rn]. split; [exact V|]. split; [apply no_digit_iff, Nd|]. apply reads_len in Rn as [Rn _]. do 3 f_equal. lia.
    + destruct P as [-> N]. left. split; [reflexivity|]. split; [reflexivity|]. intros z' V. pose proof V as (_ & L1 & D). pose proof (all_in_len s is_digit _ _ L1 D) as L2.
      destruct (proj2 (version_iff s y z' (slice (S y) z' s) L)) as (t & R & T); [split; [exact V|split; [lia|reflexivity]]|]. exact (N z' _ t R T).
Qed.
Lemma ofs_iff s z e b d : z <= List.length s -> of_step s of_words z e b d <-> exists cnt, perhaps count_text s z b cnt /\ d = match cnt with Some n => (4, (b - List.length n, b)) :: e | None => e end.
Proof.
  intros L. split.
  - intros [(-> & -> & N)|(v & V & S & ->)].
    + exists None. split; [|reflexivity]. split; [reflexivity|]. intros z' n t R T. destruct (proj1 (of_iff s z z' n L) (ex_intro _ t (conj R T))) as (v & V & _). exact (N v z' V).
    + pose proof V as (_ & _ & _ & _ & _ & L1 & D). pose proof (all_in_len s is_digit _ _ L1 D) as L2. exists (Some (slice v b s)). assert (Rn : reads s v b (slice v b s)) by (split; [lia|reflexivity]).
      destruct (proj2 (of_iff s z b _ L) (ex_intro _ v (conj V Rn))) as (t & R & T). split; [exists t; split; [exact R|]; split; [exact T|apply no_digit_iff, S]|]. rewrite slice_len by lia. do 3 f_equal. lia.
  - intros ([n|] & P & ->).
    + destruct P as (t & R & T & Nd). right. destruct (proj1 (of_iff s z b n L) (ex_intro _ t (conj R T))) as (v & V & Rn). exists v. split; [exact V|]. split; [apply no_digit_iff, Nd|]. apply reads_len in Rn as [Rn _]. do 3 f_equal. lia.
    + destruct P as [-> N]. left. split; [reflexivity|]. split; [reflexivity|]. intros v z' V. pose proof V as (_ & _ & _ & _ & _ & L1 & D). pose proof (all_in_len s is_digit _ _ L1 D) as L2.
      destruct (proj2 (of_iff s z z' (slice v z' s) L)) as (t & R & T); [exists v; split; [exact V|split; [lia|reflexivity]]|]. exact (N z' _ t R T).
Qed.
Lemma perhaps_le text s y z o : y <= List.length s -> perhaps text s y z o -> y <= z <= List.length s.
Proof. intros L. destruct o as [n|]; [intros (t & [R _] & _); lia|intros [-> _]; lia]. Qed.

(** the groups as matches, when the whole match is validated *)
Lemma kids_hidden p s x y n v : rx_children p = true -> rx_validate_all p = true ->
  shows (map (hide private_names) (rx_matches p s)) x y n v <-> smem n private_names = false /\
    exists a b c, In (a, b, c) (finditer s (rx_re p)) /\ rx_valid p s (rx_parent p s a b c) = true /\ (forall k, In k (rx_kids p s c) -> rx_child_valid p s (rx_child p a b k) = true) /\ In (mk_c x y n v) (rx_kids p s c).
Proof.
  intros Hc Hv. unfold shows. split.
  - intros (m0 & Hm & <- & <- & <- & <- & Pm). apply in_map_iff in Hm as (m & <- & Hm). cbn [hide m_start m_end m_name m_value m_private] in *. apply Bool.orb_false_iff in Pm as [Pm Sm]. split; [exact Sm|].
    apply rx_In in Hm as (a & b & c & Hf & Hm). exists a, b, c. split; [exact Hf|]. unfold rx_one in Hm. rewrite Hc, Hv in Hm. cbn [negb orb] in Hm. destruct (rx_valid p s (rx_parent p s a b c)); [|destruct Hm]. split; [reflexivity|]. cbn [andb] in Hm.
    destruct (forallb (rx_child_valid p s) (map (rx_child p a b) (rx_kids p s c))) eqn:F; [|destruct Hm]. rewrite forallb_forall in F. split; [intros k Hk; apply F, in_map, Hk|].
    apply in_app_iff in Hm as [Hm|Hm].
    + destruct (rx_private_parent p); [|destruct Hm]. destruct Hm as [<-|[]]. cbn [rx_parent m_private] in Pm. congruence.
    + apply in_map_iff in Hm as (k & <- & Hk). destruct k. exact Hk.
  - intros (Sm & a & b & c & Hf & V0 & V & Hk). exists (hide private_names (rx_child p a b (mk_c x y n v))). split; [|cbn [hide rx_child m_start m_end m_name m_value m_private c_start c_end c_name c_value]; repeat split; exact Sm].
    apply in_map, rx_In. exists a, b, c. split; [exact Hf|]. unfold rx_one. rewrite Hc, Hv, V0. cbn [negb orb andb].
    assert (F : forallb (rx_child_valid p s) (map (rx_child p a b) (rx_kids p s c)) = true) by (apply forallb_forall; intros m Hm; apply in_map_iff in Hm as (k & <- & Hk'); apply V, Hk'). rewrite F. apply in_app_iff. right. apply in_map, Hk.
Qed.

(** what the whole expression can take, for any kind of number *)
Section M.
  Context (s : str) (words : list str) (Hw : letters words) (num : re) (numat : nat -> nat -> Prop).
  Context (Hn : forall x c y d, M s num x c y d -> d = c /\ (x <= List.length s -> numat x y)) (Hlt : forall x y, numat x y -> x <= y <= List.length s).
  Lemma tail_M y c b d : y <= List.length s -> M s (tail_re of_words) y c b d -> exists z e, ((z = y /\ e = c) \/ (version_at s y z /\ e = (3, (S y, z)) :: c)) /\ ((b = z /\ d = e) \/ exists v, of_at s of_words z v b /\ d = (4, (v, b)) :: e).
  Proof.
    intros L H. apply M_sq in H as (z & e & H1 & H2). exists z, e. assert (Lz : z <= List.length s) by (apply M_mono in H1; apply H1, L). split.
    - apply M_opt1_inv in H1 as [H1|[-> ->]]; [|auto]. apply version_M in H1. auto.
    - apply M_opt1_inv in H2 as [H2|[-> ->]]; [|auto]. apply of_M in H2; [|exact of_letters|exact Lz]. auto.
  Qed.
  Lemma word_M k c b d : k <= List.length s -> M s (word_ep_re words of_words num) k c b d -> exists j x y z e, word s words k j /\ joined s j x /\ numat x y /\
    ((z = y /\ e = (2, (x, y)) :: (1, (k, j)) :: c) \/ (version_at s y z /\ e = (3, (S y, z)) :: (2, (x, y)) :: (1, (k, j)) :: c)) /\ ((b = z /\ d = e) \/ exists v, of_at s of_words z v b /\ d = (4, (v, b)) :: e).
  Proof.
    intros L H. unfold word_ep_re in H. apply M_sq in H as (j & e & H1 & H). apply M_group in H1 as (e1 & -> & H1). apply M_word in H1 as [-> H1]; [|exact Hw|exact L]. apply M_sq in H as (x & e & H2 & H). apply M_joined in H2 as [-> H2].
    apply M_sq in H as (y & e & H3 & H4). apply M_group in H3 as (e1 & -> & H3). assert (Lx : x <= List.length s) by (apply word_alpha in H1 as [H1 _]; [|exact Hw]; apply joined_le in H2; lia). apply Hn in H3 as [-> H3]. specialize (H3 Lx). pose proof (Hlt x y H3) as Ly. apply tail_M in H4 as (z & e & H4 & H5); [|lia]. exists j, x, y, z, e. auto.
  Qed.
  Lemma word_consumes : consumes s (word_ep_re words of_words num).
  Proof.
    intros k c b d H. destruct (Nat.le_gt_cases k (List.length s)) as [L|L].
    - unfold word_ep_re in H. apply M_sq in H as (j & e & H1 & H). apply M_mono in H as [H _]. apply M_group in H1 as (e1 & _ & H1). apply M_word in H1 as [_ H1]; [|exact Hw|exact L]. apply word_alpha in H1 as [H1 _]; [lia|exact Hw].
    - exfalso. unfold word_ep_re in H. apply M_sq in H as (j & e & H1 & H). apply M_group in H1 as (e1 & _ & H1).
      assert (E : nth_error s k = None) by (apply nth_error_None; lia). clear - Hw E H1. revert e1 H1. destruct Hw as [N Hl]. clear Hw. induction words as [|w l IH]; [congruence|]. intros e1 H1.
      assert (K : forall e, ~ M s (rlit w) k c j e). { intros e K. destruct (Hl w (or_introl eq_refl)) as [Nw _]. destruct w as [|x w]; [congruence|]. cbn [rlit] in K. apply M_sq in K as (j' & e' & K & _). apply M_chr_inv in K as (_ & _ & z & Ez & _). congruence. }
      destruct l as [|w' l]; [exact (K e1 H1)|]. change (rwords (w :: w' :: l)) with (RAlt (rlit w) (rwords (w' :: l))) in H1. apply M_alt_inv in H1 as [H1|H1]; [exact (K e1 H1)|]. apply (IH ltac:(discriminate)) with (e1 := e1); [intros v Hv; apply Hl; right; exact Hv|exact H1].
  Qed.
  (** nothing begun before goes past a separator and a letter that begins neither a number nor a word of a count *)
  Lemma word_isolated k q : nth_error s k = Some q -> is_alpha q = true -> (forall w, In w of_words -> hd_error w <> Some (to_lower q)) ->
    (forall c, 0 < k -> nth_error s (k - 1) = Some c -> In c seps) ->
    (forall k' j x y, word s words k' j -> joined s j x -> numat x y -> ~ x <= k <= y) ->
    forall k' b d, k' < k -> M s (word_ep_re words of_words num) k' [] b d -> b <= k.
  Proof.
    intros Eq Aq Oq Sq Inn k' b d L H. pose proof (nth_error_lt _ _ _ Eq) as Lk. apply word_M in H as (j & x & y & z & e & W & J & N & V & O); [|lia]. destruct (Nat.le_gt_cases b k) as [|G]; [assumption|exfalso].
    destruct (nth_error s (k - 1)) as [r|] eqn:Er; [|apply nth_error_None in Er; lia]. specialize (Sq r ltac:(lia) eq_refl).
    assert (Q : In q seps -> False) by (intros K; exact (alpha_nosep q Aq K)).
    assert (DG : forall i j, all_in s is_digit i j -> i <= k < j -> False) by (intros i j' A Hij; destruct (A k Hij) as (q' & Eq' & Dq'); rewrite Eq in Eq'; injection Eq' as <-; rewrite (alpha_nodigit q Aq) in Dq'; discriminate).
    assert (DB : forall i j, all_in s is_digit i j -> i <= k - 1 < j -> False) by (intros i j' A Hij; destruct (A (k - 1) Hij) as (q' & Eq' & Dq'); rewrite Er in Eq'; injection Eq' as <-; exact (digit_nosep r Dq' Sq)).
    assert (AL : forall i j, all_in s is_alpha i j -> i <= k - 1 < j -> False) by (intros i j' A Hij; destruct (A (k - 1) Hij) as (q' & Eq' & Dq'); rewrite Er in Eq'; injection Eq' as <-; exact (alpha_nosep r Dq' Sq)).
    assert (JN : forall i j, joined s i j -> i <= k < j -> False) by (intros i j' [->|(-> & q' & Eq' & Sq')] Hij; [lia|]; assert (i = k) by lia; subst i; rewrite Eq in Eq'; injection Eq' as <-; apply no_fs_iff in Sq'; tauto).
    pose proof (word_alpha s words k' j Hw W) as [Lj Aj]. pose proof (Hlt x y N) as Ly. pose proof (Inn k' j x y W J N) as Ni.
    assert (W1 : j <= k) by (destruct (Nat.le_gt_cases j k); [assumption|exfalso; apply (AL k' j Aj); lia]).
    assert (W2 : x <= k) by (destruct (Nat.le_gt_cases x k); [assumption|exfalso; apply (JN j x J); lia]).
    assert (W3 : y < k) by lia.
    assert (W4 : z < k).
    { destruct V as [[-> _]|[(_ & V2 & V3) _]]; [exact W3|]. destruct (Nat.le_gt_cases k z) as [Gz|]; [exfalso|assumption]. destruct (Nat.eq_dec (S y) k) as [Ek|Ek].
      - apply (DG (S y) z V3). lia.
      - apply (DB (S y) z V3). lia. }
    destruct O as [[-> _]|(v & (u & w & O1 & O2 & O3 & O4 & O5) & _)]; [lia|].
    assert (W5 : u <= k) by (destruct (Nat.le_gt_cases u k); [assumption|exfalso; apply (JN z u O1); lia]).
    pose proof (word_alpha s of_words u w of_letters O2) as [Lw Aw].
    assert (W6 : u < k).
    { destruct (Nat.eq_dec u k) as [->|]; [exfalso|lia]. destruct O2 as (o & R & I). pose proof (reads_len s k w o R) as [Lo _]. destruct o as [|o0 o]; [cbn [List.length] in Lo; lia|]. apply reads_cons in R as [E0 _]. rewrite Eq in E0. injection E0 as <-. exact (Oq _ I eq_refl). }
    assert (W7 : w <= k) by (destruct (Nat.le_gt_cases w k); [assumption|exfalso; apply (AL u w Aw); lia]).
    assert (W8 : v <= k) by (destruct (Nat.le_gt_cases v k); [assumption|exfalso; apply (JN w v O3); lia]).
    exact (DG v b O5 ltac:(lia)).
  Qed.
End M.

(** ** with digits *)
Section Digits.
  Context (s : str).
  Definition dig_at (x y : nat) : Prop := x < y <= List.length s /\ all_in s is_digit x y.
  Lemma dig_M x c y d : M s digits1 x c y d -> d = c /\ (x <= List.length s -> dig_at x y).
  Proof. rewrite M_digits. unfold dig_at. intros (A & B & C). split; [exact A|]. intros _. split; [split; [exact B|exact (all_in_len s is_digit x y B C)]|exact C]. Qed.
  Lemma dig_lt x y : dig_at x y -> x <= y <= List.length s.
  Proof. intros [H _]. lia. Qed.
  Definition dig_pick (x : nat) : option nat := option_map fst (best s digits1 x []).
  Lemma dig_best x c : best s digits1 x c = option_map (fun y => (y, c)) (dig_pick x).
  Proof.
    unfold dig_pick. pose proof (best_digits1 s x c) as A. pose proof (best_digits1 s x []) as B. destruct (best s digits1 x c) as [[y d]|], (best s digits1 x []) as [[y' d']|]; cbn [option_map fst]; [| | |reflexivity].
    - destruct A as (-> & A1 & A2 & A3), B as (_ & B1 & B2 & B3). rewrite (runs_agree s is_digit x y y'); auto; lia.
    - destruct A as (_ & A1 & A2 & _). exfalso. apply (stops_all s is_digit x x y B A2). lia.
    - destruct B as (_ & B1 & B2 & _). exfalso. apply (stops_all s is_digit x x y' A B2). lia.
  Qed.
  Lemma dig_pick_iff x y : dig_pick x = Some y <-> dig_at x y /\ stops s is_digit y.
  Proof.
    unfold dig_pick, dig_at. pose proof (best_digits1 s x []) as B. destruct (best s digits1 x []) as [[y' d]|]; cbn [option_map fst].
    - destruct B as (_ & B1 & B2 & B3). split.
      + intros E. injection E as <-. auto.
      + intros [[L D] S]. f_equal. apply (runs_agree s is_digit x y' y); auto; lia.
    - split; [discriminate|]. intros [[L D] _]. exfalso. apply (stops_all s is_digit x x y B D). lia.
  Qed.
  Lemma dig_pick_sep x y : nth_error s x = Some y -> In y seps -> dig_pick x = None.
  Proof. intros E S. destruct (dig_pick x) as [z|] eqn:P; [exfalso|reflexivity]. apply dig_pick_iff in P as [[L D] _]. destruct (D x ltac:(lia)) as (q & Eq & Dq). rewrite E in Eq. injection Eq as <-. exact (digit_nosep y Dq S). Qed.
  Definition ep_at (k b : nat) (d : caps) : Prop := exists j x y z e, word s episode_words k j /\ joined s j x /\ dig_at x y /\ stops s is_digit y /\
    ver_step s y [(2, (x, y)); (1, (k, j))] z e /\ of_step s of_words z e b d.
  Lemma word_starts k j : word s episode_words k j -> exists w, In w episode_words /\ startswith w (at_ s k) = true /\ j = k + List.length w.
  Proof.
    intros (t & R & I). exists (lower t). split; [exact I|]. pose proof (reads_len s k j t R) as [E L]. split; [|rewrite lower_length; exact E].
    apply startswith_app. exists (skipn (List.length t) (at_ s k)). rewrite <- (firstn_skipn (List.length t) (at_ s k)) at 1. f_equal. rewrite at_slice, <- E, (proj2 R). reflexivity.
  Qed.
  Lemma word_det k j j' x x' y y' : word s episode_words k j -> word s episode_words k j' -> joined s j x -> dig_at x y -> joined s j' x' -> dig_at x' y' -> j' = j /\ x' = x.
  Proof.
    intros W W' J [L D] J' [L' D']. destruct (digits_first s x y ltac:(lia) D) as (r & Er & Dr). destruct (digits_first s x' y' ltac:(lia) D') as (r' & Er' & Dr').
    assert (St : stops s is_alpha j) by (apply (joined_no s is_alpha j x r sep_noalpha J Er (digit_noalpha r Dr))).
    assert (St' : stops s is_alpha j') by (apply (joined_no s is_alpha j' x' r' sep_noalpha J' Er' (digit_noalpha r' Dr'))).
    destruct (word_alpha s _ k j ep_letters W) as [L1 A]. destruct (word_alpha s _ k j' ep_letters W') as [L1' A']. assert (j' = j) by (apply (runs_agree s is_alpha k j' j); auto; lia). subst j'. split; [reflexivity|].
    exact (joined_det s j x' x r' r J' Er' (digit_nosep r' Dr') J Er (digit_nosep r Dr)).
  Qed.
  Lemma ep_match k b d : k <= List.length s -> match_at s (word_ep_re episode_words of_words digits1) k = Some (b, d) <-> ep_at k b d.
  Proof.
    intros L. rewrite best_match, (best_whole s episode_words of_words ep_letters digits1 dig_pick dig_best dig_pick_sep).
    assert (X : forall w, chosen s episode_words dig_pick k = Some w -> let j := k + List.length w in let x := after_dash s j in exists y, dig_pick x = Some y /\ word s episode_words k j /\ joined s j x /\ dig_at x y /\ stops s is_digit y).
    { intros w Ch. destruct (chosen_some s episode_words ep_letters digits1 dig_pick dig_best dig_pick_sep k w Ch) as (_ & (y & P) & W & _). exists y. split; [exact P|]. split; [exact W|]. split; [apply joined_after|]. apply dig_pick_iff, P. }
    split.
    - cbv zeta. destruct (chosen s episode_words dig_pick k) as [w|] eqn:Ch; [|discriminate]. destruct (X w eq_refl) as (y & -> & W & J & N & S). intros E. apply best_tail in E as (z & e & V & O); [|exact of_letters|destruct N; lia]. exists (k + List.length w), (after_dash s (k + List.length w)), y, z, e. auto 10.
    - intros (j & x & y & z & e & W & J & N & S & V & O).
      destruct (word_starts k j W) as (w0 & I0 & S0 & E0).
      assert (Ad : after_dash s j = x). { destruct N as [Ln Dn]. destruct (digits_first s x y ltac:(lia) Dn) as (r & Er & Dr). apply after_dash_joined; [exact J| |lia]. intros q Eq. rewrite Er in Eq. injection Eq as <-. apply digit_nosep, Dr. }
      assert (P : dig_pick x = Some y) by (apply dig_pick_iff; auto).
      destruct (chosen s episode_words dig_pick k) as [w|] eqn:Ch.
      + destruct (X w eq_refl) as (y' & P' & W' & J' & N' & S'). destruct (word_det k j (k + List.length w) x (after_dash s (k + List.length w)) y y' W W' J N J' N') as [Ej Ex]. cbv zeta. rewrite P'. rewrite Ej in *. rewrite Ex in *. rewrite P in P'. injection P' as <-.
        apply best_tail; [exact of_letters|destruct N; lia|]. eauto.
      + exfalso. unfold chosen in Ch. pose proof (proj1 (find_none _ _) Ch w0 I0) as F. cbv beta in F. rewrite S0, <- E0, Ad, P in F. discriminate.
  Qed.
  Lemma ep_first k j : word s episode_words k j -> exists q, nth_error s k = Some q /\ is_alpha q = true /\ forall w, In w of_words -> hd_error w <> Some (to_lower q).
  Proof.
    intros (t & R & I). assert (G : forallb (fun w => match w with c :: _ => N.eqb c 101 || N.eqb c 99 | [] => false end) episode_words = true) by (vm_compute; reflexivity). rewrite forallb_forall in G. specialize (G _ I).
    destruct t as [|q t]; [discriminate|]. apply reads_cons in R as [E _]. exists q. split; [exact E|]. cbn [lower map] in G. assert (Q : to_lower q = 101%N \/ to_lower q = 99%N) by lia. split.
    - destruct Q as [Q|Q]; apply lower_is in Q; try reflexivity; destruct Q as [->| ->]; reflexivity.
    - intros w [<-|[<-|[]]]; destruct Q as [-> | ->]; discriminate.
  Qed.
  Lemma dig_away k q : nth_error s k = Some q -> is_alpha q = true -> (forall c, 0 < k -> nth_error s (k - 1) = Some c -> In c seps) ->
    forall k' j x y, word s episode_words k' j -> joined s j x -> dig_at x y -> ~ x <= k <= y.
  Proof.
    intros Eq Aq Sq k' j x y W J [L D] [H1 H2]. destruct (Nat.eq_dec x k) as [->|N].
    - destruct (D k ltac:(lia)) as (r & Er & Dr). rewrite Eq in Er. injection Er as <-. rewrite (alpha_nodigit q Aq) in Dr. discriminate.
    - destruct (D (k - 1) ltac:(lia)) as (r & Er & Dr). exact (digit_nosep r Dr (Sq r ltac:(lia) Er)).
  Qed.
  Lemma ep_found k b d : (forall c, 0 < k -> nth_error s (k - 1) = Some c -> In c seps) -> In (k, b, d) (finditer s (word_ep_re episode_words of_words digits1)) <-> ep_at k b d.
  Proof.
    intros A. assert (Hc : consumes s (word_ep_re episode_words of_words digits1)) by exact (word_consumes s episode_words ep_letters digits1 dig_at dig_M dig_lt). split.
    - intros H. apply finditer_sound in H as (L & E & _); [|exact Hc]. apply ep_match in E; [exact E|lia].
    - intros H. pose proof H as (j & x & y & z & e & W & _). destruct (ep_first k j W) as (q & Eq & Aq & Oq). pose proof (nth_error_lt _ _ _ Eq) as L.
      apply finditer_exact; [exact Hc|lia| |apply ep_match; [lia|exact H]].
      intros k' b' d' L' HM. exact (word_isolated s episode_words ep_letters digits1 dig_at dig_M dig_lt k q Eq Aq Oq A (dig_away k q Eq Aq A) k' b' d' L' HM).
  Qed.
End Digits.

(** the groups of a match *)
Definition caps_of (k j x y z b : nat) (ver cnt : option str) : caps :=
  match cnt with Some n => [(4, (b - List.length n, b))] | None => [] end ++ match ver with Some n => [(3, (z - List.length n, z))] | None => [] end ++ [(2, (x, y)); (1, (k, j))].
Lemma at_iff s k b d : alone s k b -> ep_at s k b d <-> exists j x y z t ver cnt, episode_written s k x y z b t ver cnt /\ word s episode_words k j /\ joined s j x /\ t = slice x y s /\ d = caps_of k j x y z b ver cnt.
Proof.
  intros A. unfold ep_at, episode_written. split.
  - intros (j & x & y & z & e & W & J & N & S & V & O). pose proof N as [Ly D]. apply ver_iff in V as (ver & V & ->); [|lia]. pose proof (perhaps_le version_text s y z ver ltac:(lia) V) as Lz. apply ofs_iff in O as (cnt & O & ->); [|lia].
    exists j, x, y, z, (slice x y s), ver, cnt. split; [|split; [exact W|]; split; [exact J|]; split; [reflexivity|]; unfold caps_of; destruct cnt, ver; reflexivity].
    split. { destruct W as (w & Rw & Iw). apply joined_text in J as (p & Rp & Hp); [|destruct Rw; lia]. exists w, p. split; [|split; [exact Iw|exact Hp]]. apply reads_app. exists j. split; [exact Rw|]. apply reads_app. exists x. split; [exact Rp|]. split; [lia|reflexivity]. }
    split; [apply digits_iff; [lia|lia|exact D]|]. split; [rewrite slice_len by lia; lia|]. auto.
  - intros (j & x & y & z & t & ver & cnt & ((w & p & R & I & P) & N & _ & V & O & _) & W & J & Et & ->). exists j, x, y, z, (match ver with Some n => [(3, (z - List.length n, z))] | None => [] end ++ [(2, (x, y)); (1, (k, j))]).
    assert (Ly : y <= List.length s) by (destruct R; lia). pose proof (perhaps_le _ _ _ _ _ Ly V) as Lz.
    assert (Lxy : x < y). { apply reads_app in R as (j1 & _ & R). apply reads_app in R as (x1 & _ & R). destruct (Nat.le_gt_cases y x) as [G|]; [exfalso|assumption]. destruct N as [N _]. apply N. rewrite Et. unfold slice. replace (y - x) with 0 by lia. reflexivity. }
    assert (D : all_in s is_digit x y) by (apply digits_iff; [lia|lia|]; rewrite <- Et; exact N).
    split; [exact W|]. split; [exact J|]. split; [split; [lia|exact D]|]. split.
    + (* no digit follows *)
      destruct ver as [nv|].
      * destruct V as (tv & Rv & (c & -> & Hc & _) & _). apply reads_cons in Rv as [Ec _]. intros q Eq. rewrite Ec in Eq. injection Eq as <-. destruct Hc as [->| ->]; reflexivity.
      * destruct V as [-> _]. destruct cnt as [nc|].
        -- destruct O as (tc & Rc & Tc & _). destruct (proj1 (of_iff s y b nc Ly) (ex_intro _ tc (conj Rc Tc))) as (v & (u & w' & J1 & W1 & _) & _). destruct (of_alpha s of_words of_letters u w' W1) as (q & Eq & Aq). exact (joined_no s is_digit y u q sep_nodigit J1 Eq (alpha_nodigit q Aq)).
        -- destruct O as [-> _]. apply stops_sep, A.
    + split; [apply ver_iff; [exact Ly|]; exists ver; split; [exact V|destruct ver; reflexivity]|]. apply ofs_iff; [lia|]. exists cnt. split; [exact O|]. unfold caps_of. destruct cnt; reflexivity.
Qed.
Definition the_kids (s : str) (k j x y z b : nat) (ver cnt : option str) : list child :=
  [mk_c k j (lit "episodeMarker") (MvStr (slice k j s)); mk_c x y (lit "episode") (int_of_text (slice x y s))] ++
  match ver with Some n => [mk_c (z - List.length n) z (lit "version") (int_of_text (slice (z - List.length n) z s))] | None => [] end ++
  match cnt with Some n => [mk_c (b - List.length n) b (lit "count") (int_of_text (slice (b - List.length n) b s))] | None => [] end.
Lemma digit_kids cfg s k j x y z b ver cnt : rx_kids (digit_episode_rx cfg) s (caps_of k j x y z b ver cnt) = the_kids s k j x y z b ver cnt.
Proof. destruct ver, cnt; reflexivity. Qed.
Lemma kids_ordered cfg s p k j x y z b ver cnt f : m_children p = map f (the_kids s k j x y z b ver cnt) -> (forall c, c_name (f c) = c_name c) -> ep_parent_valid cfg s p = seps_surround s p.
Proof.
  intros E F. unfold ep_parent_valid, ep_valid. rewrite one_valid; [apply Bool.andb_true_r| |]; unfold at_most_one; rewrite named_filter; unfold kid_matches; rewrite E; unfold the_kids; destruct ver, cnt; cbn [app map filter has_name m_name]; rewrite !F; cbn [c_name]; vm_compute; lia.
Qed.
Lemma perhaps_version s y z n : y <= List.length s -> perhaps version_text s y z (Some n) -> slice (z - List.length n) z s = n.
Proof. intros L (t & R & T & _). destruct (proj1 (version_iff s y z n L) (ex_intro _ t (conj R T))) as [_ Rn]. pose proof (reads_len _ _ _ _ Rn) as [E _]. replace (z - List.length n) with (S y) by lia. apply Rn. Qed.
Lemma perhaps_count s z b n : z <= List.length s -> perhaps count_text s z b (Some n) -> slice (b - List.length n) b s = n.
Proof. intros L (t & R & T & _). destruct (proj1 (of_iff s z b n L) (ex_intro _ t (conj R T))) as (v & _ & Rn). pose proof (reads_len _ _ _ _ Rn) as [E _]. replace (b - List.length n) with v by lia. apply Rn. Qed.

(** ** C93: episodes written with a word and digits, anywhere *)
Theorem C93_digits cfg s x' y' name v : shows (word_matches (digit_episode_rx cfg) s) x' y' name v <->
  exists k x y z b t ver cnt, episode_written s k x y z b t ver cnt /\
    ((name = lit "episode" /\ x' = x /\ y' = y /\ v = MvInt (value_of t)) \/
     (exists n, ver = Some n /\ name = lit "version" /\ x' = z - List.length n /\ y' = z /\ v = MvInt (value_of n)) \/
     (exists n, cnt = Some n /\ name = lit "count" /\ x' = b - List.length n /\ y' = b /\ v = MvInt (value_of n))).
Proof.
  unfold word_matches. rewrite (kids_hidden (digit_episode_rx cfg) s x' y' name v eq_refl eq_refl). cbn [rx_re digit_episode_rx rx_valid rx_child_valid].
  assert (PV : forall k b j x y z ver cnt, ep_parent_valid cfg s (rx_parent (digit_episode_rx cfg) s k b (caps_of k j x y z b ver cnt)) = true <-> alone s k b).
  { intros k b j x y z ver cnt. rewrite (kids_ordered cfg s _ k j x y z b ver cnt id); [|cbn [rx_parent m_children]; rewrite digit_kids, map_id; reflexivity|reflexivity]. rewrite seps_alone. reflexivity. }
  split.
  - intros (Sm & k & b & c & Hf & Hv & _ & Hk).
    assert (A : alone s k b). { unfold ep_parent_valid, ep_valid in Hv. apply Bool.andb_true_iff in Hv as [Hv _]. apply seps_alone in Hv. exact Hv. }
    apply ep_found in Hf; [|apply A]. apply (at_iff s k b c A) in Hf as (j & x & y & z & t & ver & cnt & E & _ & _ & Et & ->). rewrite digit_kids in Hk. exists k, x, y, z, b, t, ver, cnt. split; [exact E|].
    destruct E as ((w & p & R & _) & _ & _ & V & O & _). assert (Ly : y <= List.length s) by (destruct R; lia). pose proof (perhaps_le _ _ _ _ _ Ly V) as Lz.
    unfold the_kids in Hk. cbn [app] in Hk. destruct Hk as [Hk|[Hk|Hk]].
    + exfalso. assert (name = lit "episodeMarker") by congruence. subst name. discriminate.
    + left. rewrite <- Et in Hk. assert (x' = x /\ y' = y /\ name = lit "episode" /\ v = int_of_text t) as (-> & -> & -> & ->) by (split; [congruence|]; split; [congruence|]; split; congruence). repeat split; reflexivity.
    + right. apply in_app_iff in Hk as [Hk|Hk].
      * left. destruct ver as [n|]; [|destruct Hk]. destruct Hk as [Hk|[]]. rewrite (perhaps_version s y z n Ly V) in Hk. exists n. split; [reflexivity|]. split; [congruence|]. split; [congruence|]. split; [congruence|]. assert (v = int_of_text n) as -> by congruence. reflexivity.
      * right. destruct cnt as [n|]; [|destruct Hk]. destruct Hk as [Hk|[]]. rewrite (perhaps_count s z b n ltac:(lia) O) in Hk. exists n. split; [reflexivity|]. split; [congruence|]. split; [congruence|]. split; [congruence|]. assert (v = int_of_text n) as -> by congruence. reflexivity.
  - intros (k & x & y & z & b & t & ver & cnt & E & H).
    split; [destruct H as [(-> & _)|[(n & _ & -> & _)|(n & _ & -> & _)]]; reflexivity|].
    pose proof E as ((w & p & R & I & P) & N & Ex & V & O & A). assert (Ly : y <= List.length s) by (destruct R; lia). pose proof (perhaps_le _ _ _ _ _ Ly V) as Lz.
    apply reads_app in R as (j & Rw & R). apply reads_app in R as (x0 & Rp & Rt). pose proof (reads_len s x0 y t Rt) as [Ext _]. assert (x0 = x) by lia. subst x0. clear Ex.
    assert (W : word s episode_words k j) by (exists w; auto). assert (J : joined s j x) by (apply joined_text; [destruct Rw; lia|]; eauto).
    exists k, b, (caps_of k j x y z b ver cnt). split; [apply ep_found; [apply A|]; apply (at_iff s k b _ A); exists j, x, y, z, t, ver, cnt; split; [exact E|]; split; [exact W|]; split; [exact J|]; split; [symmetry; apply Rt|reflexivity]|].
    split; [apply PV, A|]. split; [reflexivity|]. rewrite digit_kids. unfold the_kids. cbn [app]. right. destruct H as [(-> & -> & -> & ->)|[(n & -> & -> & -> & -> & ->)|(n & -> & -> & -> & -> & ->)]].
    + left. rewrite (proj2 Rt). reflexivity.
    + right. apply in_app_iff. left. left. rewrite (perhaps_version s y z n Ly V). reflexivity.
    + right. apply in_app_iff. right. left. rewrite (perhaps_count s z b n ltac:(lia) O). reflexivity.
Qed.
Print Assumptions C93_digits.
