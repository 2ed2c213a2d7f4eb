(** C88: seasons written S01 and episodes written 1x02 are recognised. *)
From Verif Require Import Py PyFacts Text TextFacts WordsProofs Regex CrcProofs DateProofs RegexFacts Numeral NumeralProofs Date Quantity Sort Rebulk RebulkFacts Episodes EpisodeRulesProps IntProps Patterns PatternsProps Chain ChainProofs EpisodeChains SxxProps.
From Coq Require Import Arith ZifyBool ZifyNat ZifyN.
Local Open Scope nat_scope.

(** ** S01 *)
Lemma rlit_alpha s w a' b' c d : (forall x, In x w -> is_lower x = true) -> a' <= List.length s -> M s (rlit w) a' c b' d -> all_in s is_alpha a' b'.
Proof.
  intros Hw L H. apply (rlit_reads s w a' c b' d L) in H as (_ & t & R & E). apply (reads_all s a' b' t is_alpha R). exact (in_lower_alpha w t Hw E).
Qed.
Theorem C88_season cfg s a b m1 d1 : sxx_config cfg ->
  reads s a b (m1 ++ d1) -> In (lower m1) (season_markers cfg) -> number d1 -> alone s a b ->
  shows (chain_matches (season_chain cfg) s) (b - List.length d1) b (lit "season") (MvInt (value_of d1)).
Proof.
  intros Hcfg R H1 N1 [A B]. pose proof Hcfg as (Lsm & Lem & Kd & Ks). apply reads_app in R as (x & R1 & R2).
  assert (W1 : word s (season_markers cfg) a x) by (exists m1; auto). destruct (reads_number s x b d1 R2 N1) as [L2 D2]. pose proof (word_alpha s _ a x Lsm W1) as [Lx Ax].
  assert (S : stops s is_digit b) by (apply stops_sep, B).
  set (C := season_chain cfg). set (hr := rx_re (pt_rx (ch_head C))).
  assert (HM : forall a' b' d, a' <= List.length s -> M s hr a' [] b' d <-> exists x', word s (season_markers cfg) a' x' /\ x' < b' /\ all_in s is_digit x' b' /\ d = [(2, (x', b')); (1, (a', x'))]).
  { intros a' b' d L'. unfold hr, C. cbn [season_chain ep_chain ch_head season_head pt_rx ep_rx rx_re]. split.
    - intros H. apply M_sq in H as (x' & e & H2 & H3). apply M_group in H2 as (e1 & -> & H2). apply M_group in H3 as (e2 & -> & H3). apply M_digits in H3 as (-> & H3 & D3). apply (M_word s _ _ _ _ _ Lsm L') in H2 as [-> H2]. exists x'. auto.
    - intros (x' & H2 & H3 & H4 & ->). apply M_sq. exists x', [(1, (a', x'))]. split; [apply M_group; eexists; split; [reflexivity|apply M_word; auto]|]. apply M_group. eexists. split; [reflexivity|]. apply M_digits. auto. }
  assert (Hc : consumes s hr).
  { intros i c j d H. unfold hr, C in H. cbn [season_chain ep_chain ch_head season_head pt_rx ep_rx rx_re] in H. apply M_sq in H as (x' & e & H2 & H3). apply M_mono in H2 as [H2 _]. apply M_group in H3 as (e2 & _ & H3). apply M_digits in H3 as (_ & H3 & _). clear - H2 H3. lia. }
  assert (Mat : match_at s hr a = Some (b, [(2, (x, b)); (1, (a, x))])).
  { assert (H : M s hr a [] b [(2, (x, b)); (1, (a, x))]) by (apply HM; [clear - Lx; lia|]; exists x; auto).
    destruct (M_match_at s hr a b _ ltac:(clear - Lx; lia) H) as (b' & c' & E). rewrite E. pose proof (match_at_M s hr a b' c' E) as H'. apply HM in H' as (x' & W' & L' & D' & ->); [|clear - Lx; lia].
    assert (S' : stops s is_digit b').
    { unfold match_at, hr, C in E. cbn [season_chain ep_chain ch_head season_head pt_rx ep_rx rx_re] in E. apply mtch_seq in E as (? & ? & _ & E). cbn [mtch] in E. apply plus_max in E as (j & _ & _ & Sj & Ej); [|discriminate]. injection Ej as <- _. exact Sj. }
    pose proof (word_alpha s _ a x' Lsm W') as [Lx' Ax'].
    assert (NA : forall i j, i < j -> all_in s is_digit i j -> stops s is_alpha i).
    { clear. intros i j L D c E. destruct (D i ltac:(lia)) as (u & Eu & Du). rewrite E in Eu. injection Eu as <-. apply digit_noalpha, Du. }
    assert (x' = x) by (apply (runs_agree s is_alpha a x' x); [exact Ax'|eapply NA; eassumption|exact Ax|eapply NA; eassumption|clear - Lx'; lia|clear - Lx; lia]). subst x'.
    assert (b' = b) by (apply (runs_agree s is_digit x b' b); try assumption; [clear - L'; lia|clear - L2; lia]). subst b'. reflexivity. }
  set (c := [(2, (x, b)); (1, (a, x))]) in *. set (g := (season_head cfg, (a, b, c))).
  set (k1 := mk_mt a x (lit "seasonMarker") (MvStr (slice a x s)) [lit "SxxExx"] false a x (Some (mk_p a b [] [lit "SxxExx"])) []).
  set (k2 := mk_mt x b (lit "season") (int_of_text (slice x b s)) [lit "SxxExx"] false x b (Some (mk_p a b [] [lit "SxxExx"])) []).
  assert (EG : exists pp, group_of s g = [k1; k2; pp] /\ m_name pp = []) by (eexists; split; reflexivity). destruct EG as (pp & EG & Npp).
  assert (O1 : at_most_one (lit "season") (group_of s g)).
  { unfold at_most_one. rewrite EG. rewrite named_filter. assert (Q : has_name (lit "season") pp = false) by (unfold has_name; rewrite Npp; reflexivity). cbn [filter]. rewrite Q. cbn. lia. }
  assert (O2 : at_most_one (lit "episode") (group_of s g)).
  { unfold at_most_one. rewrite EG. rewrite named_filter. assert (Q : has_name (lit "episode") pp = false) by (unfold has_name; rewrite Npp; reflexivity). cbn [filter]. rewrite Q. cbn. lia. }
  assert (F : forall m, In m (group_of s g) -> In (hide (ch_private C) m) (chain_matches C s)).
  { apply (chain_complete s C a b c).
    - exact Hc.
    - discriminate.
    - clear - Lx. lia.
    - exact Mat.
    - intros a' b' d L HM'. apply HM in HM' as (x' & W' & L' & D' & _); [|clear - L Lx; lia]. pose proof (word_alpha s _ a' x' Lsm W') as [Lx' Ax'].
      destruct (Nat.lt_ge_cases b' a) as [G|G]; [exact G|exfalso].
      destruct (Nat.lt_ge_cases (a - 1) x') as [Q|Q].
      + apply (sep_in_run cfg Hcfg s a x W1 A a' is_alpha a' x' sep_noalpha L Ax'). clear - L Q. lia.
      + apply (sep_in_run cfg Hcfg s a x W1 A a' is_digit x' b' sep_nodigit L D'). clear - L Q G. lia.
    - intros p a' b' d [<-|[<-|[]]] _ L HM'.
      + cbn [pt_rx extras rx_re] in HM'. apply M_group in HM' as (e & _ & HM'). pose proof (M_mono _ _ _ _ _ _ HM') as [Lm _]. apply rlit_alpha in HM'; [|intros y Hy; vm_compute in Hy; repeat (destruct Hy as [<-|Hy]; [reflexivity|]); destruct Hy|clear - L Lx; lia].
        destruct (Nat.lt_ge_cases b' a) as [G|G]; [exact G|exfalso]. apply (sep_in_run cfg Hcfg s a x W1 A a' is_alpha a' b' sep_noalpha L HM'). clear - L G. lia.
      + refine (after_before cfg Hcfg s a x W1 A (season_markers cfg ++ all_discrete cfg ++ range_separators cfg) a' b' d _ _ L HM').
        * destruct Lsm as [N _]. destruct (season_markers cfg); [congruence|discriminate].
        * intros w0. apply all_words_sound; assumption.
    - apply one_unbroken; assumption.
    - change (seps_surround s (chain_parent C s [g]) && ordering_validator s (range_separators cfg) (weak_separators cfg) (discrete_separators cfg) (max_range_gap cfg) (group_of s g) = true).
      rewrite one_valid by assumption. rewrite Bool.andb_true_r. apply seps_alone. split; assumption. }
  pose proof (reads_len s x b d1 R2) as [E2 _].
  apply (hidden_shows _ (ch_private C) _ _ _ _ k2); try reflexivity.
  - apply F. rewrite EG. right. left. reflexivity.
  - cbn [m_start k2]. lia.
  - cbn [m_value k2]. rewrite (proj2 R2). apply number_value, N1.
Qed.
Print Assumptions C88_season.
Example C88_season_ex : seen (season_chain default_cfg) (lit "a.S03-1.s12extras") = [(3, 5, lit "season", MvInt 3); (9, 11, lit "season", MvInt 12); (11, 17, lit "other", MvStr (lit "Extras"))].
Proof. vm_compute. reflexivity. Qed.

(** ** the first part of a chain, alone *)
Lemma ep_found cfg head tails name tags s a b c :
  let C := ep_chain cfg head tails name tags in
  consumes s (rx_re (pt_rx head)) -> pt_max head <> Some 0 -> a < List.length s -> match_at s (rx_re (pt_rx head)) a = Some (b, c) ->
  (forall a' b' d, a' < a -> M s (rx_re (pt_rx head)) a' [] b' d -> b' < a) ->
  (forall p a' b' d, In p tails -> ended s C a' -> a' < a -> M s (rx_re (pt_rx p)) a' [] b' d -> b' < a) ->
  at_most_one (lit "season") (group_of s (head, (a, b, c))) -> at_most_one (lit "episode") (group_of s (head, (a, b, c))) -> alone s a b ->
  forall m, In m (group_of s (head, (a, b, c))) -> In (hide private_names m) (chain_matches C s).
Proof.
  intros C Hc Hm La Mat Ih It O1 O2 Al. apply (chain_complete s C a b c); try assumption.
  - apply one_unbroken; assumption.
  - change (seps_surround s (chain_parent C s [(head, (a, b, c))]) && ordering_validator s (range_separators cfg) (weak_separators cfg) (discrete_separators cfg) (max_range_gap cfg) (group_of s (head, (a, b, c))) = true).
    rewrite one_valid by assumption. rewrite Bool.andb_true_r. apply seps_alone. exact Al.
Qed.

(** ** 1x02 *)
Section Xx.
  Context (s : str) (em : list str) (Hem : letters em).
  Definition xx_re' : re := RSeq (RGrp 1 digits1) (RSeq dash_opt (RSeq (RGrp 2 (rwords em)) (RSeq dash_opt (RGrp 3 digits1)))).
  Definition xshape (a y z w v b : nat) : Prop := (a < y /\ all_in s is_digit a y) /\ joined s y z /\ word s em z w /\ joined s w v /\ (v < b /\ all_in s is_digit v b).
  Definition xcaps (a y z w v b : nat) : caps := [(3, (v, b)); (2, (z, w)); (1, (a, y))].
  Lemma xx_M a c b d : M s xx_re' a c b d <-> exists y z w v, xshape a y z w v b /\ d = xcaps a y z w v b ++ c.
  Proof.
    unfold xx_re', xshape. split.
    - intros H. apply M_sq in H as (y & e & H2 & H). apply M_group in H2 as (e2 & -> & H2). apply M_digits in H2 as (-> & H2 & H2'). pose proof (digits_len s a y H2 H2') as L2.
      apply M_sq in H as (z & e & H3 & H). apply M_joined in H3 as [-> H3]. pose proof (joined_len s y z L2 H3) as L3.
      apply M_sq in H as (w & e & H4 & H). apply M_group in H4 as (e4 & -> & H4). apply (M_word s em _ _ _ _ Hem L3) in H4 as [-> H4].
      apply M_sq in H as (v & e & H5 & H). apply M_joined in H5 as [-> H5]. apply M_group in H as (e6 & -> & H6). apply M_digits in H6 as (-> & H6 & H6').
      exists y, z, w, v. split; [tauto|reflexivity].
    - intros (y & z & w & v & ([H2 H2'] & H3 & H4 & H5 & [H6 H6']) & ->). pose proof (digits_len s a y H2 H2') as L2. pose proof (joined_len s y z L2 H3) as L3.
      apply M_sq. exists y, ((1, (a, y)) :: c). split; [apply M_group; eexists; split; [reflexivity|apply M_digits; auto]|].
      apply M_sq. eexists z, _. split; [apply M_joined; split; [reflexivity|exact H3]|].
      apply M_sq. exists w, ((2, (z, w)) :: (1, (a, y)) :: c). split; [apply M_group; eexists; split; [reflexivity|apply M_word; auto]|].
      apply M_sq. eexists v, _. split; [apply M_joined; split; [reflexivity|exact H5]|].
      apply M_group. eexists. split; [reflexivity|]. apply M_digits; auto.
  Qed.
  Lemma xx_consumes : consumes s xx_re'.
  Proof. intros a c b d H. apply xx_M in H as (y & z & w & v & ([H2 _] & H3 & H4 & H5 & [H6 _]) & _). apply word_alpha in H4 as [[? _] _]; [|exact Hem]. unfold joined in *. clear - H H2 H3 H5 H6. lia. Qed.
  Lemma xshape_det a y z w v b y' z' w' v' b' : xshape a y z w v b -> xshape a y' z' w' v' b' -> stops s is_digit b -> stops s is_digit b' -> y' = y /\ z' = z /\ w' = w /\ v' = v /\ b' = b.
  Proof.
    intros ([H2 D2] & H3 & H4 & H5 & [H6 D6]) ([H2' D2'] & H3' & H4' & H5' & [H6' D6']) S S'.
    destruct (word_first s em z w Hem H4) as (q & Eq & Aq). destruct (word_first s em z' w' Hem H4') as (q' & Eq' & Aq').
    assert (y' = y).
    { apply (runs_agree s is_digit a y' y); [exact D2'| |exact D2| |clear - H2'; lia|clear - H2; lia].
      - apply (joined_no s is_digit y' z' q' sep_nodigit H3' Eq'), alpha_nodigit, Aq'.
      - apply (joined_no s is_digit y z q sep_nodigit H3 Eq), alpha_nodigit, Aq. }
    subst y'. assert (z' = z) by exact (joined_det s y z' z q' q H3' Eq' (alpha_nosep q' Aq') H3 Eq (alpha_nosep q Aq)). subst z'.
    destruct (digits_first s v b H6 D6) as (u & Eu & Du). destruct (digits_first s v' b' H6' D6') as (u' & Eu' & Du').
    assert (w' = w).
    { apply (runs_agree s is_alpha z w' w).
      - apply word_alpha in H4' as [_ ?]; assumption.
      - apply (joined_no s is_alpha w' v' u' sep_noalpha H5' Eu'), digit_noalpha, Du'.
      - apply word_alpha in H4 as [_ ?]; assumption.
      - apply (joined_no s is_alpha w v u sep_noalpha H5 Eu), digit_noalpha, Du.
      - apply word_alpha in H4' as [? _]; [clear - H; lia|assumption].
      - apply word_alpha in H4 as [? _]; [clear - H; lia|assumption]. }
    subst w'. assert (v' = v) by exact (joined_det s w v' v u' u H5' Eu' (digit_nosep u' Du') H5 Eu (digit_nosep u Du)). subst v'.
    assert (b' = b) by (apply (runs_agree s is_digit v b' b); try assumption; [clear - H6'; lia|clear - H6; lia]). tauto.
  Qed.
  Lemma xx_match a y z w v b : xshape a y z w v b -> stops s is_digit b -> match_at s xx_re' a = Some (b, xcaps a y z w v b).
  Proof.
    intros H S. assert (La : a <= List.length s). { destruct H as [[L D] _]. pose proof (digits_len s a y L D). clear - L H. lia. }
    assert (HM : M s xx_re' a [] b (xcaps a y z w v b)) by (apply xx_M; exists y, z, w, v; split; [exact H|rewrite app_nil_r; reflexivity]).
    destruct (M_match_at s xx_re' a b _ La HM) as (b' & c' & E). rewrite E. pose proof (match_at_M s xx_re' a b' c' E) as HM'. apply xx_M in HM' as (y' & z' & w' & v' & H' & ->).
    assert (S' : stops s is_digit b').
    { unfold match_at, xx_re' in E. do 4 (apply mtch_seq in E as (? & ? & _ & E)). cbn [mtch] in E. apply plus_max in E as (j & _ & _ & Sj & Ej); [|discriminate]. injection Ej as <- _. exact Sj. }
    destruct (xshape_det a y z w v b y' z' w' v' b' H H' S S') as (-> & -> & -> & -> & ->). rewrite app_nil_r. reflexivity.
  Qed.
  (** what is before must not be the start of such a text *)
  Context (a : nat) (Ls : a < List.length s) (Ha : forall c, 0 < a -> nth_error s (a - 1) = Some c -> In c seps).
  Context (Hd : forall c, nth_error s a = Some c -> is_digit c = true).
  Lemma sep_run p i j : (forall c, In c seps -> p c = false) -> 0 < a -> all_in s p i j -> i <= a - 1 < j -> False.
  Proof.
    intros Hp L H Lj. destruct (H (a - 1) Lj) as (c' & Ec' & Pc). rewrite (Hp c' (Ha c' L Ec')) in Pc. discriminate.
  Qed.
  Context (H1 : forall i d p w e, reads s i a (d :: p ++ w ++ [e]) -> (48 <= d <= 57)%N -> maybe_sep p -> In (lower w) em -> maybe_sep [e] -> False).
  Lemma xx_before a' b' d : a' < a -> M s xx_re' a' [] b' d -> b' < a.
  Proof.
    intros L H. apply xx_M in H as (y & z & w & v & ([L2 D2] & H3 & H4 & H5 & [H6 D6]) & _).
    destruct (Nat.lt_ge_cases b' a) as [G|G]; [exact G|exfalso]. pose proof (word_alpha s em z w Hem H4) as [L4 A4].
    destruct (Nat.lt_ge_cases (a - 1) y) as [C2|C2]; [eapply (sep_run is_digit a' y sep_nodigit ltac:(clear - L; lia) D2); clear - L C2; lia|].
    destruct (Nat.lt_ge_cases (a - 1) z) as [C3|C3].
    { assert (z = a) by (unfold joined in H3; clear - H3 C2 C3 L; lia). subst z. destruct (word_first s em a w Hem H4) as (c & Ec & Ac). pose proof (Hd c Ec) as Q. rewrite (alpha_nodigit c Ac) in Q. discriminate. }
    destruct (Nat.lt_ge_cases (a - 1) w) as [C4|C4]; [eapply (sep_run is_alpha z w sep_noalpha ltac:(clear - L; lia) A4); clear - C3 C4; lia|].
    destruct (Nat.lt_ge_cases (a - 1) v) as [C5|C5]; [|eapply (sep_run is_digit v b' sep_nodigit ltac:(clear - L; lia) D6); clear - C5 G L; lia].
    assert (v = a /\ w = a - 1) as [-> Ew] by (unfold joined in H5; clear - H5 C4 C5 L; lia). destruct H4 as (t & R & I).
    destruct (D2 (y - 1) ltac:(clear - L2; lia)) as (q & Eq & Dq). pose proof (digits_len s a' y L2 D2) as Ly. apply joined_text in H3 as (p & Rp & Hp); [|exact Ly].
    destruct (nth_error s w) as [e|] eqn:Ee; [|apply nth_error_None in Ee; clear - Ee Ew Ls; lia].
    apply (H1 (y - 1) q p t e).
    - apply reads_cons. split; [exact Eq|]. replace (S (y - 1)) with y by (clear - L2; lia). apply reads_app. exists z. split; [exact Rp|]. apply reads_app. exists w. split; [exact R|]. apply reads_one. split; [clear - Ew C2 L; lia|exact Ee].
    - apply is_digit_iff, Dq.
    - exact Hp.
    - exact I.
    - destruct H5 as [H5|(_ & e' & Ee' & Se)]; [clear - H5 Ew L; lia|]. rewrite Ee in Ee'. injection Ee' as <-. right. exists e. split; [reflexivity|]. apply no_fs_iff in Se. tauto.
  Qed.
End Xx.

(** ** C88: 1x02 *)
Definition xx_config (cfg : epcfg) : Prop :=
  letters (season_ep_markers cfg) /\ (forall w, In w (range_separators cfg) \/ In w (discrete_separators cfg) -> sound_separator w).
Example xx_default : xx_config default_cfg.
Proof. split; [apply letters_dec; reflexivity|apply sxx_default]. Qed.
(** a season and an episode: 1x02, 1 x 02 *)
Definition pair (cfg : epcfg) (t : str) (d1 d2 : str) : Prop :=
  exists p1 m p2, t = d1 ++ p1 ++ m ++ p2 ++ d2 /\ number d1 /\ maybe_sep p1 /\ In (lower m) (season_ep_markers cfg) /\ maybe_sep p2 /\ number d2.
(** a marker or a separator *)
Definition joint (cfg : epcfg) (t : str) : Prop :=
  In (lower t) (season_ep_markers cfg) \/ In (lower t) (discrete_separators cfg) \/ In (lower t) (range_separators cfg) \/ exists c, t = [c] /\ In c seps /\ c <> 47%N /\ c <> 92%N.
(** a list of episodes ends at [j] : 1x02-03 *)
Inductive listed (cfg : epcfg) (s : str) : nat -> Prop :=
| listed_pair i j t d1 d2 : reads s i j t -> pair cfg t d1 d2 -> listed cfg s j
| listed_more i j t d : listed cfg s i -> reads s i j (t ++ d) -> joint cfg t -> number d -> listed cfg s j.
(** [i] is the start of a text that goes up to the number at [a]: 3x 1x02 *)
Definition captured (cfg : epcfg) (s : str) (a : nat) : Prop :=
  exists i d p w e, reads s i a (d ++ p ++ w ++ [e]) /\ number d /\ maybe_sep p /\ In (lower w) (season_ep_markers cfg) /\ maybe_sep [e].

Lemma joint_words cfg t : joint cfg t -> In (lower t) (season_ep_markers cfg ++ all_discrete cfg ++ range_separators cfg) \/ exists c, t = [c] /\ In c seps.
Proof. unfold joint. rewrite !in_app_iff. unfold all_discrete. rewrite in_app_iff. intros [H|[H|[H|(c & -> & H & _)]]]; eauto 6. Qed.
Lemma words_joint cfg t : In (lower t) (season_ep_markers cfg ++ all_discrete cfg ++ range_separators cfg) -> joint cfg t.
Proof.
  unfold joint, all_discrete, weak_separators. rewrite !in_app_iff. intros [H|[[H|H]|H]]; auto. right. right. right.
  unfold weak_discrete in H. apply filter_In in H as [I _]. apply in_map_iff in I as (c0 & Ec & Ic). destruct t as [|c1 [|]]; try discriminate Ec. injection Ec as Ec. exists c1. split; [reflexivity|].
  assert (c1 = c0). { destruct (is_upper c1) eqn:U; [|unfold to_lower in Ec; rewrite U in Ec; symmetry; exact Ec]. exfalso. assert (Q : cmem c0 seps_no_fs = true) by (apply cmem_In, Ic). apply no_fs_iff in Q as [Q _]. apply sep_noalpha in Q. rewrite Ec in Q. unfold to_lower in Q. rewrite U in Q. unfold is_upper in U. unfold is_alpha, is_upper, is_lower in Q. lia. }
  subst c1. assert (Q : cmem c0 seps_no_fs = true) by (apply cmem_In, Ic). apply no_fs_iff in Q. tauto.
Qed.
Lemma xshape_pair cfg s a y z w v b : letters (season_ep_markers cfg) -> xshape s (season_ep_markers cfg) a y z w v b ->
  exists t d1 d2, reads s a b t /\ pair cfg t d1 d2 /\ reads s a y d1 /\ reads s v b d2.
Proof.
  intros Lem ([L2 D2] & J3 & (m & R4 & I4) & J5 & [L6 D6]). destruct (number_reads s a y L2 D2) as (d1 & R2 & N1). destruct (number_reads s v b L6 D6) as (d2 & R6 & N2).
  apply joined_text in J3 as (p1 & R3 & P1); [|apply (all_in_len s is_digit a y L2 D2)]. apply joined_text in J5 as (p2 & R5 & P2); [|apply (reads_len s z w m R4)].
  exists (d1 ++ p1 ++ m ++ p2 ++ d2), d1, d2. split; [|split; [exists p1, m, p2; tauto|split; assumption]].
  apply reads_app; exists y; split; [exact R2|]; apply reads_app; exists z; split; [exact R3|]; apply reads_app; exists w; split; [exact R4|]; apply reads_app; exists v; auto.
Qed.
Lemma xx_tail_words cfg : letters (season_ep_markers cfg) -> season_ep_markers cfg ++ all_discrete cfg ++ range_separators cfg <> [].
Proof. intros [N _]. destruct (season_ep_markers cfg); [congruence|discriminate]. Qed.
Lemma ended_listed cfg s e : xx_config cfg -> ended s (xxx_chain cfg) e -> listed cfg s e.
Proof.
  intros [Lem Ks] H. induction H as [a0 e d H|q a0 e d H IH I HM].
  - apply (xx_M s _ Lem) in H as (y & z & w & v & Sh & _). destruct (xshape_pair cfg s a0 y z w v e Lem Sh) as (t & d1 & d2 & R & P & _). eapply listed_pair; eassumption.
  - destruct I as [<-|[]]. assert (L : a0 <= List.length s).
    { destruct IH as [i j t d1 d2 R _|i j t d' _ R _ _]; apply R. }
    apply (after_M s _ a0 e d (xx_tail_words cfg Lem) L) in HM as (x & t & R & It & Lx & D & _). destruct (number_reads s x e Lx D) as (d2 & R2 & N2).
    apply (listed_more cfg s a0 e t d2 IH); [apply reads_app; eauto|apply words_joint, It|exact N2].
Qed.
Section Found88.
  Context (cfg : epcfg) (Hcfg : xx_config cfg) (s : str) (a b : nat) (t d1 d2 : str).
  Context (R : reads s a b t) (P : pair cfg t d1 d2) (Al : alone s a b) (H1 : ~ captured cfg s a).
  Let em := season_ep_markers cfg.
  Let Lem : letters em := proj1 Hcfg.
  Lemma xx_shape : exists y z w v, xshape s em a y z w v b /\ reads s a y d1 /\ reads s v b d2.
  Proof.
    destruct P as (p1 & m & p2 & -> & N1 & P1 & I & P2 & N2). pose proof R as R'. apply reads_app in R' as (y & R2 & R'). apply reads_app in R' as (z & R3 & R'). apply reads_app in R' as (w & R4 & R'). apply reads_app in R' as (v & R5 & R6).
    exists y, z, w, v. split; [|auto]. split; [apply (reads_number s a y d1 R2 N1)|]. split; [apply joined_text; [destruct R3 as [? _]; lia|eauto]|]. split; [exists m; auto|]. split; [apply joined_text; [destruct R5 as [? _]; lia|eauto]|apply (reads_number s v b d2 R6 N2)].
  Qed.
  Lemma xx_first : a < List.length s /\ exists c, nth_error s a = Some c /\ is_digit c = true.
  Proof. destruct xx_shape as (y & z & w & v & ([L D] & _) & _ & _). destruct (D a ltac:(lia)) as (c & E & Dc). split; [apply nth_error_lt in E; exact E|eauto]. Qed.
  Lemma xx_isolated a' b' d : a' < a -> M s (xx_re cfg) a' [] b' d -> b' < a.
  Proof.
    destruct xx_first as (La & c & Ec & Dc). apply (xx_before s em Lem a La (proj1 Al)).
    - intros c' E. rewrite Ec in E. injection E as <-. exact Dc.
    - intros i d0 p w e Rd Hd Hp Hw He. apply H1. exists i, [d0], p, w, e. split; [exact Rd|]. split; [split; [discriminate|intros x [<-|[]]; exact Hd]|]. split; [exact Hp|]. split; [exact Hw|exact He].
  Qed.
  Lemma xx_group head : rx_re (pt_rx head) = xx_re cfg -> pt_rx head = xx_rx cfg -> forall y z w v c, c = xcaps a y z w v b ->
    exists k1 k2 k3 pp, group_of s (head, (a, b, c)) = [k1; k2; k3; pp] /\ m_name k1 = lit "season" /\ m_name k2 = lit "episodeMarker" /\ m_name k3 = lit "episode" /\ m_name pp = [] /\
      (m_start k1 = a /\ m_end k1 = y /\ m_value k1 = int_of_text (slice a y s) /\ m_private k1 = false) /\ (m_start k3 = v /\ m_end k3 = b /\ m_value k3 = int_of_text (slice v b s) /\ m_private k3 = false).
  Proof. intros _ E y z w v c ->. destruct head as [r mx]. cbn [pt_rx] in E. subst r. do 4 eexists. split; [reflexivity|]. repeat split. Qed.
  Lemma xx_shown head tails : pt_rx head = xx_rx cfg -> pt_max head <> Some 0 ->
    (forall p a' b' d, In p tails -> ended s (ep_chain cfg head tails [] [lit "SxxExx"]) a' -> a' < a -> M s (rx_re (pt_rx p)) a' [] b' d -> b' < a) ->
    shows (chain_matches (ep_chain cfg head tails [] [lit "SxxExx"]) s) a (a + List.length d1) (lit "season") (MvInt (value_of d1)) /\
    shows (chain_matches (ep_chain cfg head tails [] [lit "SxxExx"]) s) (b - List.length d2) b (lit "episode") (MvInt (value_of d2)).
  Proof.
    intros Er Hm It. destruct xx_shape as (y & z & w & v & Sh & R1 & R2). destruct xx_first as (La & _). assert (Eh : rx_re (pt_rx head) = xx_re cfg) by (rewrite Er; reflexivity).
    pose proof (xx_match s em Lem a y z w v b Sh (stops_sep s b (proj2 Al))) as Mat. destruct (xx_group head Eh Er y z w v _ eq_refl) as (k1 & k2 & k3 & pp & EG & E1 & E2 & E3 & E4 & (K1 & K2 & K3 & K4) & (Q1 & Q2 & Q3 & Q4)).
    assert (F : forall m, In m (group_of s (head, (a, b, xcaps a y z w v b))) -> In (hide private_names m) (chain_matches (ep_chain cfg head tails [] [lit "SxxExx"]) s)).
    { apply ep_found; try assumption.
      - rewrite Eh. apply (xx_consumes s em Lem).
      - rewrite Eh. exact Mat.
      - rewrite Eh. exact xx_isolated.
      - unfold at_most_one. rewrite EG, named_filter. unfold has_name. cbn [filter]. rewrite E1, E2, E3, E4. cbn. lia.
      - unfold at_most_one. rewrite EG, named_filter. unfold has_name. cbn [filter]. rewrite E1, E2, E3, E4. cbn. lia. }
    pose proof (reads_len s a y d1 R1) as [L1 _]. pose proof (reads_len s v b d2 R2) as [L2 _]. split.
    - apply (hidden_shows _ private_names _ _ _ _ k1); try assumption; try reflexivity.
      + apply F. rewrite EG. left. reflexivity.
      + rewrite K2. lia.
      + rewrite K3, (proj2 R1). reflexivity.
    - apply (hidden_shows _ private_names _ _ _ _ k3); try assumption; try reflexivity.
      + apply F. rewrite EG. right. right. left. reflexivity.
      + rewrite Q1. lia.
      + rewrite Q3, (proj2 R2). reflexivity.
  Qed.
  Context (H2 : forall i, S i = a -> ~ listed cfg s i).
  Lemma xx_after a' b' d : ended s (xxx_chain cfg) a' -> a' < a -> M s (rx_re (pt_rx (xx_tail cfg))) a' [] b' d -> b' < a.
  Proof.
    intros E L HM. destruct xx_first as (La & _). apply (after_M s _ a' b' d (xx_tail_words cfg Lem)) in HM as (x & t0 & Rx & It & Lx & D & _); [|lia].
    destruct (Nat.lt_ge_cases b' a) as [G|G]; [exact G|exfalso]. destruct (nth_error s (a - 1)) as [c|] eqn:Ec; [|apply nth_error_None in Ec; lia]. pose proof (proj1 Al c ltac:(lia) Ec) as Sc.
    destruct (Nat.lt_ge_cases (a - 1) x) as [Q|Q].
    - assert (Ic : In c t0) by (rewrite <- (proj2 Rx); apply (nth_in_slice s a' x (a - 1) c); [lia|exact Ec]).
      destruct (all_words_sound cfg _ _ (proj2 Hcfg) Lem It) as [_ [K|K]]; [exact (K c (lower_sep t0 c Ic Sc) Sc)|]. unfold lower in K. rewrite map_length in K. pose proof (reads_len s a' x t0 Rx) as [Ly _]. rewrite K in Ly.
      apply (H2 a'); [lia|]. apply (ended_listed cfg s a' Hcfg E).
    - destruct (D (a - 1) ltac:(lia)) as (c' & Ec' & Dc). rewrite Ec in Ec'. injection Ec' as <-. rewrite (sep_nodigit c Sc) in Dc. discriminate.
  Qed.
End Found88.
(** a season and an episode written 1x02 are recognised by the chain that takes any number of such pairs, unless the text
    before captures the season (3x 1x02) *)
Theorem C88_pairs cfg s a b t d1 d2 : xx_config cfg -> reads s a b t -> pair cfg t d1 d2 -> alone s a b -> ~ captured cfg s a ->
  shows (chain_matches (xx_chain cfg) s) a (a + List.length d1) (lit "season") (MvInt (value_of d1)) /\
  shows (chain_matches (xx_chain cfg) s) (b - List.length d2) b (lit "episode") (MvInt (value_of d2)).
Proof. intros Hcfg R P Al H1. apply (xx_shown cfg Hcfg s a b t d1 d2 R P Al H1 (mk_part (xx_rx cfg) None) []); [reflexivity|discriminate|intros p a' b' d []]. Qed.
Print Assumptions C88_pairs.
(** and by the one that takes a pair then other episodes, unless such a list ends just before *)
Theorem C88_list cfg s a b t d1 d2 : xx_config cfg -> reads s a b t -> pair cfg t d1 d2 -> alone s a b -> ~ captured cfg s a -> (forall i, S i = a -> ~ listed cfg s i) ->
  shows (chain_matches (xxx_chain cfg) s) a (a + List.length d1) (lit "season") (MvInt (value_of d1)) /\
  shows (chain_matches (xxx_chain cfg) s) (b - List.length d2) b (lit "episode") (MvInt (value_of d2)).
Proof.
  intros Hcfg R P Al H1 H2. apply (xx_shown cfg Hcfg s a b t d1 d2 R P Al H1 (mk_part (xx_rx cfg) (Some 1)) [xx_tail cfg]); [reflexivity|discriminate|].
  intros p a' b' d [<-|[]] E. apply (xx_after cfg Hcfg s a b t d1 d2 R P Al H2). exact E.
Qed.
Print Assumptions C88_list.
Example C88_ex : seen (xx_chain default_cfg) (lit "show 5 1 x 02-03 a") = [(7, 8, lit "season", MvInt 1); (11, 13, lit "episode", MvInt 2)] /\
  seen (xxx_chain default_cfg) (lit "show 5 1 x 02-03 a") = [(7, 8, lit "season", MvInt 1); (11, 13, lit "episode", MvInt 2); (14, 16, lit "episode", MvInt 3)].
Proof. split; vm_compute; reflexivity. Qed.
(** the two exceptions are needed *)
Theorem C88_limit :
  seen (xx_chain default_cfg) (lit "3x 1x2") = [] /\ captured default_cfg (lit "3x 1x2") 3 /\
  seen (xxx_chain default_cfg) (lit "5x3-1x2") = [(0, 1, lit "season", MvInt 5); (2, 3, lit "episode", MvInt 3)] /\ listed default_cfg (lit "5x3-1x2") 3.
Proof.
  assert (N : forall c, (48 <= c <= 57)%N -> number [c]) by (intros c H; split; [discriminate|intros x [<-|[]]; exact H]).
  split; [vm_compute; reflexivity|]. split.
  { exists 0, (lit "3"), [], (lit "x"), 32%N. split; [split; [vm_compute; lia|vm_compute; reflexivity]|]. split; [apply N; split; discriminate|]. split; [left; reflexivity|]. split; [left; reflexivity|]. right. exists 32%N. split; [reflexivity|]. split; [left; reflexivity|split; discriminate]. }
  split; [vm_compute; reflexivity|]. apply (listed_pair default_cfg _ 0 3 (lit "5x3") (lit "5") (lit "3")).
  - split; [vm_compute; lia|vm_compute; reflexivity].
  - exists [], (lit "x"), []. split; [reflexivity|]. split; [apply N; split; discriminate|]. split; [left; reflexivity|]. split; [left; reflexivity|]. split; [left; reflexivity|apply N; split; discriminate].
Qed.
Print Assumptions C88_limit.
