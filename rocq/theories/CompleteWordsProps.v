(** C102: [The Complete Series], [Season Complete] are reported as Complete, and nothing else is by that pattern. *)
From Verif Require Import Py PyFacts Text TextFacts WordsProofs Regex CrcProofs DateProofs RegexFacts Common Rebulk EpisodeRulesProps Patterns PatternsProps SxxProps PatternConf Keyword KeywordProofs KeywordProps CompleteWords.
From Coq Require Import Arith ZifyBool ZifyNat ZifyN.
Local Open Scope nat_scope.

(** ** Specification *)
Definition one_sep (p : str) : Prop := exists c, p = [c] /\ In c seps /\ c <> 47%N /\ c <> 92%N.
Definition season_word (w : str) : Prop := In (lower w) (map lit ["season"; "seasons"; "serie"; "series"]%string).
(** [t] is the word complete, with [before] before it ([The] and a separator, a season word and a separator, or both) and
    [after] after it (a separator and a season word); [word] tells whether there is a season word *)
Definition phrase (t : str) (word : Prop) : Prop := exists art bef c aft, t = art ++ bef ++ c ++ aft /\ lower c = lit "complete" /\
  (art = [] \/ exists w p, art = w ++ p /\ lower w = lit "the" /\ one_sep p) /\
  (bef = [] \/ exists w p, bef = w ++ p /\ season_word w /\ one_sep p) /\
  (aft = [] \/ exists p w, aft = p ++ w /\ one_sep p /\ season_word w) /\
  (word <-> bef <> [] \/ aft <> []).
Definition said (s : str) (a b : nat) (word : Prop) : Prop := exists t, reads s a b t /\ phrase t word.

(** ** the expression *)
Fixpoint text_then (t : str) (k : kre) : kre := match t with [] => k | c :: r => KSeq (KItem (IChr c)) (text_then r k) end.
Lemma then_spells t : forall k u after, lower t = lower t -> spells (text_then t k) u after <-> exists v w, u = v ++ w /\ lower v = lower t /\ spells k w after.
Proof.
  induction t as [|c t IH]; intros k u after _; cbn [text_then spells].
  - split; [intros H; exists [], u; auto|]. intros (v & w & -> & E & H). apply lower_nil in E as ->. exact H.
  - split.
    + intros (x & y & -> & (d & -> & A) & H). apply IH in H as (v & w & -> & E & H); [|reflexivity]. exists (d :: v), w. split; [reflexivity|]. split; [|exact H]. cbn [accepts] in A. apply N.eqb_eq in A. unfold lower in *. cbn [map]. rewrite A, E. reflexivity.
    + intros (v & w & -> & E & H). destruct v as [|d v]; [discriminate|]. unfold lower in E. cbn [map] in E. injection E as E1 E2. exists [d], (v ++ w). split; [reflexivity|]. split; [exists d; split; [reflexivity|]; cbn [accepts]; apply N.eqb_eq, E1|]. apply IH; [reflexivity|]. exists v, w. auto.
Qed.
Definition words_kre : kre := KSeq (KAlt (text_then (lit "season") (KSeq (KOpt (KItem (IChr 115))) KEps)) (text_then (lit "serie") (KSeq (KOpt (KItem (IChr 115))) KEps))) KEps.
Definition art_kre : kre := KSeq (KSeq (text_then (lit "The") KEps) KEps) (KSeq (KItem ISep) KEps).
Definition bef_kre : kre := KSeq words_kre (KSeq (KItem ISep) KEps).
Definition aft_kre : kre := KSeq (KItem ISep) (KSeq words_kre KEps).
Definition n1 := lit "completeArticle".
Definition n2 := lit "completeWordsBefore".
Definition n3 := lit "completeWordsAfter".
Definition the_kre : kre := KSeq (KOpt (KGrp 1 n1 art_kre)) (KSeq (KOpt (KGrp 2 n2 bef_kre)) (text_then (lit "Complete") (KSeq (KOpt (KGrp 3 n3 aft_kre)) KEps))).
Lemma the_kre_is : kre_of (complete_pattern season_patterns article_patterns) = Some the_kre.
Proof. vm_compute. reflexivity. Qed.
Lemma opt_s_spells u after : spells (KSeq (KOpt (KItem (IChr 115))) KEps) u after <-> lower u = [] \/ lower u = lit "s".
Proof.
  cbn [spells]. split.
  - intros (x & y & -> & [(d & -> & A)| ->] & ->); [right|left; reflexivity]. cbn [accepts] in A. apply N.eqb_eq in A. cbn [app lower map]. rewrite A. reflexivity.
  - intros [E|E]; [apply lower_nil in E as ->; exists [], []; auto|]. destruct u as [|d [|? ?]]; try discriminate. exists [d], []. split; [reflexivity|]. split; [|reflexivity]. left. exists d. split; [reflexivity|]. cbn [lower map] in E. injection E as E. cbn [accepts]. rewrite E. reflexivity.
Qed.
Lemma lower_app u v : lower (u ++ v) = lower u ++ lower v.
Proof. apply map_app. Qed.
Lemma lower_split u x y : lower u = x ++ y -> exists v w, u = v ++ w /\ lower v = x /\ lower w = y.
Proof.
  intros E. exists (firstn (List.length x) u), (skipn (List.length x) u). split; [symmetry; apply firstn_skipn|]. unfold lower in *. rewrite <- firstn_map, <- skipn_map, E. split; [rewrite firstn_app, firstn_all, Nat.sub_diag; cbn [firstn]; apply app_nil_r|rewrite skipn_app, skipn_all, Nat.sub_diag; reflexivity].
Qed.
Lemma words_spells u after : spells words_kre u after <-> season_word u.
Proof.
  unfold words_kre, season_word. change (spells (KSeq ?a KEps) u after) with (exists x y, u = x ++ y /\ spells a x (y ++ after) /\ y = []).
  assert (E : (exists x y, u = x ++ y /\ spells (KAlt (text_then (lit "season") (KSeq (KOpt (KItem (IChr 115))) KEps)) (text_then (lit "serie") (KSeq (KOpt (KItem (IChr 115))) KEps))) x (y ++ after) /\ y = []) <->
    spells (text_then (lit "season") (KSeq (KOpt (KItem (IChr 115))) KEps)) u after \/ spells (text_then (lit "serie") (KSeq (KOpt (KItem (IChr 115))) KEps)) u after).
  { split; [intros (x & y & -> & H & ->); rewrite app_nil_r; exact H|]. intros H. exists u, []. rewrite app_nil_r. auto. }
  rewrite E. rewrite !then_spells by reflexivity. cbn [map In]. split.
  - intros [(v & w & -> & Ev & H)|(v & w & -> & Ev & H)]; apply opt_s_spells in H as [H|H]; rewrite lower_app, Ev, H; auto.
  - intros [H|[H|[H|[H|[]]]]].
    + left. exists u, []. rewrite app_nil_r. split; [reflexivity|]. split; [symmetry; exact H|]. apply opt_s_spells. left. reflexivity.
    + left. destruct (lower_split u (lit "season") (lit "s") (eq_sym H)) as (v & w & -> & Ev & Ew). exists v, w. split; [reflexivity|]. split; [exact Ev|]. apply opt_s_spells. right. exact Ew.
    + right. exists u, []. rewrite app_nil_r. split; [reflexivity|]. split; [symmetry; exact H|]. apply opt_s_spells. left. reflexivity.
    + right. destruct (lower_split u (lit "serie") (lit "s") (eq_sym H)) as (v & w & -> & Ev & Ew). exists v, w. split; [reflexivity|]. split; [exact Ev|]. apply opt_s_spells. right. exact Ew.
Qed.
Lemma sep_spells p after : spells (KItem ISep) p after <-> one_sep p.
Proof.
  cbn [spells accepts]. unfold one_sep. split; intros (c & -> & H); exists c; (split; [reflexivity|]).
  - apply no_fs_iff in H. tauto.
  - apply no_fs_iff. tauto.
Qed.
Lemma art_spells u after : spells art_kre u after <-> exists w p, u = w ++ p /\ lower w = lit "the" /\ one_sep p.
Proof.
  unfold art_kre. change (spells (KSeq ?a ?b) u after) with (exists x y, u = x ++ y /\ spells a x (y ++ after) /\ spells b y after). split.
  - intros (x & y & -> & (x1 & x2 & -> & H & E2) & (y1 & y2 & -> & P & E)). change (x2 = []) in E2. change (y2 = []) in E. subst x2 y2. apply then_spells in H as (v & w & -> & Ev & E); [|reflexivity]. change (w = []) in E. subst w. apply sep_spells in P. exists v, y1. rewrite !app_nil_r. auto.
  - intros (w & p & -> & Ew & P). exists w, p. split; [reflexivity|]. split.
    + exists w, []. rewrite app_nil_r. split; [reflexivity|]. split; [|reflexivity]. apply then_spells; [reflexivity|]. exists w, []. rewrite app_nil_r. split; [reflexivity|]. split; [exact Ew|reflexivity].
    + exists p, []. rewrite app_nil_r. split; [reflexivity|]. split; [apply sep_spells, P|reflexivity].
Qed.
Lemma bef_spells u after : spells bef_kre u after <-> exists w p, u = w ++ p /\ season_word w /\ one_sep p.
Proof.
  unfold bef_kre. change (spells (KSeq ?a ?b) u after) with (exists x y, u = x ++ y /\ spells a x (y ++ after) /\ spells b y after). split.
  - intros (x & y & -> & H & (y1 & y2 & -> & P & E)). change (y2 = []) in E. subst y2. apply words_spells in H. apply sep_spells in P. exists x, y1. rewrite !app_nil_r. auto.
  - intros (w & p & -> & Ew & P). exists w, p. split; [reflexivity|]. split; [apply words_spells, Ew|]. exists p, []. rewrite app_nil_r. split; [reflexivity|]. split; [apply sep_spells, P|reflexivity].
Qed.
Lemma aft_spells u after : spells aft_kre u after <-> exists p w, u = p ++ w /\ one_sep p /\ season_word w.
Proof.
  unfold aft_kre. change (spells (KSeq ?a ?b) u after) with (exists x y, u = x ++ y /\ spells a x (y ++ after) /\ spells b y after). split.
  - intros (x & y & -> & P & (y1 & y2 & -> & H & E)). change (y2 = []) in E. subst y2. apply words_spells in H. apply sep_spells in P. exists x, y1. rewrite !app_nil_r. auto.
  - intros (p & w & -> & P & Ew). exists p, w. split; [reflexivity|]. split; [apply sep_spells, P|]. exists w, []. rewrite app_nil_r. split; [reflexivity|]. split; [apply words_spells, Ew|reflexivity].
Qed.
(** no group inside, no capture *)
Lemma no_groups s k : kre_groups k = [] -> forall i c j d, M s (kre_re k) i c j d -> d = c.
Proof.
  induction k as [|it|k1 IH1 k2 IH2|k1 IH1 k2 IH2|k IH|n m k IH| |it|k IH]; cbn [kre_groups kre_re]; intros G i c j d H.
  - apply M_eps_inv in H. tauto.
  - apply M_chr_inv in H. tauto.
  - apply app_eq_nil in G as [G1 G2]. apply M_sq in H as (x & e & H1 & H2). apply IH1 in H1 as ->; [|exact G1]. exact (IH2 G2 _ _ _ _ H2).
  - apply app_eq_nil in G as [G1 G2]. apply M_alt_inv in H as [H|H]; [exact (IH1 G1 _ _ _ _ H)|exact (IH2 G2 _ _ _ _ H)].
  - apply M_alt_inv in H as [H|H]; [exact (IH G _ _ _ _ H)|apply M_eps_inv in H; tauto].
  - discriminate.
  - inversion H; reflexivity.
  - inversion H; reflexivity.
  - inversion H; reflexivity.
Qed.
Lemma opt_group s n m k i c j d : kre_groups k = [] -> i <= List.length s -> M s (kre_re (KOpt (KGrp n m k))) i c j d -> i <= j <= List.length s /\
  ((j = i /\ d = c) \/ (spells k (slice i j s) (skipn j s) /\ d = (n, (i, j)) :: c)).
Proof.
  intros G L H. pose proof (M_mono _ _ _ _ _ _ H) as [L1 L2]. split; [split; [exact L1|apply L2, L]|]. cbn [kre_re] in H. apply M_alt_inv in H as [H|H]; [right|left; apply M_eps_inv in H; tauto].
  apply M_group in H as (e & -> & H). pose proof (no_groups s k G _ _ _ _ H) as ->. split; [|reflexivity]. apply (M_spells s k i c j L). eauto.
Qed.
Definition caps_are (c : caps) (a i1 i2 i3 b : nat) (g1 g2 g3 : bool) : Prop :=
  c = (if g3 then [(3, (i3, b))] else []) ++ (if g2 then [(2, (i1, i2))] else []) ++ (if g1 then [(1, (a, i1))] else []).
Lemma the_M s a b c : a <= List.length s -> M s (kre_re the_kre) a [] b c -> exists i1 i2 i3 g1 g2 g3, a <= i1 <= i2 /\ i2 <= i3 <= b /\ b <= List.length s /\
  (if g1 : bool then exists w p, slice a i1 s = w ++ p /\ lower w = lit "the" /\ one_sep p else i1 = a) /\
  (if g2 : bool then exists w p, slice i1 i2 s = w ++ p /\ season_word w /\ one_sep p else i2 = i1) /\
  lower (slice i2 i3 s) = lit "complete" /\
  (if g3 : bool then exists p w, slice i3 b s = p ++ w /\ one_sep p /\ season_word w else b = i3) /\ caps_are c a i1 i2 i3 b g1 g2 g3.
Proof.
  intros L H. change (kre_re the_kre) with (RSeq (kre_re (KOpt (KGrp 1 n1 art_kre))) (RSeq (kre_re (KOpt (KGrp 2 n2 bef_kre))) (kre_re (text_then (lit "Complete") (KSeq (KOpt (KGrp 3 n3 aft_kre)) KEps))))) in H. apply M_sq in H as (i1 & c1 & H1 & H). apply M_sq in H as (i2 & c2 & H2 & H).
  apply (opt_group s 1 n1 art_kre) in H1 as [L1 H1]; [|vm_compute; reflexivity|exact L]. apply (opt_group s 2 n2 bef_kre) in H2 as [L2 H2]; [|vm_compute; reflexivity|lia].
  assert (T : forall t k i c j d, i <= List.length s -> M s (kre_re (text_then t k)) i c j d -> exists m, i <= m <= List.length s /\ lower (slice i m s) = lower t /\ M s (kre_re k) m c j d).
  { clear. induction t as [|x t IH]; intros k i c j d L H; cbn [text_then kre_re] in H.
    - exists i. split; [lia|]. split; [unfold slice; rewrite Nat.sub_diag; reflexivity|exact H].
    - apply M_sq in H as (m & e & H1 & H). apply M_chr_inv in H1 as (-> & -> & y & Ey & Hy). pose proof (nth_error_lt _ _ _ Ey). apply IH in H as (m & Lm & E & H); [|lia]. exists m. split; [lia|]. split; [|exact H].
      rewrite (slice_app s i (S i) m) by lia. rewrite (slice_one s i y Ey). cbn [accepts] in Hy. apply N.eqb_eq in Hy. unfold lower in *. cbn [app map]. rewrite Hy, E. reflexivity. }
  apply T in H as (i3 & L3 & E3 & H); [|lia]. change (kre_re (KSeq (KOpt (KGrp 3 n3 aft_kre)) KEps)) with (RSeq (kre_re (KOpt (KGrp 3 n3 aft_kre))) REps) in H. apply M_sq in H as (b' & c3 & H3 & H4). apply M_eps_inv in H4 as [-> ->]. apply (opt_group s 3 n3 aft_kre) in H3 as [L4 H3]; [|vm_compute; reflexivity|lia].
  exists i1, i2, i3.
  destruct H1 as [[-> ->]|[S1 ->]]; [exists false|exists true]; (destruct H2 as [[-> ->]|[S2 ->]]; [exists false|exists true]); (destruct H3 as [[-> ->]|[S3 ->]]; [exists false|exists true]);
  (do 3 (split; [lia|])); repeat split; try exact E3; try (apply art_spells in S1; exact S1); try (apply bef_spells in S2; exact S2); try (apply aft_spells in S3; exact S3).
Qed.
Lemma the_spells t after : spells the_kre t after <-> exists word, phrase t word.
Proof.
  unfold the_kre. change (spells (KSeq ?a (KSeq ?b ?c)) t after) with (exists x y, t = x ++ y /\ spells a x (y ++ after) /\ exists z w, y = z ++ w /\ spells b z (w ++ after) /\ spells c w after). split.
  - intros (x & y & -> & A & z & w & -> & B & C). apply then_spells in C as (v & u & -> & Ec & u1 & u2 & -> & Cf & E); [|reflexivity]. change (u2 = []) in E. subst u2. rewrite app_nil_r in *.
    exists (z <> [] \/ u1 <> []). exists x, z, v, u1. split; [reflexivity|]. split; [exact Ec|]. split; [destruct A as [A| ->]; [right; apply art_spells in A; exact A|left; reflexivity]|]. split; [destruct B as [B| ->]; [right; apply bef_spells in B; exact B|left; reflexivity]|]. split; [destruct Cf as [Cf| ->]; [right; apply aft_spells in Cf; exact Cf|left; reflexivity]|reflexivity].
  - intros (word & art & bef & c & aft & -> & Ec & A & B & C & _). exists art, (bef ++ c ++ aft). split; [reflexivity|]. split; [destruct A as [->|A]; [right; reflexivity|left; apply art_spells, A]|]. exists bef, (c ++ aft). split; [reflexivity|]. split; [destruct B as [->|B]; [right; reflexivity|left; apply bef_spells, B]|].
    apply then_spells; [reflexivity|]. exists c, aft. split; [reflexivity|]. split; [exact Ec|]. exists aft, []. rewrite app_nil_r. split; [reflexivity|]. split; [|reflexivity]. destruct C as [->|C]; [right; reflexivity|left; apply aft_spells, C].
Qed.
Lemma written_reads s a b : written the_kre s a b <-> exists word, said s a b word.
Proof.
  unfold said. rewrite written_iff. split.
  - intros [L H]. apply (M_spells s the_kre a [] b L) in H as [Lb H]. apply the_spells in H as [word H]. exists word, (slice a b s). split; [split; [lia|reflexivity]|exact H].
  - intros (word & t & [L <-] & P). split; [lia|]. apply M_spells; [lia|]. split; [lia|]. apply the_spells. eauto.
Qed.

(** ** the matches *)
Lemma complete_is : complete_kw season_patterns article_patterns = Some (mk_kw the_kre None
    (mk_rx (kre_re the_kre) (kre_groups the_kre) (lit "other") [lit "release-group-prefix"] false false false (fun _ _ => MvStr (lit "Complete"))
           (fun s m => seps_surround s m && validate_complete s m) always)).
Proof. unfold complete_kw. rewrite the_kre_is. reflexivity. Qed.
Lemma the_solid : solid the_kre = true /\ greedy the_kre = true.
Proof. vm_compute. split; reflexivity. Qed.
Lemma season_length w : season_word w -> 5 <= List.length w <= 7.
Proof. intros H. rewrite <- lower_length. destruct H as [<-|[<-|[<-|[<-|[]]]]]; vm_compute; lia. Qed.
Lemma app_end {A} (u v u' v' : list A) : List.length v = List.length v' -> u ++ v = u' ++ v' -> u = u' /\ v = v'.
Proof.
  intros L E. assert (List.length u = List.length u') by (apply (f_equal (@List.length A)) in E; rewrite !app_length in E; lia). exact (app_inj_len u v u' v' H E).
Qed.
(** the word complete, and at most [The] before it, has no season word *)
Lemma no_word t art c word : phrase t word -> t = art ++ c -> lower c = lit "complete" -> (art = [] \/ List.length art = 4) -> ~ word.
Proof.
  intros (art' & bef & c' & aft & -> & Ec' & A & B & C & W) E Ec La Hw. apply W in Hw. assert (Lc : List.length c = 8) by (rewrite <- lower_length, Ec; reflexivity). assert (Lc' : List.length c' = 8) by (rewrite <- lower_length, Ec'; reflexivity).
  destruct C as [->|(p & w & -> & (q & -> & _) & Sw)].
  - destruct Hw as [Nb|Na]; [|congruence]. destruct B as [->|(w & p & -> & Sw & (q & -> & _))]; [congruence|]. rewrite app_nil_r in E. rewrite app_assoc in E. apply app_end in E as [E _]; [|lia].
    pose proof (season_length w Sw). apply (f_equal (@List.length N)) in E. rewrite !app_length in E. cbn [List.length] in E. destruct A as [->|(w' & p' & -> & Ew' & (q' & -> & _))].
    + cbn [List.length] in E. destruct La as [->|La]; cbn [List.length] in E; lia.
    + rewrite app_length in E. cbn [List.length] in E. destruct La as [->|La]; cbn [List.length] in E; lia.
  - apply (f_equal lower) in E. rewrite !lower_app in E. rewrite Ec in E. destruct Sw as [Sw|[Sw|[Sw|[Sw|[]]]]]; rewrite <- Sw in E; apply (f_equal (@rev N)) in E; rewrite !rev_app_distr in E; discriminate E.
Qed.
Lemma kids_word s a b c i1 i2 i3 g1 g2 g3 f r : caps_are c a i1 i2 i3 b g1 g2 g3 ->
  validate_complete s (rx_parent (mk_rx r (kre_groups the_kre) (lit "other") [lit "release-group-prefix"] false false false f (fun s m => seps_surround s m && validate_complete s m) always) s a b c) = g2 || g3.
Proof. intros ->. destruct g1, g2, g3; vm_compute; reflexivity. Qed.
Lemma phrase_of s a b i1 i2 i3 (g1 g2 g3 : bool) : a <= i1 <= i2 -> i2 <= i3 <= b -> b <= List.length s ->
  (if g1 then exists w p, slice a i1 s = w ++ p /\ lower w = lit "the" /\ one_sep p else i1 = a) ->
  (if g2 then exists w p, slice i1 i2 s = w ++ p /\ season_word w /\ one_sep p else i2 = i1) ->
  lower (slice i2 i3 s) = lit "complete" ->
  (if g3 then exists p w, slice i3 b s = p ++ w /\ one_sep p /\ season_word w else b = i3) -> said s a b (g2 || g3 = true).
Proof.
  intros L1 L2 L3 H1 H2 H3 H4. exists (slice a b s). split; [split; [lia|reflexivity]|]. exists (slice a i1 s), (slice i1 i2 s), (slice i2 i3 s), (slice i3 b s).
  assert (Nil : forall i, slice i i s = []) by (intros i; unfold slice; rewrite Nat.sub_diag; reflexivity).
  split; [rewrite (slice_app s a i1 b), (slice_app s i1 i2 b), (slice_app s i2 i3 b) by lia; reflexivity|]. split; [exact H3|].
  assert (NE : forall (w p : str), season_word w -> w ++ p <> []) by (intros w p Sw E; apply app_eq_nil in E as [-> _]; apply season_length in Sw; cbn in Sw; lia).
  assert (NE' : forall (p w : str), season_word w -> p ++ w <> []) by (intros p w Sw E; apply app_eq_nil in E as [_ ->]; apply season_length in Sw; cbn in Sw; lia).
  split; [destruct g1; [right; exact H1|left; rewrite H1; apply Nil]|]. split; [destruct g2; [right; exact H2|left; rewrite H2; apply Nil]|]. split; [destruct g3; [right; exact H4|left; rewrite H4; apply Nil]|].
  split.
  - intros G. destruct g2; [left; destruct H2 as (w & p & -> & Sw & _); exact (NE w p Sw)|]. destruct g3; [right; destruct H4 as (p & w & -> & _ & Sw); exact (NE' p w Sw)|discriminate].
  - intros [G|G]; [destruct g2; [reflexivity|destruct G; rewrite H2; apply Nil]|destruct g3; [apply Bool.orb_true_r|destruct G; rewrite H4; apply Nil]].
Qed.

(** ** C102 *)
Theorem C102_sound s a b n v : shows (complete_matches season_patterns article_patterns s) a b n v ->
  n = lit "other" /\ v = MvStr (lit "Complete") /\ said s a b True /\ alone s a b.
Proof.
  unfold complete_matches. rewrite complete_is. set (K := mk_kw _ _ _). destruct (kw_found K s ltac:(discriminate) (proj1 the_solid)) as (fs & E & F & _). unfold kw_matches. rewrite E. cbn [bind].
  intros (m & Hm & <- & <- & <- & <- & _). apply in_flat_map in Hm as (((a0 & b0) & c) & Hf & Hm). destruct (F a0 b0 c Hf) as [L HM]. apply (one_parent (kw_rx K) s a0 b0 c m eq_refl eq_refl) in Hm as [Hv ->].
  cbn [rx_parent m_start m_end m_name m_value]. split; [reflexivity|]. split; [reflexivity|]. cbn [K kw_rx rx_valid] in Hv. apply Bool.andb_true_iff in Hv as [V1 V2]. apply seps_alone in V1. cbn [rx_parent m_start m_end] in V1. split; [|exact V1].
  apply the_M in HM as (i1 & i2 & i3 & g1 & g2 & g3 & L1 & L2 & L3 & H1 & H2 & H3 & H4 & Hc); [|lia]. rewrite (kids_word s a0 b0 c i1 i2 i3 g1 g2 g3 _ _ Hc) in V2.
  destruct (phrase_of s a0 b0 i1 i2 i3 g1 g2 g3 L1 L2 L3 H1 H2 H3 H4) as (t & R & art & bef & cc & aft & E1 & E2 & E3 & E4 & E5 & E6). exists t. split; [exact R|]. exists art, bef, cc, aft. split; [exact E1|]. split; [exact E2|]. split; [exact E3|]. split; [exact E4|]. split; [exact E5|]. split; [intros _; apply E6, V2|auto].
Qed.
Print Assumptions C102_sound.
(** what is said so, and neither begun before nor continued by another such phrase, is found *)
Theorem C102_found s a b : said s a b True -> alone s a b ->
  (forall a' b' word, said s a' b' word -> a' < a -> b' <= a) -> (forall b' word, said s a b' word -> b' <= b) ->
  shows (complete_matches season_patterns article_patterns s) a b (lit "other") (MvStr (lit "Complete")).
Proof.
  intros Sd A F1 F2. unfold complete_matches. rewrite complete_is. set (K := mk_kw _ _ _). destruct (kw_found K s ltac:(discriminate) (proj1 the_solid)) as (fs & E & F & G). unfold kw_matches. rewrite E. cbn [bind].
  destruct (G a b) as [c Hf].
  - apply written_reads. exists True. exact Sd.
  - left. split; [exact (proj2 the_solid)|]. split.
    + intros a' b' W. apply written_reads in W as [word W]. exact (F1 a' b' word W).
    + intros b' W. apply written_reads in W as [word W]. exact (F2 b' word W).
  - exists (rx_parent (kw_rx K) s a b c). split; [|cbn [rx_parent m_start m_end m_name m_value m_private K kw_rx rx_children rx_name rx_value]; repeat split; reflexivity].
    apply in_flat_map. exists (a, b, c). split; [exact Hf|]. apply (one_parent (kw_rx K) s a b c _ eq_refl eq_refl). split; [|reflexivity]. cbn [K kw_rx rx_valid]. apply Bool.andb_true_iff. split; [apply seps_alone; exact A|].
    destruct (F a b c Hf) as [L HM]. apply the_M in HM as (i1 & i2 & i3 & g1 & g2 & g3 & L1 & L2 & L3 & H1 & H2 & H3 & H4 & Hc); [|lia]. rewrite (kids_word s a b c i1 i2 i3 g1 g2 g3 _ _ Hc).
    destruct g2; [reflexivity|]. destruct g3; [reflexivity|exfalso]. subst i2 b. destruct Sd as (t & R & P).
    apply (no_word t (slice a i1 s) (slice i1 i3 s) True P); [rewrite <- slice_app by lia; symmetry; apply R|exact H3| |exact I]. destruct g1; [right; destruct H1 as (w & p & -> & Ew & (q & -> & _)); rewrite app_length, <- lower_length, Ew; reflexivity|left; subst i1; unfold slice; rewrite Nat.sub_diag; reflexivity].
Qed.
Print Assumptions C102_found.
(** the word complete alone, or with [The] only, is not reported by that pattern *)
Theorem C102_alone s a b n v t art c : reads s a b t -> t = art ++ c -> lower c = lit "complete" -> (art = [] \/ List.length art = 4) -> ~ shows (complete_matches season_patterns article_patterns s) a b n v.
Proof.
  intros R E Ec La H. apply C102_sound in H as (_ & _ & (t' & R' & P) & _). assert (t' = t) by (transitivity (slice a b s); [symmetry; apply R'|apply R]). subst t'. exact (no_word t art c True P E Ec La I).
Qed.
Print Assumptions C102_alone.
Example C102_ex : let s := lit "The.complete.series" in said s 0 19 True /\ alone s 0 19 /\ (forall a' b' word, said s a' b' word -> a' < 0 -> b' <= 0) /\ (forall b' word, said s 0 b' word -> b' <= 19).
Proof.
  cbv zeta. assert (P : one_sep [46%N]) by (exists 46%N; split; [reflexivity|]; split; [vm_compute; tauto|split; discriminate]). split.
  - exists (lit "The.complete.series"). split; [split; [vm_compute; lia|reflexivity]|]. exists (lit "The."), [], (lit "complete"), (lit ".series"). split; [reflexivity|]. split; [reflexivity|].
    split; [right; exists (lit "The"), [46%N]; auto|]. split; [left; reflexivity|]. split; [right; exists [46%N], (lit "series"); split; [reflexivity|]; split; [exact P|]; do 3 right; left; reflexivity|]. split; [intros _; right; discriminate|auto].
  - split; [split; [intros c H; lia|intros c E; discriminate E]|]. split; [intros; lia|]. intros b' word (t & [L _] & _). cbn in L. lia.
Qed.
(** the season word of one phrase is not shared with the next: [season complete] is written here and alone, and not seen *)
Theorem C102_limit : let s := lit "complete season complete" in said s 9 24 True /\ alone s 9 24 /\ ~ shows (complete_matches season_patterns article_patterns s) 9 24 (lit "other") (MvStr (lit "Complete")).
Proof.
  cbv zeta. split; [|split].
  - exists (lit "season complete"). split; [split; [vm_compute; lia|reflexivity]|]. exists [], (lit "season "), (lit "complete"), []. split; [reflexivity|]. split; [reflexivity|]. split; [left; reflexivity|].
    split; [right; exists (lit "season"), [32%N]; split; [reflexivity|]; split; [left; reflexivity|]; exists 32%N; split; [reflexivity|]; split; [vm_compute; tauto|split; discriminate]|]. split; [left; reflexivity|]. split; [intros _; left; discriminate|auto].
  - split; [intros c _ E; injection E as <-; vm_compute; tauto|intros c E; discriminate E].
  - intros (m & Hm & E & _). vm_compute in Hm. destruct Hm as [<-|[]]. discriminate E.
Qed.
Print Assumptions C102_limit.
