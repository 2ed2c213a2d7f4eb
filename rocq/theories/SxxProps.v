(** C87: seasons and episodes written S01E02 are recognised. *)
From Verif Require Import Py PyFacts Text TextFacts WordsProofs Regex CrcProofs DateProofs RegexFacts Numeral NumeralProofs Date Quantity Sort Rebulk RebulkFacts Episodes EpisodeRulesProps IntProps Patterns PatternsProps Chain ChainProofs EpisodeChains.
From Coq Require Import Arith ZifyBool ZifyNat ZifyN.
Local Open Scope nat_scope.

(** ** words and numbers in expressions *)
Lemma M_rwords s l : forall i c j d, l <> [] -> i <= List.length s -> M s (rwords l) i c j d <-> d = c /\ exists t, reads s i j t /\ In (lower t) l.
Proof.
  induction l as [|w l IH]; intros i c j d N L; [congruence|]. destruct l as [|w' l].
  - cbn [rwords]. rewrite (rlit_reads s w i c j d L). split; intros (A & t & R & H); (split; [exact A|]; exists t; split; [exact R|]).
    + left. auto.
    + destruct H as [H|[]]. auto.
  - change (rwords (w :: w' :: l)) with (RAlt (rlit w) (rwords (w' :: l))). split.
    + intros H. apply M_alt_inv in H as [H|H].
      * apply (rlit_reads s w i c j d L) in H as (A & t & R & E). split; [exact A|]. exists t. split; [exact R|left; auto].
      * apply IH in H as (A & t & R & E); [|discriminate|exact L]. split; [exact A|]. exists t. split; [exact R|right; exact E].
    + intros (A & t & R & [E|E]).
      * apply M_alt_l. apply rlit_reads; [exact L|]. split; [exact A|]. eauto.
      * apply M_alt_r. apply IH; [discriminate|exact L|]. split; [exact A|]. eauto.
Qed.
(** the words of a list are made of letters *)
Definition letters (l : list str) : Prop := l <> [] /\ forall w, In w l -> w <> [] /\ forall c, In c w -> (97 <= c <= 122)%N.
Lemma letters_alpha l t : letters l -> In (lower t) l -> t <> [] /\ forall c, In c t -> is_alpha c = true.
Proof.
  intros [_ H] I. destruct (H _ I) as [N A]. split; [intros ->; apply N; reflexivity|]. apply (in_lower_alpha (lower t)); [|reflexivity]. intros x Hx. specialize (A x Hx). unfold is_lower. lia.
Qed.
Definition word (s : str) (l : list str) (i j : nat) : Prop := exists t, reads s i j t /\ In (lower t) l.
Lemma word_alpha s l i j : letters l -> word s l i j -> i < j <= List.length s /\ all_in s is_alpha i j.
Proof.
  intros Hl (t & R & I). destruct (letters_alpha l t Hl I) as [N A]. pose proof (reads_len s i j t R) as [L L2]. destruct t; [congruence|]. cbn [List.length] in L.
  split; [lia|]. apply (reads_all s i j _ is_alpha R A).
Qed.
Lemma M_word s l i c j d : letters l -> i <= List.length s -> M s (rwords l) i c j d <-> d = c /\ word s l i j.
Proof. intros [N _] L. apply M_rwords; assumption. Qed.
Lemma M_digits s i c j d : M s digits1 i c j d <-> d = c /\ i < j /\ all_in s is_digit i j.
Proof. rewrite M_p. tauto. Qed.
Lemma M_joined s i c j d : M s dash_opt i c j d <-> d = c /\ joined s i j.
Proof. apply M_dash_opt. Qed.
Lemma M_group s n r i c j d : M s (RGrp n r) i c j d <-> exists e, d = (n, (i, j)) :: e /\ M s r i c j e.
Proof. split; [intros H; apply M_grp_inv in H as (e & -> & H); eauto|intros (e & -> & H); constructor; exact H]. Qed.
Lemma M_sq s r r' i c j d : M s (RSeq r r') i c j d <-> exists k e, M s r i c k e /\ M s r' k e j d.
Proof. split; [intros H; apply M_seq_inv in H as (k & e & H1 & H2); eauto|intros (k & e & H1 & H2); econstructor; eassumption]. Qed.
(** kinds of characters *)
Lemma digit_noalpha c : is_digit c = true -> is_alpha c = false.
Proof. unfold is_digit, is_alpha, is_upper, is_lower. lia. Qed.
Lemma alpha_nodigit c : is_alpha c = true -> is_digit c = false.
Proof. unfold is_digit, is_alpha, is_upper, is_lower. lia. Qed.
Lemma joined_no s (p : N -> bool) x y z : (forall c, In c seps -> p c = false) -> joined s x y -> nth_error s y = Some z -> p z = false -> stops s p x.
Proof.
  intros Hs [->|(-> & w & Ew & Sw)] Ez Hz v Ev.
  - rewrite Ez in Ev. injection Ev as <-. exact Hz.
  - rewrite Ew in Ev. injection Ev as <-. apply Hs. apply no_fs_iff in Sw. tauto.
Qed.
Lemma joined_det s x y y' z z' : joined s x y -> nth_error s y = Some z -> ~ In z seps -> joined s x y' -> nth_error s y' = Some z' -> ~ In z' seps -> y = y'.
Proof.
  intros [->|(-> & w & Ew & Sw)] Ez Nz [->|(-> & w' & Ew' & Sw')] Ez' Nz'; try reflexivity; exfalso.
  - rewrite Ez in Ew'. injection Ew' as <-. apply no_fs_iff in Sw'. tauto.
  - rewrite Ez' in Ew. injection Ew as <-. apply no_fs_iff in Sw. tauto.
Qed.
Lemma digit_nosep c : is_digit c = true -> ~ In c seps.
Proof. intros H I. rewrite (sep_nodigit c I) in H. discriminate. Qed.
Lemma alpha_nosep c : is_alpha c = true -> ~ In c seps.
Proof. intros H I. rewrite (sep_noalpha c I) in H. discriminate. Qed.

(** ** the expression of S01E02 *)
Section Sxx.
  Context (s : str) (sm em : list str) (Hsm : letters sm) (Hem : letters em).
  Definition sxx_re : re := RSeq (RGrp 1 (rwords sm)) (RSeq (RGrp 2 digits1) (RSeq dash_opt (RSeq (RGrp 3 (rwords em)) (RSeq dash_opt (RGrp 4 digits1))))).
  (** marker from [a] to [x], season to [y], a separator or not, marker from [z] to [w], a separator or not, episode from [v] to [b] *)
  Definition shape (a x y z w v b : nat) : Prop :=
    word s sm a x /\ (x < y /\ all_in s is_digit x y) /\ joined s y z /\ word s em z w /\ joined s w v /\ (v < b /\ all_in s is_digit v b).
  Definition shape_caps (a x y z w v b : nat) : caps := [(4, (v, b)); (3, (z, w)); (2, (x, y)); (1, (a, x))].
  Lemma digits_len i j : i < j -> all_in s is_digit i j -> j <= List.length s.
  Proof. clear. intros L H. apply (all_in_len s is_digit i j L H). Qed.
  Lemma joined_len x y : x <= List.length s -> joined s x y -> y <= List.length s.
  Proof. clear. intros L [->|(-> & z & Ez & _)]; [exact L|]. apply nth_error_lt in Ez. lia. Qed.
  Lemma sxx_M a c b d : a <= List.length s -> M s sxx_re a c b d <-> exists x y z w v, shape a x y z w v b /\ d = shape_caps a x y z w v b ++ c.
  Proof.
    intros La. unfold sxx_re, shape. split.
    - intros H. apply M_sq in H as (x & e & H1 & H). apply M_group in H1 as (e1 & -> & H1). apply (M_word s sm _ _ _ _ Hsm La) in H1 as [-> H1]. pose proof (word_alpha s sm a x Hsm H1) as [[_ L1] _].
      apply M_sq in H as (y & e & H2 & H). apply M_group in H2 as (e2 & -> & H2). apply M_digits in H2 as (-> & H2 & H2'). pose proof (digits_len x y H2 H2') as L2.
      apply M_sq in H as (z & e & H3 & H). apply M_joined in H3 as [-> H3]. pose proof (joined_len y z L2 H3) as L3.
      apply M_sq in H as (w & e & H4 & H). apply M_group in H4 as (e4 & -> & H4). apply (M_word s em _ _ _ _ Hem L3) in H4 as [-> H4].
      apply M_sq in H as (v & e & H5 & H). apply M_joined in H5 as [-> H5]. apply M_group in H as (e6 & -> & H6). apply M_digits in H6 as (-> & H6 & H6').
      exists x, y, z, w, v. split; [tauto|reflexivity].
    - intros (x & y & z & w & v & (H1 & [H2 H2'] & H3 & H4 & H5 & [H6 H6']) & ->). pose proof (word_alpha s sm a x Hsm H1) as [[_ L1] _]. pose proof (digits_len x y H2 H2') as L2. pose proof (joined_len y z L2 H3) as L3.
      apply M_sq. exists x, ((1, (a, x)) :: c). split; [apply M_group; eexists; split; [reflexivity|apply M_word; auto]|].
      apply M_sq. exists y, ((2, (x, y)) :: (1, (a, x)) :: c). split; [apply M_group; eexists; split; [reflexivity|apply M_digits; auto]|].
      apply M_sq. eexists z, _. split; [apply M_joined; split; [reflexivity|exact H3]|].
      apply M_sq. exists w, ((3, (z, w)) :: (2, (x, y)) :: (1, (a, x)) :: c). split; [apply M_group; eexists; split; [reflexivity|apply M_word; auto]|].
      apply M_sq. eexists v, _. split; [apply M_joined; split; [reflexivity|exact H5]|].
      apply M_group. eexists. split; [reflexivity|]. apply M_digits; auto.
  Qed.
  Lemma word_first l i j : letters l -> word s l i j -> exists z, nth_error s i = Some z /\ is_alpha z = true.
  Proof. clear. intros Hl H. apply word_alpha in H as [[L _] H]; [|exact Hl]. apply H. lia. Qed.
  Lemma digits_first i j : i < j -> all_in s is_digit i j -> exists z, nth_error s i = Some z /\ is_digit z = true.
  Proof. clear. intros L H. apply H. lia. Qed.
  Lemma sxx_consumes : consumes s sxx_re.
  Proof.
    intros a c b d H. destruct (Nat.le_gt_cases a (List.length s)) as [L|L].
    - apply (sxx_M a c b d L) in H as (x & y & z & w & v & (H1 & [H2 _] & H3 & H4 & H5 & [H6 _]) & _). apply word_alpha in H1 as [[? _] _], H4 as [[? _] _]; try assumption. unfold joined in *. clear - H H0 H2 H3 H5 H6. lia.
    - exfalso. unfold sxx_re in H. apply M_sq in H as (x & e & H1 & H). apply M_sq in H as (y & e' & H2 & _). apply M_group in H2 as (e2 & _ & H2). apply M_digits in H2 as (_ & L2 & H2).
      apply M_mono in H1 as [H1 _]. destruct (H2 x ltac:(lia)) as (z & Ez & _). apply nth_error_lt in Ez. clear - H1 L Ez. lia.
  Qed.
  (** a marker ends where the letters end *)
  Lemma shape_det a x y z w v b x' y' z' w' v' b' : shape a x y z w v b -> shape a x' y' z' w' v' b' -> stops s is_digit b -> stops s is_digit b' ->
    x' = x /\ y' = y /\ z' = z /\ w' = w /\ v' = v /\ b' = b.
  Proof.
    intros (H1 & [H2 D2] & H3 & H4 & H5 & [H6 D6]) (H1' & [H2' D2'] & H3' & H4' & H5' & [H6' D6']) S S'.
    assert (NA : forall i j, i < j -> all_in s is_digit i j -> stops s is_alpha i).
    { clear. intros i j L D c E. destruct (D i ltac:(lia)) as (u & Eu & Du). rewrite E in Eu. injection Eu as <-. apply digit_noalpha, Du. }
    assert (ND : forall l i j, letters l -> word s l i j -> stops s is_digit i).
    { clear. intros l i j Hl H c E. destruct (word_first l i j Hl H) as (u & Eu & Au). rewrite E in Eu. injection Eu as <-. apply alpha_nodigit, Au. }
    assert (x' = x). { apply (runs_agree s is_alpha a x' x); try (apply word_alpha in H1 as [? ?]; apply word_alpha in H1' as [? ?]; solve [assumption|lia]); eapply NA; eassumption. }
    subst x'.
    assert (FZ : exists q, nth_error s z = Some q /\ is_alpha q = true) by exact (word_first em z w Hem H4). destruct FZ as (q & Eq & Aq).
    assert (FZ' : exists q, nth_error s z' = Some q /\ is_alpha q = true) by exact (word_first em z' w' Hem H4'). destruct FZ' as (q' & Eq' & Aq').
    assert (y' = y).
    { apply (runs_agree s is_digit x y' y); [exact D2'| |exact D2| |clear - H2'; lia|clear - H2; lia].
      - apply (joined_no s is_digit y' z' q' sep_nodigit H3' Eq'), alpha_nodigit, Aq'.
      - apply (joined_no s is_digit y z q sep_nodigit H3 Eq), alpha_nodigit, Aq. }
    subst y'. assert (z' = z) by exact (joined_det s y z' z q' q H3' Eq' (alpha_nosep q' Aq') H3 Eq (alpha_nosep q Aq)). subst z'.
    destruct (digits_first v b H6 D6) as (u & Eu & Du). destruct (digits_first v' b' H6' D6') as (u' & Eu' & Du').
    assert (w' = w).
    { apply (runs_agree s is_alpha z w' w).
      - apply word_alpha in H4' as [_ ?]; assumption.
      - apply (joined_no s is_alpha w' v' u' sep_noalpha H5' Eu'), digit_noalpha, Du'.
      - apply word_alpha in H4 as [_ ?]; assumption.
      - apply (joined_no s is_alpha w v u sep_noalpha H5 Eu), digit_noalpha, Du.
      - apply word_alpha in H4' as [? _]; [clear - H; lia|assumption].
      - apply word_alpha in H4 as [? _]; [clear - H; lia|assumption]. }
    subst w'. assert (v' = v) by exact (joined_det s w v' v u' u H5' Eu' (digit_nosep u' Du') H5 Eu (digit_nosep u Du)). subst v'.
    assert (b' = b) by (apply (runs_agree s is_digit v b' b); try assumption; [clear - H6'; lia|clear - H6; lia]). tauto.
  Qed.
  Lemma sxx_match a x y z w v b : shape a x y z w v b -> stops s is_digit b -> match_at s sxx_re a = Some (b, shape_caps a x y z w v b).
  Proof.
    intros H S. assert (La : a <= List.length s). { destruct H as [H _]. apply word_alpha in H as [H _]; [clear - H; lia|exact Hsm]. }
    assert (HM : M s sxx_re a [] b (shape_caps a x y z w v b)) by (apply sxx_M; [exact La|]; exists x, y, z, w, v; split; [exact H|rewrite app_nil_r; reflexivity]).
    destruct (M_match_at s sxx_re a b _ La HM) as (b' & c' & E). rewrite E. pose proof (match_at_M s sxx_re a b' c' E) as HM'. apply (sxx_M a [] b' c' La) in HM' as (x' & y' & z' & w' & v' & H' & ->).
    assert (S' : stops s is_digit b').
    { unfold match_at, sxx_re in E. do 5 (apply mtch_seq in E as (? & ? & _ & E)). cbn [mtch] in E. apply plus_max in E as (j & _ & _ & Sj & Ej); [|discriminate]. injection Ej as <- _. exact Sj. }
    destruct (shape_det a x y z w v b x' y' z' w' v' b' H H' S S') as (-> & -> & -> & -> & -> & ->). rewrite app_nil_r. reflexivity.
  Qed.
End Sxx.

(** ** one season and one episode are always in order *)
Lemma named_filter n ms : named n ms = filter (has_name n) ms.
Proof. reflexivity. Qed.
Lemma filter_one {A} (f : A -> bool) l k : filter f l = [k] -> forall l', Permutation.Permutation l l' -> filter f l' = [k].
Proof.
  intros H l' P. assert (Q : Permutation.Permutation [k] (filter f l')).
  { rewrite <- H. clear H. induction P; cbn [filter]; try (destruct (f x)); try (destruct (f y)); try constructor; try assumption; try reflexivity; try (eapply Permutation.perm_trans; eassumption). }
  apply Permutation.Permutation_length_1_inv in Q. exact Q.
Qed.
Lemma dict_one n kids k : named n kids = [k] -> dict_values n kids = [Episodes.num k].
Proof.
  intros H. unfold dict_values. rewrite (filter_one (has_name n) kids k H (msorted kids)); [reflexivity|]. unfold msorted. apply Permutation.Permutation_sym, isort_perm.
Qed.
Lemma dict_none n kids : named n kids = [] -> dict_values n kids = [].
Proof.
  intros H. unfold dict_values. assert (E : filter (has_name n) (msorted kids) = []).
  { destruct (filter (has_name n) (msorted kids)) as [|x l] eqn:E; [reflexivity|]. assert (I : In x (filter (has_name n) (msorted kids))) by (rewrite E; left; reflexivity). apply filter_In in I as [I1 I2].
    assert (I : In x (named n kids)) by (apply filter_In; split; [|exact I2]; apply (Permutation.Permutation_in x (isort_perm _ _)) in I1; exact I1). rewrite H in I. destruct I. }
  rewrite E. reflexivity.
Qed.
Definition at_most_one (n : str) (kids : list mt) : Prop := List.length (named n kids) <= 1.
Lemma at_most n kids : at_most_one n kids -> named n kids = [] \/ exists k, named n kids = [k].
Proof. unfold at_most_one. destruct (named n kids) as [|k [|]]; cbn [List.length]; [auto|eauto|lia]. Qed.
Lemma one_sorted n kids : at_most_one n kids -> zsorted (dict_values n kids) = true.
Proof. intros H. apply at_most in H as [H|(k & H)]; [rewrite (dict_none n kids H); reflexivity|rewrite (dict_one n kids k H)]. unfold zsorted. cbn [isort insert]. destruct (list_eq_dec Z.eq_dec _ _); congruence. Qed.
Lemma one_consecutive s kids rs w st gap n : at_most_one n kids -> is_consecutive s kids rs w st gap n = true.
Proof. intros H. unfold is_consecutive. apply at_most in H as [->|(k & ->)]; reflexivity. Qed.
Lemma one_valid s rs w st gap kids : at_most_one (lit "season") kids -> at_most_one (lit "episode") kids -> ordering_validator s rs w st gap kids = true.
Proof. intros H1 H2. unfold ordering_validator. rewrite (one_sorted _ _ H1), (one_sorted _ _ H2). cbn [negb]. rewrite !one_consecutive by assumption. reflexivity. Qed.
Lemma one_near m n kids : at_most_one n kids -> too_far m (named n kids) = false.
Proof. intros H. unfold too_far. apply at_most in H as [->|(k & ->)]; reflexivity. Qed.
Lemma one_unbroken e m kids : at_most_one (lit "season") kids -> at_most_one (lit "episode") kids -> chain_breaker e m kids = false.
Proof. intros H1 H2. unfold chain_breaker. rewrite !one_near by assumption. reflexivity. Qed.

(** ** what the configuration must be *)
Definition sound_separator (w : str) : Prop := w <> [] /\ ((forall c, In c w -> ~ In c seps) \/ List.length w = 1).
Definition sxx_config (cfg : epcfg) : Prop :=
  letters (season_markers cfg) /\ letters (episode_markers cfg ++ disc_markers cfg) /\
  (forall w w' c, In w (season_markers cfg) -> In w' (episode_markers cfg ++ disc_markers cfg) -> hd_error w = Some c -> hd_error w' <> Some c) /\
  (forall w, In w (range_separators cfg) \/ In w (discrete_separators cfg) -> sound_separator w).
Lemma letters_dec l : (match l with [] => false | _ => true end) && forallb (fun w => (match w with [] => false | _ => true end) && forallb is_lower w) l = true -> letters l.
Proof.
  intros H. apply Bool.andb_true_iff in H as [H1 H2]. split; [destruct l; discriminate|]. rewrite forallb_forall in H2. intros w Hw. apply H2, Bool.andb_true_iff in Hw as [H3 H4].
  split; [destruct w; discriminate|]. rewrite forallb_forall in H4. intros c Hc. specialize (H4 c Hc). unfold is_lower in H4. lia.
Qed.
Example sxx_default : sxx_config default_cfg.
Proof.
  split; [apply letters_dec; reflexivity|]. split; [apply letters_dec; reflexivity|]. split.
  - intros w w' c H1 H2 E. cbn in H1. destruct H1 as [<-|[]]. cbn in E. injection E as <-. cbn in H2. repeat (destruct H2 as [<-|H2]; [discriminate|]). destruct H2.
  - assert (K : forallb (fun w => (match w with [] => false | _ => true end) && (forallb (fun c => negb (cmem c seps)) w || (List.length w =? 1))) (range_separators default_cfg ++ discrete_separators default_cfg) = true) by (vm_compute; reflexivity).
    rewrite forallb_forall in K. intros w Hw. assert (I : In w (range_separators default_cfg ++ discrete_separators default_cfg)) by (apply in_app_iff; tauto). apply K, Bool.andb_true_iff in I as [I1 I2].
    split; [destruct w; discriminate|]. apply Bool.orb_true_iff in I2 as [I2|I2]; [left|right; apply Nat.eqb_eq, I2]. rewrite forallb_forall in I2. intros c Hc Hs. specialize (I2 c Hc). apply cmem_In in Hs. rewrite Hs in I2. discriminate.
Qed.

(** ** nothing before crosses it *)
Section Isolation.
  Context (cfg : epcfg) (Hcfg : sxx_config cfg) (s : str) (a : nat).
  Let sm := season_markers cfg.
  Let em := episode_markers cfg ++ disc_markers cfg.
  Context (x : nat) (Hx : word s sm a x) (Ha : forall c, 0 < a -> nth_error s (a - 1) = Some c -> In c seps).
  Lemma hsm : letters sm. Proof. apply Hcfg. Qed.
  Lemma hem : letters em. Proof. apply Hcfg. Qed.
  Lemma word_hd l i j : letters l -> word s l i j -> exists c w, nth_error s i = Some c /\ In w l /\ hd_error w = Some (to_lower c).
  Proof.
    clear. intros Hl (t & R & I). destruct (letters_alpha l t Hl I) as [N _]. destruct t as [|c t]; [congruence|]. apply reads_cons in R as [E _]. exists c, (lower (c :: t)). auto.
  Qed.
  Lemma before_sep a' : a' < a -> exists c, nth_error s (a - 1) = Some c /\ In c seps.
  Proof.
    intros L. pose proof (proj1 (word_alpha s sm a x hsm Hx)) as [Lx Ls]. destruct (nth_error s (a - 1)) as [c|] eqn:E; [|apply nth_error_None in E; clear - E L Lx Ls; lia]. exists c. split; [reflexivity|]. apply Ha; [clear - L; lia|reflexivity].
  Qed.
  Lemma sep_in_run a' p i j : (forall c, In c seps -> p c = false) -> a' < a -> all_in s p i j -> i <= a - 1 < j -> False.
  Proof. intros Hp L H Lj. destruct (before_sep a' L) as (c & Ec & Sc). destruct (H (a - 1) Lj) as (c' & Ec' & Pc). rewrite Ec in Ec'. injection Ec' as <-. rewrite (Hp c Sc) in Pc. discriminate. Qed.
  Lemma start_alpha : exists c, nth_error s a = Some c /\ is_alpha c = true.
  Proof. apply (word_first s sm a x hsm Hx). Qed.
  Lemma sxx_before a' b' d : a' < a -> M s (sxx_re sm em) a' [] b' d -> b' < a.
  Proof.
    intros L H. pose proof (proj1 (word_alpha s sm a x hsm Hx)) as Lx. apply (sxx_M s sm em hsm hem) in H as (x' & y & z & w & v & (H1 & [H2 D2] & H3 & H4 & H5 & [H6 D6]) & _); [|clear - L Lx; lia].
    destruct (Nat.lt_ge_cases b' a) as [G|G]; [exact G|exfalso]. pose proof (word_alpha s sm a' x' hsm H1) as [L1 A1]. pose proof (word_alpha s em z w hem H4) as [L4 A4].
    destruct (Nat.lt_ge_cases (a - 1) x') as [C|C]; [eapply (sep_in_run a' is_alpha a' x' sep_noalpha L A1); clear - L C; lia|].
    destruct (Nat.lt_ge_cases (a - 1) y) as [C2|C2]; [eapply (sep_in_run a' is_digit x' y sep_nodigit L D2); clear - C C2; lia|].
    destruct (Nat.lt_ge_cases (a - 1) z) as [C3|C3].
    { assert (z = a) by (unfold joined in H3; clear - H3 C2 C3 L; lia). subst z. destruct (word_hd sm a x hsm Hx) as (c & w1 & Ec & I1 & E1). destruct (word_hd em a w hem H4) as (c' & w2 & Ec' & I2 & E2).
      rewrite Ec in Ec'. injection Ec' as <-. destruct Hcfg as (_ & _ & K & _). exact (K w1 w2 (to_lower c) I1 I2 E1 E2). }
    destruct (Nat.lt_ge_cases (a - 1) w) as [C4|C4]; [eapply (sep_in_run a' is_alpha z w sep_noalpha L A4); clear - C3 C4; lia|].
    destruct (Nat.lt_ge_cases (a - 1) v) as [C5|C5].
    { assert (v = a) by (unfold joined in H5; clear - H5 C4 C5 L; lia). subst v. destruct start_alpha as (c & Ec & Ac). destruct (D6 a ltac:(clear - H6; lia)) as (c' & Ec' & Dc). rewrite Ec in Ec'. injection Ec' as <-. rewrite (alpha_nodigit c Ac) in Dc. discriminate. }
    eapply (sep_in_run a' is_digit v b' sep_nodigit L D6); clear - C5 G L; lia.
  Qed.
  (** the words of the parts that follow *)
  Lemma weak_single w : In w (weak_separators cfg) -> List.length w = 1.
  Proof. clear. unfold weak_separators, weak_discrete. intros H. apply filter_In in H as [H _]. apply in_map_iff in H as (c & <- & _). reflexivity. Qed.
  Lemma lower_sep t c : In c t -> In c seps -> In c (lower t).
  Proof. clear. intros H S. unfold lower. apply in_map_iff. exists c. split; [|exact H]. vm_compute in S. repeat (destruct S as [<-|S]; [reflexivity|]). destruct S. Qed.
  Lemma after_before words a' b' d : words <> [] -> (forall w, In w words -> sound_separator w) -> a' < a -> M s (after_re words) a' [] b' d -> b' < a.
  Proof.
    intros N W L H. unfold after_re in H. pose proof (proj1 (word_alpha s sm a x hsm Hx)) as Lx. apply M_sq in H as (y & e & H1 & H2). apply M_group in H1 as (e1 & _ & H1). apply M_group in H2 as (e2 & _ & H2). apply M_digits in H2 as (_ & H2 & D2).
    apply M_rwords in H1 as (_ & t & R & I); [|exact N|clear - L Lx; lia]. destruct (Nat.lt_ge_cases b' a) as [G|G]; [exact G|exfalso].
    destruct (Nat.lt_ge_cases (a - 1) y) as [C|C]; [|eapply (sep_in_run a' is_digit y b' sep_nodigit L D2); clear - C G L; lia].
    destruct (before_sep a' L) as (c & Ec & Sc). assert (Ic : In c t). { rewrite <- (proj2 R). apply (nth_in_slice s a' y (a - 1) c); [clear - L C; lia|exact Ec]. }
    destruct (W _ I) as [_ [K|K]]; [exact (K c (lower_sep t c Ic Sc) Sc)|]. unfold lower in K. rewrite map_length in K. pose proof (reads_len s a' y t R) as [Ly _]. rewrite K in Ly.
    assert (Ya : y = a) by (clear - Ly C L; lia). destruct start_alpha as (c1 & Ec1 & Ac). destruct (D2 y ltac:(clear - H2; lia)) as (c' & Ec' & Dc). rewrite Ya in Ec'. rewrite Ec1 in Ec'. injection Ec' as <-. rewrite (alpha_nodigit c1 Ac) in Dc. discriminate.
  Qed.
End Isolation.
Lemma letters_sound l w : letters l -> In w l -> sound_separator w.
Proof.
  intros [_ H] I. destruct (H w I) as [N A]. split; [exact N|]. left. intros c Hc S. specialize (A c Hc). apply sep_noalpha in S. unfold is_alpha, is_upper, is_lower in S. lia.
Qed.
Lemma all_words_sound cfg l w : (forall w, In w (range_separators cfg) \/ In w (discrete_separators cfg) -> sound_separator w) -> letters l ->
  In w (l ++ all_discrete cfg ++ range_separators cfg) -> sound_separator w.
Proof.
  intros H Hl I. apply in_app_iff in I as [I|I]; [exact (letters_sound l w Hl I)|]. apply in_app_iff in I as [I|I]; [|apply H; auto]. unfold all_discrete in I. apply in_app_iff in I as [I|I]; [apply H; auto|].
  apply weak_single in I. split; [intros ->; discriminate|auto].
Qed.
Lemma hidden_shows ms names n a b v m : In (hide names m) ms -> m_start m = a -> m_end m = b -> m_name m = n -> m_value m = v -> m_private m = false -> smem n names = false -> shows ms a b n v.
Proof.
  intros H <- <- <- <- P S. exists (hide names m). split; [exact H|]. cbn [hide m_start m_end m_name m_value m_private]. rewrite P, S. auto.
Qed.
Lemma number_value t : number t -> int_of_text t = MvInt (value_of t).
Proof. intros _. reflexivity. Qed.

(** ** C87: S01E02 is always recognised, whatever is around *)
Theorem C87_found cfg s a b m1 d1 p1 m2 p2 d2 : sxx_config cfg ->
  reads s a b (m1 ++ d1 ++ p1 ++ m2 ++ p2 ++ d2) -> In (lower m1) (season_markers cfg) -> number d1 -> maybe_sep p1 ->
  In (lower m2) (episode_markers cfg ++ disc_markers cfg) -> maybe_sep p2 -> number d2 -> alone s a b ->
  let x := a + List.length m1 in
  shows (chain_matches (sxx_chain cfg) s) x (x + List.length d1) (lit "season") (MvInt (value_of d1)) /\
  shows (chain_matches (sxx_chain cfg) s) (b - List.length d2) b (lit "episode") (MvInt (value_of d2)).
Proof.
  intros Hcfg R H1 N1 P1 H2 P2 N2 [A B] x0. pose proof Hcfg as (Lsm & Lem & Kd & Ks).
  apply reads_app in R as (x & R1 & R). apply reads_app in R as (y & R2 & R). apply reads_app in R as (z & R3 & R). apply reads_app in R as (w & R4 & R). apply reads_app in R as (v & R5 & R6).
  assert (Sh : shape s (season_markers cfg) (episode_markers cfg ++ disc_markers cfg) a x y z w v b).
  { split; [exists m1; auto|]. split; [apply (reads_number s x y d1 R2 N1)|]. split; [apply joined_text; [destruct R3 as [? _]; lia|eauto]|]. split; [exists m2; auto|]. split; [apply joined_text; [destruct R5 as [? _]; lia|eauto]|apply (reads_number s v b d2 R6 N2)]. }
  assert (S : stops s is_digit b) by (apply stops_sep, B).
  pose proof (sxx_match s _ _ Lsm Lem a x y z w v b Sh S) as Mat. destruct Sh as (W1 & [L2 D2] & J3 & W4 & J5 & [L6 D6]).
  pose proof (proj1 (word_alpha s _ a x Lsm W1)) as Lx.
  set (c := shape_caps a x y z w v b) in *. set (g := (sxx_head cfg, (a, b, c))). set (C := sxx_chain cfg).
  set (k1 := mk_mt a x (lit "seasonMarker") (MvStr (slice a x s)) [lit "SxxExx"] false a x (Some (mk_p a b [] [lit "SxxExx"])) []).
  set (k2 := mk_mt x y (lit "season") (int_of_text (slice x y s)) [lit "SxxExx"] false x y (Some (mk_p a b [] [lit "SxxExx"])) []).
  set (k3 := mk_mt z w (lit "episodeMarker") (MvStr (slice z w s)) [lit "SxxExx"] false z w (Some (mk_p a b [] [lit "SxxExx"])) []).
  set (k4 := mk_mt v b (lit "episode") (int_of_text (slice v b s)) [lit "SxxExx"] false v b (Some (mk_p a b [] [lit "SxxExx"])) []).
  assert (EG : exists pp, group_of s g = [k1; k2; k3; k4; pp] /\ m_name pp = []) by (eexists; split; reflexivity). destruct EG as (pp & EG & Npp).
  assert (O1 : at_most_one (lit "season") (group_of s g)).
  { unfold at_most_one. rewrite EG. rewrite named_filter. assert (Q : has_name (lit "season") pp = false) by (unfold has_name; rewrite Npp; reflexivity). cbn [filter]. rewrite Q. cbn. lia. }
  assert (O2 : at_most_one (lit "episode") (group_of s g)).
  { unfold at_most_one. rewrite EG. rewrite named_filter. assert (Q : has_name (lit "episode") pp = false) by (unfold has_name; rewrite Npp; reflexivity). cbn [filter]. rewrite Q. cbn. lia. }
  assert (F : forall m, In m (group_of s g) -> In (hide (ch_private C) m) (chain_matches C s)).
  { apply (chain_complete s C a b c).
    - apply sxx_consumes; assumption.
    - discriminate.
    - lia.
    - exact Mat.
    - intros a' b' d L HM. exact (sxx_before cfg Hcfg s a x W1 A a' b' d L HM).
    - intros p a' b' d [<-|[]] _ L HM. refine (after_before cfg Hcfg s a x W1 A (sxx_tail_words cfg) a' b' d _ _ L HM).
      + unfold sxx_tail_words, markers. destruct Lem as [N _]. destruct (episode_markers cfg ++ disc_markers cfg); [congruence|discriminate].
      + intros w0. apply all_words_sound; assumption.
    - apply one_unbroken; assumption.
    - change (seps_surround s (chain_parent C s [g]) && ordering_validator s (range_separators cfg) (weak_separators cfg) (discrete_separators cfg) (max_range_gap cfg) (group_of s g) = true).
      rewrite one_valid by assumption. rewrite Bool.andb_true_r. apply seps_alone. split; assumption. }
  pose proof (reads_len s a x m1 R1) as [E1 _]. pose proof (reads_len s x y d1 R2) as [E2 _]. pose proof (reads_len s v b d2 R6) as [E6 _].
  replace x0 with x by exact E1. split.
  - apply (hidden_shows _ (ch_private C) _ _ _ _ k2); try reflexivity.
    + apply F. rewrite EG. right. left. reflexivity.
    + cbn [m_end k2]. lia.
    + cbn [m_value k2]. rewrite (proj2 R2). apply number_value, N1.
  - apply (hidden_shows _ (ch_private C) _ _ _ _ k4); try reflexivity.
    + apply F. rewrite EG. right. right. right. left. reflexivity.
    + cbn [m_start k4]. lia.
    + cbn [m_value k4]. rewrite (proj2 R6). apply number_value, N2.
Qed.
Print Assumptions C87_found.
Example C87_found_ex : seen (sxx_chain default_cfg) (lit "A show 1e1 S010 EP_002-1 x") = [(12, 15, lit "season", MvInt 10); (19, 22, lit "episode", MvInt 2)] /\
  shows (chain_matches (sxx_chain default_cfg) (lit "A show 1e1 S010 EP_002-1 x")) 12 15 (lit "season") (MvInt 10).
Proof.
  split; [vm_compute; reflexivity|].
  assert (N : number (lit "010") /\ number (lit "002")). { split; (split; [discriminate|]); intros c Hc; vm_compute in Hc; repeat (destruct Hc as [<-|Hc]; [split; discriminate|]); destruct Hc. }
  apply (C87_found default_cfg (lit "A show 1e1 S010 EP_002-1 x") 11 22 (lit "S") (lit "010") (lit " ") (lit "EP") (lit "_") (lit "002") sxx_default).
  - split; [vm_compute; lia|vm_compute; reflexivity].
  - left. reflexivity.
  - apply N.
  - right. exists 32%N. split; [reflexivity|]. split; [left; reflexivity|split; discriminate].
  - right. right. left. reflexivity.
  - right. exists 95%N. split; [reflexivity|]. split; [vm_compute; tauto|split; discriminate].
  - apply N.
  - split; intros c; [intros _|]; intros E; vm_compute in E; injection E as <-; vm_compute; tauto.
Qed.

(** ** C87: nothing else is *)
(** a season from [x] to [y] and an episode from [v] to [b], written with their markers from [a] *)
Definition opening (cfg : epcfg) (s : str) (a b x y v : nat) : Prop :=
  exists m1 d1 p1 m2 p2 d2, reads s a b (m1 ++ d1 ++ p1 ++ m2 ++ p2 ++ d2) /\ In (lower m1) (season_markers cfg) /\ number d1 /\ maybe_sep p1 /\
    In (lower m2) (episode_markers cfg ++ disc_markers cfg) /\ maybe_sep p2 /\ number d2 /\ x = a + List.length m1 /\ y = x + List.length d1 /\ v = b - List.length d2.
(** an episode from [v] to [b], written after a marker or a separator *)
Definition following (cfg : epcfg) (s : str) (a b v : nat) : Prop :=
  exists t d, reads s a b (t ++ d) /\ number d /\ v = b - List.length d /\
    (In (lower t) (episode_markers cfg ++ disc_markers cfg) \/ In (lower t) (discrete_separators cfg) \/ In (lower t) (range_separators cfg) \/ exists c, t = [c] /\ In c seps /\ c <> 47%N /\ c <> 92%N).

Lemma number_reads s x y : x < y -> all_in s is_digit x y -> exists d, reads s x y d /\ number d.
Proof. intros L D. pose proof (all_in_len s is_digit x y L D) as L2. exists (slice x y s). split; [split; [lia|reflexivity]|apply digits_iff; auto; lia]. Qed.
Lemma shape_opening cfg s a x y z w v b : letters (season_markers cfg) -> letters (episode_markers cfg ++ disc_markers cfg) ->
  shape s (season_markers cfg) (episode_markers cfg ++ disc_markers cfg) a x y z w v b -> opening cfg s a b x y v.
Proof.
  intros Lsm Lem ((m1 & R1 & I1) & [L2 D2] & J3 & (m2 & R4 & I4) & J5 & [L6 D6]). destruct (number_reads s x y L2 D2) as (d1 & R2 & N1). destruct (number_reads s v b L6 D6) as (d2 & R6 & N2).
  apply joined_text in J3 as (p1 & R3 & P1); [|apply (all_in_len s is_digit x y L2 D2)]. apply joined_text in J5 as (p2 & R5 & P2); [|apply (reads_len s z w m2 R4)].
  exists m1, d1, p1, m2, p2, d2. pose proof (reads_len s a x m1 R1) as [E1 _]. pose proof (reads_len s x y d1 R2) as [E2 _]. pose proof (reads_len s v b d2 R6) as [E6 _].
  split; [apply reads_app; exists x; split; [exact R1|]; apply reads_app; exists y; split; [exact R2|]; apply reads_app; exists z; split; [exact R3|]; apply reads_app; exists w; split; [exact R4|]; apply reads_app; exists v; auto|].
  repeat (split; [assumption|]). clear - E6. lia.
Qed.
(** the parts are in order *)
Lemma follow_ordered s p l e : (forall g, In g l -> good s g) -> follow p l e -> ForallOrdPairs (fun g g' => g_end g <= f_start (snd g')) l /\ (forall g, In g l -> p <= f_start (snd g) /\ g_end g <= e) /\ p <= e.
Proof.
  intros H F. induction F as [p|p g l e E F IH]; [split; [constructor|split; [intros ? []|lia]]|].
  destruct IH as (I1 & I2 & I3); [intros x Hx; apply H; right; exact Hx|]. assert (G : good s g) by (apply H; left; reflexivity). destruct G as [G _]. apply match_at_M, M_mono in G as [G _]. unfold g_end in *.
  split; [constructor; [|exact I1]; apply Forall_forall; intros x Hx; apply I2 in Hx; lia|]. split; [|lia]. intros x [<-|Hx]; [lia|]. apply I2 in Hx. lia.
Qed.
Lemma without_In {A} (l l' : list A) x : without l l' -> In x l -> In x l'.
Proof. induction 1; [auto|right; auto|]. intros [<-|I]; [left; reflexivity|right; auto]. Qed.
Lemma without_ordered {A} (R : A -> A -> Prop) l l' : without l l' -> ForallOrdPairs R l' -> ForallOrdPairs R l.
Proof.
  induction 1; intros O; [constructor|inversion O; auto|]. inversion O as [|? ? F1 O1]. constructor; [|auto]. rewrite Forall_forall in *. intros y Hy. apply F1. eapply without_In; eassumption.
Qed.
Lemma last_end s l g : ForallOrdPairs (fun g g' => g_end g <= f_start (snd g')) l -> (forall g, In g l -> good s g) -> In g l -> g_end g <= match rev l with g :: _ => g_end g | [] => 0 end.
Proof.
  induction l as [|x l IH]; intros O G I; [destruct I|]. inversion O as [|? ? F1 O1]. cbn [rev]. destruct (rev l) as [|y r] eqn:E.
  - apply (f_equal (@rev _)) in E. rewrite rev_involutive in E. subst l. destruct I as [<-|[]]. cbn. lia.
  - cbn [app]. destruct I as [<-|I]; [|apply IH; auto; intros z Hz; apply G; right; exact Hz]. rewrite Forall_forall in F1. assert (Iy : In y l) by (apply in_rev; rewrite E; left; reflexivity).
    specialize (F1 y Iy). destruct (G y (or_intror Iy)) as [Gy _]. apply match_at_M, M_mono in Gy as [Gy _]. unfold g_end in *. lia.
Qed.
Lemma hide_fields names m : m_start (hide names m) = m_start m /\ m_end (hide names m) = m_end m /\ m_name (hide names m) = m_name m /\ m_value (hide names m) = m_value m /\ m_private (hide names m) = m_private m || smem (m_name m) names.
Proof. auto. Qed.
Lemma sxx_unbroken cfg s f : letters (season_markers cfg) -> letters (episode_markers cfg ++ disc_markers cfg) -> good s (sxx_head cfg, f) -> ep_breaker cfg (group_of s (sxx_head cfg, f)) = false.
Proof.
  intros Lsm Lem [G L]. destruct f as [[a b] c]. cbn [fst snd f_start] in G, L. apply match_at_M in G. apply (sxx_M s _ _ Lsm Lem a [] _ c L) in G as (x & y & z & w & v & _ & ->). apply one_unbroken; unfold at_most_one; rewrite named_filter; apply le_n.
Qed.
Lemma after_M s words i b d : words <> [] -> i <= List.length s -> M s (after_re words) i [] b d -> exists x t, reads s i x t /\ In (lower t) words /\ x < b /\ all_in s is_digit x b /\ d = [(2, (x, b)); (1, (i, x))].
Proof.
  intros N L H. unfold after_re in H. apply M_sq in H as (x & e & H1 & H2). apply M_group in H1 as (e1 & -> & H1). apply M_group in H2 as (e2 & -> & H2). apply M_digits in H2 as (-> & H2 & D2).
  apply M_rwords in H1 as (-> & t & R & I); [|exact N|exact L]. exists x, t. auto.
Qed.

Theorem C87_sound cfg s m : sxx_config cfg -> public (chain_matches (sxx_chain cfg) s) m ->
  exists a b, alone s a b /\ (exists b0 x y v, opening cfg s a b0 x y v /\ b0 <= b) /\ a <= m_start m /\ m_end m <= b /\
  (exists d, reads s (m_start m) (m_end m) d /\ number d /\ m_value m = MvInt (value_of d)) /\
  ((m_name m = lit "season" /\ exists a' b' v, opening cfg s a' b' (m_start m) (m_end m) v) \/
   (m_name m = lit "episode" /\ exists a', (exists x y, opening cfg s a' (m_end m) x y (m_start m)) \/ following cfg s a' (m_end m) (m_start m))).
Proof.
  intros Hcfg [Hm Pm]. pose proof Hcfg as (Lsm & Lem & Kd & Ks).
  apply chain_sound in Hm as (h & r & t & a & e & F & W & G1 & G2 & V & Hm); [|intros f Gf; apply sxx_unbroken; assumption].
  set (gs := (ch_head (sxx_chain cfg), h) :: r) in *. cbn [ch_head ch_tails sxx_chain ep_chain ch_private ch_valid] in *.
  destruct Hm as [->|(g & m' & Ig & Im & ->)]; [discriminate Pm|].
  assert (GA : forall g, In g ((sxx_head cfg, h) :: t) -> good s g) by (intros g0 [<-|I]; [exact G1|apply G2, I]).
  assert (Wg : without gs ((sxx_head cfg, h) :: t)) by (apply without_keep, W).
  destruct (follow_ordered s a _ e GA F) as (O & _ & _). pose proof (without_ordered _ _ _ Wg O) as Og.
  assert (Gg : forall g, In g gs -> good s g) by (intros g0 I; apply GA; eapply without_In; eassumption).
  set (b := match rev gs with g :: _ => g_end g | [] => 0 end).
  exists (f_start h), b. unfold ep_valid in V. apply Bool.andb_true_iff in V as [V _]. apply seps_alone in V. cbn [chain_parent m_start m_end] in V. fold b in V. cbn [gs snd] in V. split; [exact V|].
  assert (Hb : forall g, In g gs -> g_end g <= b) by (intros g0 I; apply (last_end s gs g0 Og Gg I)).
  split.
  { destruct G1 as [G1 L1]. cbn [fst snd] in G1, L1. apply match_at_M in G1. apply (sxx_M s _ _ Lsm Lem) in G1 as (x & y & z & w & v & Sh & _); [|exact L1]. exists (f_end h), x, y, v. split; [eapply shape_opening; eassumption|]. apply (Hb (sxx_head cfg, h)). left. reflexivity. }
  assert (Hs : f_start h <= f_start (snd g)).
  { destruct Ig as [<-|Ig]; [cbn [snd]; lia|]. inversion Og as [|? ? F1 _]. rewrite Forall_forall in F1. specialize (F1 g Ig). destruct G1 as [G1 _]. apply match_at_M, M_mono in G1 as [G1 _]. unfold g_end in F1, G1. cbn [ch_head sxx_chain ep_chain snd] in F1, G1 |- *. clear - F1 G1. lia. }
  specialize (Hb g Ig). destruct (hide_fields private_names m') as (-> & -> & -> & -> & Ep). rewrite Ep in Pm. apply Bool.orb_false_iff in Pm as [Pm Sm].
  assert (Hp : fst g = sxx_head cfg \/ fst g = sxx_tail cfg). { destruct Ig as [<-|Ig]; [left; reflexivity|]. destruct (G2 g (without_In _ _ _ W Ig)) as [[H|[H|[]]] _]; auto. }
  destruct g as [p [[i j] c]]. specialize (Gg _ Ig). destruct Gg as [Gm Li]. cbn [fst snd f_start f_end g_end] in *. apply match_at_M in Gm. unfold g_end in Hb, Gm. cbn [f_end fst snd] in Hb, Gm.
  assert (Val : forall x y, x < y -> all_in s is_digit x y -> exists d, reads s x y d /\ number d /\ int_of_text (slice x y s) = MvInt (value_of d)).
  { intros x y L D. destruct (number_reads s x y L D) as (d & R & N). exists d. split; [exact R|]. split; [exact N|]. rewrite (proj2 R). apply number_value, N. }
  destruct Hp as [-> | ->].
  - apply (sxx_M s _ _ Lsm Lem i [] j c Li) in Gm as (x & y & z & w & v & Sh & ->). pose proof (shape_opening cfg s i x y z w v j Lsm Lem Sh) as Op. destruct Sh as (W1 & [L2 D2] & J3 & W4 & J5 & [L6 D6]).
    apply word_alpha in W1 as [W1 _]; [|exact Lsm]. apply word_alpha in W4 as [W4 _]; [|exact Lem]. unfold joined in J3, J5. change (f_start h <= i) in Hs.
    assert (Im' : m' = mk_mt i x (lit "seasonMarker") (MvStr (slice i x s)) [lit "SxxExx"] false i x (Some (mk_p i j [] [lit "SxxExx"])) [] \/
      m' = mk_mt x y (lit "season") (int_of_text (slice x y s)) [lit "SxxExx"] false x y (Some (mk_p i j [] [lit "SxxExx"])) [] \/
      m' = mk_mt z w (lit "episodeMarker") (MvStr (slice z w s)) [lit "SxxExx"] false z w (Some (mk_p i j [] [lit "SxxExx"])) [] \/
      m' = mk_mt v j (lit "episode") (int_of_text (slice v j s)) [lit "SxxExx"] false v j (Some (mk_p i j [] [lit "SxxExx"])) [] \/ m_private m' = true).
    { destruct Im as [<-|[<-|[<-|[<-|[<-|[]]]]]]; [left|right; left|right; right; left|right; right; right; left|right; right; right; right]; reflexivity. }
    clear Im. destruct Im' as [->|[->|[->|[->|Im]]]]; [discriminate Sm| |discriminate Sm| |congruence]; cbn [m_start m_end m_name m_value].
    + split; [lia|]. split; [lia|]. split; [apply Val; assumption|]. left. split; [reflexivity|]. eauto.
    + split; [lia|]. split; [lia|]. split; [apply Val; assumption|]. right. split; [reflexivity|]. exists i. left. eauto.
  - apply after_M in Gm as (x & t0 & R & I & Lx & D & ->); [|unfold sxx_tail_words, markers; destruct Lem as [N _]; destruct (episode_markers cfg ++ disc_markers cfg); [congruence|discriminate]|exact Li].
    pose proof (proj1 R) as Lr. change (f_start h <= i) in Hs.
    assert (Im' : m' = mk_mt i x (lit "episodeSeparator") (MvStr (slice i x s)) [lit "SxxExx"] false i x (Some (mk_p i j [] [lit "SxxExx"])) [] \/
      m' = mk_mt x j (lit "episode") (int_of_text (slice x j s)) [lit "SxxExx"] false x j (Some (mk_p i j [] [lit "SxxExx"])) [] \/ m_private m' = true).
    { destruct Im as [<-|[<-|[<-|[]]]]; [left|right; left|right; right]; reflexivity. }
    clear Im. destruct Im' as [->|[->|Im]]; [discriminate Sm| |congruence]. cbn [m_start m_end m_name m_value].
    split; [lia|]. split; [lia|]. split; [apply Val; assumption|]. right. split; [reflexivity|]. exists i. right.
    destruct (number_reads s x j Lx D) as (d & Rd & Nd). pose proof (reads_len s x j d Rd) as [Ed _]. exists t0, d. split; [apply reads_app; eauto|]. split; [exact Nd|]. split; [lia|].
    unfold sxx_tail_words, all_discrete, weak_separators in I. apply in_app_iff in I as [I|I]; [left; exact I|]. apply in_app_iff in I as [I|I]; [|right; right; left; exact I]. apply in_app_iff in I as [I|I]; [right; left; exact I|].
    right. right. right. unfold weak_discrete in I. apply filter_In in I as [I _]. apply in_map_iff in I as (c0 & Ec & Ic). destruct t0 as [|c1 [|]]; try discriminate Ec. injection Ec as Ec. exists c1. split; [reflexivity|].
    assert (c1 = c0). { destruct (is_upper c1) eqn:U; [|unfold to_lower in Ec; rewrite U in Ec; symmetry; exact Ec]. exfalso. assert (Q : cmem c0 seps_no_fs = true) by (apply cmem_In, Ic). apply no_fs_iff in Q as [Q _]. apply sep_noalpha in Q. rewrite Ec in Q. unfold to_lower in Q. rewrite U in Q. unfold is_upper in U. unfold is_alpha, is_upper, is_lower in Q. lia. }
    subst c1. assert (Q : cmem c0 seps_no_fs = true) by (apply cmem_In, Ic). apply no_fs_iff in Q. tauto.
Qed.
Print Assumptions C87_sound.
