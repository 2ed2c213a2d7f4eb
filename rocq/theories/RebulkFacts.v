(** Facts about the match store of [Rebulk.v]. *)
From Verif Require Import Py PyFacts Text Sort Rebulk.
From Coq Require Import Arith Lia Permutation Sorted ZifyBool.

Lemma mval_eqb_eq a b : mval_eqb a b = true <-> a = b.
Proof. unfold mval_eqb; destruct (mval_eq_dec a b); split; congruence. Qed.
Lemma mt_eqb_eq a b : mt_eqb a b = true <-> mkey a = mkey b.
Proof. unfold mt_eqb; destruct (mkey_eq_dec (mkey a) (mkey b)); split; congruence. Qed.
Lemma mt_eqb_refl a : mt_eqb a a = true.
Proof. apply mt_eqb_eq; reflexivity. Qed.
Lemma mmem_iff m ms : mmem m ms = true <-> exists x, In x ms /\ mkey x = mkey m.
Proof.
  unfold mmem; rewrite existsb_exists; split; intros (x & H & E); exists x; (split; [exact H|]).
  - apply mt_eqb_eq in E; congruence.
  - apply mt_eqb_eq; congruence.
Qed.
Lemma mmem_false m ms : mmem m ms = false <-> forall x, In x ms -> mkey x <> mkey m.
Proof.
  rewrite <- Bool.not_true_iff_false, mmem_iff; split.
  - intros H x Hx E; apply H; exists x; auto.
  - intros H (x & Hx & E); exact (H x Hx E).
Qed.
Lemma mmem_In m ms : In m ms -> mmem m ms = true.
Proof. intros H; apply mmem_iff; exists m; auto. Qed.
Lemma has_name_iff n m : has_name n m = true <-> m_name m = n.
Proof. unfold has_name; apply str_eqb_eq. Qed.
Lemma has_tag_iff t m : has_tag t m = true <-> In t (m_tags m).
Proof. unfold has_tag; apply smem_In. Qed.
Lemma named_In n ms m : In m (named n ms) <-> In m ms /\ m_name m = n.
Proof. unfold named; rewrite filter_In, has_name_iff; reflexivity. Qed.

(** no two equal matches *)
Definition distinct (ms : list mt) : Prop := NoDup (map mkey ms).

Lemma distinct_inj ms a b : distinct ms -> In a ms -> In b ms -> mkey a = mkey b -> a = b.
Proof.
  unfold distinct. induction ms as [|x r IH]; cbn [map In]; [tauto|]. intros H Ha Hb E.
  inversion H as [|? ? Hx Hr]; subst.
  destruct Ha as [->|Ha], Hb as [->|Hb].
  - reflexivity.
  - exfalso; apply Hx; rewrite E; apply in_map; exact Hb.
  - exfalso; apply Hx; rewrite <- E; apply in_map; exact Ha.
  - apply IH; auto.
Qed.
Lemma distinct_filter p ms : distinct ms -> distinct (filter p ms).
Proof.
  unfold distinct. induction ms as [|x r IH]; cbn [map filter]; [auto|]. intros H.
  inversion H as [|? ? Hx Hr]; subst. destruct (p x); [|apply IH; exact Hr].
  cbn [map]; constructor; [|apply IH; exact Hr].
  intros Hin; apply Hx. apply in_map_iff in Hin as (y & <- & Hy). apply filter_In in Hy as [Hy _]. apply in_map; exact Hy.
Qed.

Lemma filter_id {A} (p : A -> bool) l : (forall x, In x l -> p x = true) -> filter p l = l.
Proof.
  induction l as [|x r IH]; cbn [filter]; intros H; [reflexivity|].
  rewrite (H x (or_introl eq_refl)). f_equal. apply IH; intros y Hy; apply H; right; exact Hy.
Qed.
Lemma filter_nil {A} (p : A -> bool) l : filter p l = [] <-> forall x, In x l -> p x = false.
Proof.
  split.
  - intros H x Hx. destruct (p x) eqn:E; [|reflexivity].
    assert (In x (filter p l)) by (apply filter_In; auto). rewrite H in *; contradiction.
  - intros H. induction l as [|x r IH]; cbn [filter]; [reflexivity|].
    rewrite (H x (or_introl eq_refl)). apply IH; intros y Hy; apply H; right; exact Hy.
Qed.
Lemma filter_filter {A} (p q : A -> bool) l : filter p (filter q l) = filter (fun x => q x && p x) l.
Proof. induction l as [|x r IH]; cbn [filter]; [reflexivity|]. destruct (q x); cbn [filter andb]; rewrite IH; reflexivity. Qed.
Lemma filter_ext_In {A} (p q : A -> bool) l : (forall x, In x l -> p x = q x) -> filter p l = filter q l.
Proof.
  induction l as [|x r IH]; cbn [filter]; intros H; [reflexivity|].
  rewrite (H x (or_introl eq_refl)), IH; [reflexivity|]. intros y Hy; apply H; right; exact Hy.
Qed.

(** how many matches equal to [x] there are *)
Definition copies (x : mt) (ms : list mt) : nat := List.length (filter (mt_eqb x) ms).
Lemma copies_remove1 x m ms : copies x (remove1 m ms) = copies x ms - (if mt_eqb x m then 1 else 0).
Proof.
  induction ms as [|y r IH]; cbn [remove1]; [destruct (mt_eqb x m); reflexivity|].
  destruct (mt_eqb m y) eqn:E.
  - unfold copies; cbn [filter]. assert (mt_eqb x m = mt_eqb x y) as ->.
    { apply mt_eqb_eq in E. unfold mt_eqb; rewrite E; reflexivity. }
    destruct (mt_eqb x y); cbn [List.length]; lia.
  - unfold copies in *; cbn [filter]. destruct (mt_eqb x y) eqn:E2; cbn [List.length]; [|exact IH].
    rewrite IH. destruct (mt_eqb x m) eqn:E3; [|lia].
    apply mt_eqb_eq in E2, E3. assert (mt_eqb m y = true) by (apply mt_eqb_eq; congruence). congruence.
Qed.
Lemma copies_remove_all x l : forall ms, copies x (remove_all l ms) = copies x ms - copies x l.
Proof.
  unfold remove_all. induction l as [|m l IH]; intros ms; cbn [fold_left]; [unfold copies; cbn; lia|].
  rewrite IH, copies_remove1. unfold copies; cbn [filter]. destruct (mt_eqb x m); cbn [List.length]; lia.
Qed.

Lemma remove1_filter m ms : distinct ms -> remove1 m ms = filter (fun x => negb (mt_eqb m x)) ms.
Proof.
  unfold distinct. induction ms as [|x r IH]; cbn [map remove1 filter]; [reflexivity|]. intros H.
  inversion H as [|? ? Hx Hr]; subst. destruct (mt_eqb m x) eqn:E; cbn [negb].
  - symmetry. apply filter_id. intros y Hy. apply Bool.negb_true_iff. destruct (mt_eqb m y) eqn:E2; [|reflexivity].
    exfalso; apply Hx. apply mt_eqb_eq in E, E2. rewrite <- E, E2. apply in_map; exact Hy.
  - f_equal; apply IH; exact Hr.
Qed.

(** RemoveMatch leaves the matches that were not selected *)
Lemma remove_all_filter l : forall ms, distinct ms -> remove_all l ms = filter (fun x => negb (mmem x l)) ms.
Proof.
  unfold remove_all. induction l as [|m l IH]; intros ms H; cbn [fold_left].
  - symmetry; apply filter_id; reflexivity.
  - rewrite IH; rewrite remove1_filter by exact H; [|apply distinct_filter; exact H].
    rewrite filter_filter. apply filter_ext_In. intros x _. unfold mmem; cbn [existsb].
    assert (mt_eqb m x = mt_eqb x m) as ->.
    { unfold mt_eqb. destruct (mkey_eq_dec (mkey m) (mkey x)), (mkey_eq_dec (mkey x) (mkey m)); congruence. }
    destruct (mt_eqb x m); reflexivity.
Qed.
Lemma remove_all_In l ms x : distinct ms -> (forall m, In m l -> In m ms) ->
  (In x (remove_all l ms) <-> In x ms /\ ~ In x l).
Proof.
  intros H Hl. rewrite remove_all_filter by exact H. rewrite filter_In, Bool.negb_true_iff, mmem_false.
  split; intros [Hx Hn]; (split; [exact Hx|]).
  - intros Hin; exact (Hn x Hin eq_refl).
  - intros y Hy E. apply Hn. assert (x = y) as ->; [|exact Hy].
    eapply distinct_inj; [exact H|exact Hx|apply Hl; exact Hy|congruence].
Qed.
Lemma remove_all_nil ms : remove_all [] ms = ms.
Proof. reflexivity. Qed.

(** AppendMatch *)
Lemma append_all_app l : forall ms, exists new, append_all l ms = ms ++ new /\ (forall x, In x new -> In x l).
Proof.
  unfold append_all. induction l as [|m l IH]; intros ms; cbn [fold_left].
  - exists []; rewrite app_nil_r; split; [reflexivity|intros x []].
  - destruct (mmem m ms).
    + destruct (IH ms) as (new & E & H). exists new; split; [exact E|]. intros x Hx; right; apply H; exact Hx.
    + destruct (IH (ms ++ [m])) as (new & E & H). exists (m :: new). rewrite E, <- app_assoc; split; [reflexivity|].
      intros x [->|Hx]; [left; reflexivity|right; apply H; exact Hx].
Qed.
Lemma append_all_keys l : forall ms k,
  (exists x, In x (append_all l ms) /\ mkey x = k) <-> (exists x, (In x ms \/ In x l) /\ mkey x = k).
Proof.
  unfold append_all. induction l as [|m l IH]; intros ms k; cbn [fold_left].
  - split; intros (x & H & E); exists x; (split; [|exact E]); [left; exact H|destruct H as [H|[]]; exact H].
  - rewrite IH. destruct (mmem m ms) eqn:Em.
    + split; intros (x & H & E).
      * exists x; split; [|exact E]. destruct H as [H|H]; [left; exact H|right; right; exact H].
      * destruct H as [H|[->|H]].
        -- exists x; auto.
        -- apply mmem_iff in Em as (y & Hy & E2). exists y; split; [left; exact Hy|congruence].
        -- exists x; auto.
    + split; intros (x & H & E); exists x; (split; [|exact E]).
      * destruct H as [H|H]; [|right; right; exact H]. apply in_app_iff in H as [H|[->|[]]]; [left; exact H|right; left; reflexivity].
      * destruct H as [H|[->|H]]; [left|left|right; exact H]; apply in_app_iff; [left; exact H|right; left; reflexivity].
Qed.
Lemma append_all_fresh l : forall ms, distinct (ms ++ l) -> append_all l ms = ms ++ l.
Proof.
  unfold append_all. induction l as [|m l IH]; intros ms H; cbn [fold_left]; [rewrite app_nil_r; reflexivity|].
  assert (mmem m ms = false) as ->.
  { apply mmem_false. intros x Hx E. unfold distinct in H. rewrite map_app in H; cbn [map] in H.
    apply NoDup_remove_2 in H. apply H. apply in_app_iff; left. rewrite <- E; apply in_map; exact Hx. }
  rewrite IH; [rewrite <- app_assoc; reflexivity|]. rewrite <- app_assoc; exact H.
Qed.

(** sorted queries *)
Lemma mt_le_total x y : mt_le x y = false -> mt_le y x = true.
Proof. unfold mt_le; lia. Qed.
Lemma mt_le_trans x y z : mt_le x y = true -> mt_le y z = true -> mt_le x z = true.
Proof. unfold mt_le; lia. Qed.
Lemma msorted_perm ms : Permutation (msorted ms) ms.
Proof. apply isort_perm. Qed.
Lemma msorted_sorted ms : StronglySorted (fun a b => mt_le a b = true) (msorted ms).
Proof. apply isort_sorted; [apply mt_le_total|apply mt_le_trans]. Qed.
Lemma msorted_In x ms : In x (msorted ms) <-> In x ms.
Proof. split; apply Permutation_in; [|symmetry]; apply msorted_perm. Qed.
Lemma distinct_msorted ms : distinct ms -> distinct (msorted ms).
Proof. unfold distinct. apply Permutation_NoDup. apply Permutation_map. symmetry; apply msorted_perm. Qed.
Lemma distinct_NoDup ms : distinct ms -> NoDup ms.
Proof. apply NoDup_map_inv. Qed.

Lemma max_fold ms : forall n, fold_left (fun n m => Nat.max n (m_end m)) ms n = Nat.max n (ends ms).
Proof.
  unfold ends. assert (G : forall ms n, fold_left (fun n m => Nat.max n (m_end m)) ms n = Nat.max n (fold_left (fun n m => Nat.max n (m_end m)) ms 0)).
  { clear. induction ms as [|m r IH]; intros n; cbn [fold_left]; [lia|]. rewrite IH, (IH (Nat.max 0 (m_end m))). lia. }
  intros n; apply G.
Qed.
Lemma max_end_eq s ms : max_end s ms = Nat.max (List.length s) (ends ms).
Proof. apply max_fold. Qed.
Lemma ends_ge m ms : In m ms -> m_end m <= ends ms.
Proof.
  unfold ends. induction ms as [|x r IH]; cbn [fold_left In]; [tauto|]. rewrite max_fold.
  intros [->|H]; [lia|]. apply IH in H. unfold ends; lia.
Qed.
Lemma ends_le n ms : (forall m, In m ms -> m_end m <= n) -> ends ms <= n.
Proof.
  unfold ends. induction ms as [|x r IH]; cbn [fold_left In]; intros H; [lia|]. rewrite max_fold.
  pose proof (H x (or_introl eq_refl)). unfold ends. enough (fold_left (fun n m => Nat.max n (m_end m)) r 0 <= n) by lia.
  apply IH; auto.
Qed.
(** the matches lie in the input *)
Definition inside (s : str) (ms : list mt) : Prop := forall m, In m ms -> m_start m <= m_end m /\ m_end m <= List.length s.
Lemma max_end_inside s ms : inside s ms -> max_end s ms = List.length s.
Proof. intros H. rewrite max_end_eq. assert (ends ms <= List.length s) by (apply ends_le; intros m Hm; apply H; exact Hm). lia. Qed.

Lemma range_In s ms a b p x :
  In x (range s ms a b p) <-> In x ms /\ m_start x < Nat.min (max_end s ms) b /\ a < m_end x /\ p x = true.
Proof.
  unfold range. rewrite !filter_In, msorted_In. unfold overlaps. rewrite Bool.andb_true_iff, !Nat.ltb_lt. tauto.
Qed.
Lemma range_In' s ms a b p x : inside s ms -> b <= List.length s ->
  In x (range s ms a b p) <-> In x ms /\ m_start x < b /\ a < m_end x /\ p x = true.
Proof. intros H Hb. rewrite range_In, max_end_inside by exact H. rewrite Nat.min_r by exact Hb. reflexivity. Qed.

(** [previous]: the matches whose end is the greatest one not after the start *)
Lemma ending_down_In ms x : forall i,
  In x (ending_down i ms) <-> In x ms /\ m_end x <= i /\ forall y, In y ms -> m_end y <= i -> m_end y <= m_end x.
Proof.
  induction i as [|i IH].
  - cbn [ending_down]. assert (E : match ending 0 ms with [] => [] | m :: l => m :: l end = ending 0 ms) by (destruct (ending 0 ms); reflexivity).
    rewrite E; unfold ending. rewrite filter_In, Nat.eqb_eq. split; [intros [H H0]; repeat split; auto; lia|].
    intros (H & H0 & _); split; [exact H|lia].
  - cbn [ending_down]. destruct (ending (S i) ms) as [|m l] eqn:E.
    + rewrite IH. unfold ending in E. rewrite filter_nil in E.
      assert (G : forall y, In y ms -> m_end y <> S i) by (intros y Hy Ey; specialize (E y Hy); rewrite Ey, Nat.eqb_refl in E; discriminate).
      split; intros (H & H0 & H1); (split; [exact H|]); (split; [specialize (G x H); lia|]); intros y Hy Hle; apply H1; auto.
      specialize (G y Hy); lia.
    + rewrite <- E. unfold ending in *. rewrite filter_In, Nat.eqb_eq. split.
      * intros [H H0]; repeat split; auto; lia.
      * intros (H & H0 & H1); split; [exact H|].
        assert (Hm : In m (filter (fun m => m_end m =? S i) ms)) by (rewrite E; left; reflexivity).
        apply filter_In in Hm as [Hm Em]. apply Nat.eqb_eq in Em. specialize (H1 m Hm). lia.
Qed.
Lemma starting_up_In ms x : forall n i,
  In x (starting_up n i ms) <-> In x ms /\ i <= m_start x < i + n /\ forall y, In y ms -> i <= m_start y -> m_start x <= m_start y.
Proof.
  induction n as [|n IH]; intros i; cbn [starting_up].
  - split; [intros []|]. intros (_ & H & _); lia.
  - destruct (starting i ms) as [|m l] eqn:E.
    + rewrite IH. unfold starting in E. rewrite filter_nil in E.
      assert (G : forall y, In y ms -> m_start y <> i) by (intros y Hy Ey; specialize (E y Hy); rewrite Ey, Nat.eqb_refl in E; discriminate).
      split; intros (H & H0 & H1); (split; [exact H|]); (split; [specialize (G x H); lia|]); intros y Hy Hle; apply H1; auto; [specialize (G y Hy); lia|lia].
    + rewrite <- E. unfold starting in *. rewrite filter_In, Nat.eqb_eq. split.
      * intros [H H0]; repeat split; auto; lia.
      * intros (H & H0 & H1); split; [exact H|].
        assert (Hm : In m (filter (fun m => m_start m =? i) ms)) by (rewrite E; left; reflexivity).
        apply filter_In in Hm as [Hm Em]. apply Nat.eqb_eq in Em. specialize (H1 m Hm). lia.
Qed.
Lemma previous_In m ms p x :
  In x (previous m ms p) <-> p x = true /\ In x ms /\ m_end x <= m_start m /\ forall y, In y ms -> m_end y <= m_start m -> m_end y <= m_end x.
Proof. unfold previous. rewrite filter_In, ending_down_In. tauto. Qed.
Lemma next_In m ms p x : (forall y, In y ms -> m_start y <= m_end y) ->
  In x (next m ms p) <-> p x = true /\ In x ms /\ m_start m < m_start x /\ forall y, In y ms -> m_start m < m_start y -> m_start x <= m_start y.
Proof.
  intros W. unfold next. rewrite filter_In, starting_up_In.
  split.
  - intros ((H & H0 & H1) & H2). repeat split; auto; [lia|]. intros y Hy Hlt; apply H1; [exact Hy|lia].
  - intros (H2 & H & H0 & H1). pose proof (ends_ge x ms H). pose proof (W x H). repeat split; auto; try lia.
    intros y Hy Hle; apply H1; [exact Hy|lia].
Qed.
Lemma hd_error_In {A} (l : list A) x : hd_error l = Some x -> In x l.
Proof. destruct l; cbn; [discriminate|]. intros E; injection E as ->; left; reflexivity. Qed.

(** [holes] without separators: a position is in a hole iff no match covers it *)
Definition covered (ms : list mt) (i : nat) : Prop := exists m, In m ms /\ m_start m <= i < m_end m.
Definition nonempty (ms : list mt) : Prop := forall m, In m ms -> m_start m < m_end m.

Lemma free_iff ms i : forallb never (at_index i ms) = true <-> ~ covered ms i.
Proof.
  rewrite forallb_forall. unfold at_index. split.
  - intros H (m & Hm & Hi). enough (never m = true) by discriminate. apply H. apply filter_In; split; [exact Hm|]. unfold covers; lia.
  - intros H m Hm. apply filter_In in Hm as [Hm Hc]. exfalso; apply H; exists m; split; [exact Hm|]. unfold covers in Hc; lia.
Qed.
Lemma find_none {A} (f : A -> bool) l : find f l = None <-> forall x, In x l -> f x = false.
Proof.
  split; [apply find_none|]. induction l as [|y r IH]; intros H; cbn [find]; [reflexivity|].
  rewrite (H y (or_introl eq_refl)). apply IH; intros x Hx; apply H; right; exact Hx.
Qed.
Lemma starting_any ms i : existsb (fun m => negb (never m)) (starting i ms) = true <-> exists m, In m ms /\ m_start m = i.
Proof.
  rewrite existsb_exists. unfold starting. split; intros (m & H & E); exists m.
  - apply filter_In in H as [H H0]. apply Nat.eqb_eq in H0; auto.
  - split; [apply filter_In; split; [exact H|apply Nat.eqb_eq; exact E]|reflexivity].
Qed.
Lemma hole_start_spec a ms : hole_start a ms never <= a /\
  (hole_start a ms never < a -> forall m, In m ms -> m_start m < a -> m_start m <= hole_start a ms never) .
Proof.
  unfold hole_start. destruct (find _ _) as [i|] eqn:E.
  - assert (Hs := find_some _ _ E). destruct Hs as [Hin Hi]. apply in_rev in Hin.
    apply in_seq in Hin. split; [lia|]. intros _ m Hm Hlt.
    destruct (Nat.le_gt_cases (m_start m) i) as [|Hgt]; [assumption|exfalso].
    (* the first in reverse order *)
    assert (G : forall n, find (fun i => existsb (fun m => negb (never m)) (starting i ms)) (rev (seq 0 n)) = Some i ->
                forall j, i < j < n -> existsb (fun m => negb (never m)) (starting j ms) = false).
    { clear. induction n as [|n IH]; intros E j Hj; [lia|].
      rewrite seq_S, rev_app_distr in E; cbn [rev app find Nat.add] in E.
      destruct (existsb _ (starting n ms)) eqn:En.
      - injection E as <-; lia.
      - destruct (Nat.eq_dec j n) as [->|]; [exact En|]. apply (IH E); lia. }
    specialize (G a E (m_start m) ltac:(lia)).
    assert (existsb (fun m => negb (never m)) (starting (m_start m) ms) = true) by (apply starting_any; exists m; auto).
    congruence.
  - split; [lia|]. intros _ m Hm Hlt. exfalso. rewrite find_none in E.
    assert (existsb (fun m => negb (never m)) (starting (m_start m) ms) = true) by (apply starting_any; exists m; auto).
    rewrite E in H; [discriminate|]. apply -> in_rev. apply in_seq; lia.
Qed.

Lemma covered_dec ms i : {covered ms i} + {~ covered ms i}.
Proof.
  destruct (forallb never (at_index i ms)) eqn:E; [right; apply free_iff; exact E|left].
  destruct (existsb (covers i) ms) eqn:E2.
  - apply existsb_exists in E2. assert (exists m, In m ms /\ m_start m <= i < m_end m) by (destruct E2 as (m & H & H0); exists m; split; [exact H|unfold covers in H0; lia]). exact H.
  - exfalso. rewrite (proj2 (free_iff ms i)) in E; [discriminate|]. intros (m & Hm & Hi).
    assert (existsb (covers i) ms = true) by (apply existsb_exists; exists m; split; [exact Hm|unfold covers; lia]). congruence.
Defined.

(** invariant of the loop after the positions below [i] *)
Record hinv (ms : list mt) (a l i : nat) (st : hstate) : Prop := {
  hi_done : forall j, j < i -> (exists h, In h (h_done st) /\ fst h <= j < snd h) \/ (exists x, h_open st = Some x /\ x <= j) <-> a <= j < i /\ ~ covered ms j /\ l <= j;
  hi_bound : forall h, In h (h_done st) -> a <= fst h /\ snd h <= i;
  hi_open : forall x, h_open st = Some x -> a <= x <= Nat.max (i - 1) a /\ l < i /\ forall j, x <= j < i -> ~ covered ms j;
  hi_shut : h_open st = None -> l < i -> covered ms (i - 1)
}.
Lemma hinv_step s ms a l i st : l <= i -> hinv ms a l i st -> hinv ms a l (S i) (hole_step s ms never None a st i).
Proof.
  intros Hl [D B O C]. unfold hole_step. destruct (forallb never (at_index i ms)) eqn:F.
  - apply free_iff in F. destruct (h_open st) as [x|] eqn:E.
    + destruct (O x eq_refl) as (Ox & Ol & Oc). split; rewrite ?E.
      * intros j Hj. destruct (Nat.eq_dec j i) as [->|].
        -- split; [|].
           ++ intros [(h & Hh & Hb)|(y & Ey & Hy)].
              ** specialize (B h Hh). lia.
              ** injection Ey as <-. repeat split; auto; lia.
           ++ intros (H & H0 & H1). right. exists x; split; [reflexivity|]. lia.
        -- rewrite D by lia. split; intros (H & H0 & H1); repeat split; auto; lia.
      * intros h Hh; specialize (B h Hh); lia.
      * intros y Ey. injection Ey as <-. repeat split; try lia. intros j Hj. destruct (Nat.eq_dec j i) as [->|]; [exact F|apply Oc; lia].
      * congruence.
    + split; cbn [h_open h_done].
      * intros j Hj. destruct (Nat.eq_dec j i) as [->|].
        -- split.
           ++ intros [(h & Hh & Hb)|(y & Ey & Hy)]; [specialize (B h Hh); lia|]. injection Ey as <-. repeat split; auto; lia.
           ++ intros (H & H0 & H1). right. exists (Nat.max i a); split; [reflexivity|lia].
        -- split.
           ++ intros [H|(y & Ey & Hy)].
              ** assert (G : j < i) by lia. destruct (proj1 (D j G) (or_introl H)) as (? & ? & ?); repeat split; auto; lia.
              ** injection Ey as <-. lia.
           ++ intros (H & H0 & H1). assert (G : j < i) by lia. left. destruct (proj2 (D j G)) as [H2|(y & Ey & _)]; [repeat split; auto; lia|exact H2|congruence].
      * intros h Hh; specialize (B h Hh); lia.
      * intros y Ey; injection Ey as <-. repeat split; try lia. intros j Hj. assert (j = i) by lia. subst; exact F.
      * discriminate.
  - assert (F' : covered ms i) by (destruct (covered_dec ms i) as [H|H]; [exact H|]; apply free_iff in H; congruence).
    clear F. destruct (h_open st) as [x|] eqn:E.
    + destruct (O x eq_refl) as (Ox & Ol & Oc). split; cbn [h_open h_done].
      * intros j Hj. destruct (Nat.eq_dec j i) as [->|].
        -- split; [|intros (_ & H & _); contradiction].
           intros [(h & [<-|Hh] & Hb)|(y & Ey & Hy)]; [cbn [fst snd] in Hb; lia|specialize (B h Hh); lia|discriminate].
        -- assert (G : j < i) by lia. specialize (D j G). split.
           ++ intros [(h & [<-|Hh] & Hb)|(y & Ey & Hy)]; [| |discriminate].
              ** destruct D as [D _]. destruct D as (? & ? & ?); [right; exists x; cbn [fst snd] in Hb; split; [reflexivity|lia]|]. repeat split; auto; lia.
              ** destruct D as [D _]. destruct D as (? & ? & ?); [left; exists h; auto|]. repeat split; auto; lia.
           ++ intros (H & H0 & H1). destruct D as [_ D]. destruct D as [(h & Hh & Hb)|(y & Ey & Hy)]; [repeat split; auto; lia| |].
              ** left; exists h; split; [right; exact Hh|exact Hb].
              ** injection Ey as <-. left; exists (x, i); split; [left; reflexivity|cbn; lia].
      * intros h [<-|Hh]; [cbn; lia|specialize (B h Hh); lia].
      * discriminate.
      * intros _ _. replace (S i - 1) with i by lia. exact F'.
    + split; rewrite ?E.
      * intros j Hj. destruct (Nat.eq_dec j i) as [->|].
        -- split; [|intros (_ & H & _); contradiction].
           intros [(h & Hh & Hb)|(y & Ey & Hy)]; [specialize (B h Hh); lia|discriminate].
        -- assert (G : j < i) by lia. rewrite (D j G). split; intros (H & H0 & H1); repeat split; auto; lia.
      * intros h Hh; specialize (B h Hh); lia.
      * discriminate.
      * intros _ _. replace (S i - 1) with i by lia. exact F'.
Qed.
Lemma hinv_fold s ms a l : forall n i st, l <= i -> hinv ms a l i st ->
  hinv ms a l (i + n) (fold_left (hole_step s ms never None a) (seq i n) st).
Proof.
  induction n as [|n IH]; intros i st Hl H; cbn [seq fold_left]; [rewrite Nat.add_0_r; exact H|].
  rewrite <- Nat.add_succ_comm. apply IH; [lia|]. apply hinv_step; assumption.
Qed.

(** Which positions are in a hole *)
Lemma holes_cover s ms a b : nonempty ms -> forall j,
  (exists h, In h (holes s ms a b never None) /\ fst h <= j < snd h) <->
  (a <= j < Nat.min (max_end s ms) b /\ ~ covered ms j).
Proof.
  intros NE j. unfold holes. set (e := Nat.min (max_end s ms) b). set (l := hole_start a ms never).
  pose proof (hole_start_spec a ms) as [Hla _]. fold l in Hla.
  assert (I : hinv ms a l (l + (e - l)) (fold_left (hole_step s ms never None a) (seq l (e - l)) (mk_h None []))).
  { apply hinv_fold; [lia|]. split; cbn [h_open h_done].
    - intros k Hk; split; [intros [(h & [] & _)|(x & E & _)]; discriminate|]. lia.
    - intros h [].
    - discriminate.
    - lia. }
  destruct (Nat.le_gt_cases e l) as [Hle|Hlt].
  { replace (e - l) with 0 in * by lia. cbn [seq fold_left h_open h_done rev]. split; [intros (h & [] & _)|]. lia. }
  replace (l + (e - l)) with e in I by lia. destruct I as [D B O C].
  set (st := fold_left _ _ _) in *. destruct (h_open st) as [x|] eqn:E.
  - destruct (O x eq_refl) as (Ox & Ol & Oc).
    assert (HE : Nat.min (hole_end (e - 1) (max_end s ms) ms never) e = e \/ (e <= a /\ Nat.min (hole_end (e - 1) (max_end s ms) ms never) e <= e)).
    { destruct (Nat.le_gt_cases e a); [right; split; [assumption|lia]|left].
      unfold hole_end. destruct (find _ _) as [i|] eqn:Ef; [|lia].
      apply find_some in Ef as [Hi Hm]. apply in_seq in Hi. apply starting_any in Hm as (m & Hm & Em).
      assert (e - 1 <> i); [|lia]. intros <-.
      assert (Hc : covered ms (e - 1)) by (exists m; split; [exact Hm|]; specialize (NE m Hm); lia).
      exact (Oc (e - 1) ltac:(lia) Hc). }
    split.
    + intros (h & Hh & Hb). apply in_rev in Hh. destruct Hh as [<-|Hh].
      * cbn [fst snd] in Hb. assert (G : j < e) by lia. destruct (proj1 (D j G)) as (? & ? & ?); [right; exists x; split; [reflexivity|lia]|]. auto.
      * pose proof (B h Hh). assert (G : j < e) by lia. destruct (proj1 (D j G)) as (? & ? & ?); [left; exists h; auto|]. auto.
    + intros (H & H0). assert (G : j < e) by lia. destruct (proj2 (D j G)) as [(h & Hh & Hb)|(y & Ey & Hy)]; [repeat split; auto; lia| |].
      * exists h; split; [apply -> in_rev; right; exact Hh|exact Hb].
      * injection Ey as <-. exists (x, Nat.min (hole_end (e - 1) (max_end s ms) ms never) e).
        split; [apply -> in_rev; left; reflexivity|]. cbn [fst snd]. destruct HE as [->|[HE _]]; lia.
  - split.
    + intros (h & Hh & Hb). apply in_rev in Hh.
      pose proof (B h Hh). assert (G : j < e) by lia. destruct (proj1 (D j G)) as (? & ? & ?); [left; exists h; auto|]. auto.
    + intros (H & H0). assert (G : j < e) by lia. destruct (proj2 (D j G)) as [(h & Hh & Hb)|(y & Ey & Hy)]; [repeat split; auto; lia| |].
      * exists h; split; [apply -> in_rev; exact Hh|exact Hb].
      * discriminate.
Qed.
Lemma nth_firstn {A} : forall n (l : list A) i, nth_error (firstn n l) i = if i <? n then nth_error l i else None.
Proof.
  induction n as [|n IH]; intros [|x l] [|i]; cbn [firstn nth_error]; try reflexivity.
  - destruct (S i <? S n); reflexivity.
  - rewrite IH. reflexivity.
Qed.
Lemma nth_skipn {A} : forall n (l : list A) i, nth_error (skipn n l) i = nth_error l (n + i).
Proof. induction n as [|n IH]; intros [|x l] i; cbn [skipn nth_error Nat.add]; try reflexivity; [destruct i; reflexivity|apply IH]. Qed.
Lemma slice_nth {A} (a b : nat) (l : list A) i : nth_error (slice a b l) i = if i <? b - a then nth_error l (a + i) else None.
Proof. unfold slice. rewrite nth_firstn, nth_skipn. reflexivity. Qed.
Lemma forallb_nth {A} (p : A -> bool) l : forallb p l = true <-> forall i x, nth_error l i = Some x -> p x = true.
Proof.
  rewrite forallb_forall; split; intros H.
  - intros i x E; apply H; eapply nth_error_In; exact E.
  - intros x Hx; apply In_nth_error in Hx as [i E]; eapply H; exact E.
Qed.
(** There is some text between two positions: a character that is not a separator and that no match covers *)
Lemma text_between_iff s ms a b : nonempty ms -> inside s ms -> b <= List.length s ->
  text_between s ms a b = true <->
  exists j c, a <= j < b /\ nth_error s j = Some c /\ is_sep c = false /\ ~ covered ms j.
Proof.
  intros NE IN Hb. unfold text_between. rewrite existsb_exists. split.
  - intros (h & Hh & Hn). apply Bool.negb_true_iff in Hn.
    destruct (forallb is_sep (slice (fst h) (snd h) s)) eqn:E; [discriminate|]. clear Hn.
    assert (G : exists j c, nth_error (slice (fst h) (snd h) s) j = Some c /\ is_sep c = false).
    { revert E. generalize (slice (fst h) (snd h) s). induction l as [|c r IH]; cbn [forallb]; [discriminate|].
      destruct (is_sep c) eqn:Ec; [|intros _; exists 0, c; auto]. intros H; destruct (IH H) as (j & d & ? & ?); exists (S j), d; auto. }
    destruct G as (j & c & Ej & Ec). rewrite slice_nth in Ej. destruct (j <? snd h - fst h) eqn:Ej2; [|discriminate].
    apply Nat.ltb_lt in Ej2. exists (fst h + j), c.
    assert (G : exists h, In h (holes s ms a b never None) /\ fst h <= fst h + j < snd h) by (exists h; split; [exact Hh|lia]).
    assert (G' : exists h', In h' (holes s ms a b never None) /\ fst h' <= fst h + j < snd h') by (exists h; split; [exact Hh|lia]).
    apply holes_cover in G'; [|exact NE]. rewrite max_end_inside in G' by exact IN. destruct G' as [G1 G2]. repeat split; auto; lia.
  - intros (j & c & Hj & Ej & Ec & Hc).
    assert (G : exists h, In h (holes s ms a b never None) /\ fst h <= j < snd h).
    { apply holes_cover; [exact NE|]. rewrite max_end_inside by exact IN. split; [lia|exact Hc]. }
    destruct G as (h & Hh & Hb2). exists h; split; [exact Hh|]. apply Bool.negb_true_iff, Bool.not_true_iff_false.
    rewrite forallb_nth. intros H. specialize (H (j - fst h) c). rewrite slice_nth in H.
    destruct (j - fst h <? snd h - fst h) eqn:El; [|lia]. replace (fst h + (j - fst h)) with j in H by lia. rewrite (H Ej) in Ec; discriminate.
Qed.

(** ** renaming *)
Lemma removed_all l : forall ms, distinct ms -> distinct l -> (forall m, In m l -> In m ms) -> removed l ms = l.
Proof.
  induction l as [|m l IH]; intros ms Hd Hl Hin; cbn [removed]; [reflexivity|].
  rewrite mmem_In by (apply Hin; left; reflexivity). inversion Hl as [|? ? Hx Hl']; subst. f_equal. rewrite remove1_filter by exact Hd.
  apply IH; [apply distinct_filter; exact Hd|exact Hl'|]. intros x H. apply filter_In. split; [apply Hin; right; exact H|].
  destruct (mt_eqb m x) eqn:E; [|reflexivity]. exfalso; apply Hx. apply mt_eqb_eq in E. rewrite E. apply in_map; exact H.
Qed.
Lemma rename_all_eq n l ms : distinct ms -> distinct l -> (forall m, In m l -> In m ms) -> (forall m, In m l -> m_name m <> n) ->
  rename_all n l ms = filter (fun x => negb (mmem x l)) ms ++ map (fun m => set_name m n) l.
Proof.
  intros Hd Hl Hin Hn. unfold rename_all. rewrite removed_all, remove_all_filter by assumption.
  assert (G : forall l1 l2, distinct (l1 ++ l2) -> (forall m, In m (l1 ++ l2) -> m_name m <> n) -> forall base, (forall m x, In m l2 -> In x base -> mkey x <> mkey m) ->
     fold_left (fun ms m => if mmem m ms then ms else ms ++ [set_name m n]) l2 (base ++ map (fun m => set_name m n) l1) =
     base ++ map (fun m => set_name m n) (l1 ++ l2)).
  { clear. intros l1 l2; revert l1. induction l2 as [|m l2 IH]; intros l1 Hd Hn base Hb; cbn [fold_left]; [rewrite app_nil_r; reflexivity|].
    assert (E : mmem m (base ++ map (fun m => set_name m n) l1) = false).
    { apply mmem_false. intros x Hx. apply in_app_iff in Hx as [Hx|Hx]; [apply Hb; [left; reflexivity|exact Hx]|].
      apply in_map_iff in Hx as (y & <- & Hy). intros E. apply (Hn m); [apply in_app_iff; right; left; reflexivity|].
      unfold mkey in E; cbn in E. congruence. }
    rewrite E. replace (l1 ++ m :: l2) with ((l1 ++ [m]) ++ l2) in * by (rewrite <- app_assoc; reflexivity).
    rewrite <- app_assoc. replace (map (fun m0 => set_name m0 n) l1 ++ [set_name m n]) with (map (fun m => set_name m n) (l1 ++ [m])) by (rewrite map_app; reflexivity).
    apply IH; auto. intros y x Hy; apply Hb; right; exact Hy. }
  specialize (G [] l Hl Hn (filter (fun x => negb (mmem x l)) ms)). cbn [map app] in G. rewrite app_nil_r in G. apply G.
  intros m x Hm Hx E. apply filter_In in Hx as [_ Hx]. rewrite Bool.negb_true_iff in Hx. apply (proj1 (mmem_false x l) Hx m Hm). auto.
Qed.
