(** Theorems about processors.py: C29 (order of the path parts), C30 and C31 (conflicting values),
    C32 (preferred case), C33 (year and season), C51 (trimming of raw bounds), C54 (groups). *)
From Verif Require Import Py PyFacts Text TextFacts Sort Words Date Common Rebulk RebulkFacts Processors ProcessorsSpec ProcessorsProofs.
From Coq Require Import Arith Lia Permutation Sorted ZifyBool.

(** ** C29 *)
(** which matches count for a path part *)
Definition counted (m : mt) : Prop :=
  m_private m = false /\ m_name m <> lit "proper_count" /\ m_name m <> lit "title" /\
  ~ (m_name m = lit "container" /\ In (lit "extension") (m_tags m)) /\
  ~ (m_name m = lit "other" /\ m_value m = MvStr (lit "Rip")).
Theorem C29_counted m : comparator_predicate m = true <-> counted m.
Proof.
  unfold comparator_predicate, counted. rewrite !Bool.andb_true_iff, !Bool.negb_true_iff, !Bool.andb_false_iff.
  rewrite <- !Bool.not_true_iff_false, !has_name_iff, has_tag_iff, mval_eqb_eq, smem_In.
  cbn [In].
  assert (D1 : m_name m = lit "container" \/ m_name m <> lit "container") by (destruct (str_eqb (m_name m) (lit "container")) eqn:E; [left; apply str_eqb_eq; exact E|right; intros H; apply str_eqb_eq in H; congruence]).
  assert (D2 : m_name m = lit "other" \/ m_name m <> lit "other") by (destruct (str_eqb (m_name m) (lit "other")) eqn:E; [left; apply str_eqb_eq; exact E|right; intros H; apply str_eqb_eq in H; congruence]).
  destruct (m_private m); intuition congruence.
Qed.
Print Assumptions C29_counted.

Lemma sorted_unique {A} (R : A -> A -> Prop) (l l' : list A) :
  (forall a b, R a b -> R b a -> False) -> Permutation l l' -> StronglySorted R l -> StronglySorted R l' -> l = l'.
Proof.
  intros Hi P H. revert l' P. induction H as [|x l Hs IH Hx]; intros l' P H'.
  - apply Permutation_nil in P; subst; reflexivity.
  - destruct l' as [|y l']; [apply Permutation_sym, Permutation_nil_cons in P; destruct P|].
    inversion H' as [|? ? Hs' Hy]; subst. rewrite Forall_forall in Hx, Hy.
    assert (x = y).
    { assert (In x (y :: l')) as Hin by (eapply Permutation_in; [exact P|left; reflexivity]). destruct Hin as [E|Hin]; [auto|].
      assert (In y (x :: l)) as Hin' by (eapply Permutation_in; [symmetry; exact P|left; reflexivity]). destruct Hin' as [E|Hin']; [auto|].
      exfalso; apply (Hi x y); auto. }
    subst y. f_equal. apply IH; [|exact Hs']. eapply Permutation_cons_inv; exact P.
Qed.

(** the result of the sort is the only arrangement of the parts in which every part goes before the less good ones *)
Theorem C29_marker_sorted s ms p markers : inside s ms -> inside s markers -> distinct markers ->
  forall l, l = marker_sorted s ms p markers <-> Permutation l markers /\ StronglySorted (better ms p markers) l.
Proof.
  intros Hm Hk Hd l. destruct (marker_sorted_spec s ms p markers Hm Hk Hd) as [P S]. split; [intros ->; auto|].
  intros [P' S']. eapply sorted_unique; [| |exact S'|exact S].
  - intros a b. eapply better_irrefl; eauto.
  - rewrite P', P. reflexivity.
Qed.
Print Assumptions C29_marker_sorted.
(** any two parts are comparable *)
Theorem C29_total s ms p markers a b : inside s ms -> inside s markers -> distinct markers ->
  In a markers -> In b markers -> a <> b ->
  (better ms p markers a b \/ better ms p markers b a) /\ ~ (better ms p markers a b /\ better ms p markers b a).
Proof.
  intros Hm Hk Hd Ha Hb Hne. split.
  - pose proof (marker_weight_spec s ms p a Hm (proj2 (Hk a Ha))) as Wa. pose proof (marker_weight_spec s ms p b Hm (proj2 (Hk b Hb))) as Wb.
    assert (G : forall x y, weight ms p a x -> weight ms p b y -> better ms p markers a b \/ better ms p markers b a).
    { intros x y Hx Hy. destruct (Nat.lt_trichotomy x y) as [H|[H|H]].
      - right. exists y, x. auto.
      - destruct (before_total markers a b Ha Hb Hne) as [B|B]; [right; exists y, x|left; exists x, y]; (split; [assumption|]; split; [assumption|]; right; auto).
      - left. exists x, y. auto. }
    exact (G _ _ Wa Wb).
  - intros [H H']. exact (better_irrefl s ms p markers a b Hm Hk Hd H H').
Qed.
Print Assumptions C29_total.

(** a concrete case: "ab/cd/ef", with a season in the first part and a season and an episode in the second *)
Definition ex_s : str := lit "ab/cd/ef".
Definition path (a b : nat) : mt := simple a b (lit "path") (MvStr (slice a b ex_s)) [].
Definition ex_paths : list mt := [path 0 2; path 3 5; path 6 8].
Definition ex_ms : list mt :=
  [simple 0 1 (lit "season") (MvInt 1) []; simple 3 4 (lit "season") (MvInt 2) [lit "SxxExx"]; simple 4 5 (lit "episode") (MvInt 7) [lit "SxxExx"];
   simple 6 7 (lit "season") (MvInt 3) [lit "SxxExx"]; simple 7 8 (lit "year") (MvInt 1999) []].
Lemma ex_inside : inside ex_s ex_ms /\ inside ex_s ex_paths.
Proof. split; intros m Hm; cbn in Hm; repeat (destruct Hm as [<-|Hm]; [cbn; lia|]); destruct Hm. Qed.
Lemma ex_distinct : distinct ex_ms /\ distinct ex_paths.
Proof. split; unfold distinct; cbn; repeat (constructor; [cbn; intuition discriminate|]); constructor. Qed.
Example C29_example : marker_sorted ex_s ex_ms comparator_predicate ex_paths = [path 6 8; path 3 5; path 0 2].
Proof. reflexivity. Qed.

(** ** C30 *)
Lemma found_mono ms p k m : found ms p k m -> In m ms.
Proof. unfold found; tauto. Qed.
Lemma removal s ms p parts : inside s ms -> inside s parts -> distinct ms ->
  exists keep, remove_all (remove_ambiguous s ms p parts) ms = filter keep ms /\
    forall x, In x ms -> (keep x = false <-> (exists k, In k parts /\ found ms p k x) /\ ~ wins ms p parts (m_name x) (m_value x)).
Proof.
  intros Hm Hk Hd. exists (fun x => negb (mmem x (remove_ambiguous s ms p parts))). split; [apply remove_all_filter; exact Hd|].
  intros x Hx. rewrite Bool.negb_false_iff, <- (remove_ambiguous_spec s ms p parts x Hm Hk). split.
  - intros H. apply mmem_iff in H as (y & Hy & E). assert (y = x); [|subst; exact Hy].
    eapply distinct_inj; [exact Hd| |exact Hx|exact E].
    apply (remove_ambiguous_spec s ms p parts y Hm Hk) in Hy as [(k & _ & F) _]. apply (found_mono _ _ _ _ F).
  - apply mmem_In.
Qed.
Lemma named_sub n ms : forall m, In m (named n ms) -> In m ms.
Proof. intros m H; apply named_In in H; tauto. Qed.
Lemma inside_named s n ms : inside s ms -> inside s (named n ms).
Proof. intros H m Hm; apply H, (named_sub n); exact Hm. Qed.

(** the matches of the result, in their order: all but those that lie in some path part while their value is none of those
    of the best part (in the order of C29) having their property *)
Theorem C30_remove_ambiguous s markers ms : inside s ms -> inside s markers -> distinct ms -> distinct markers ->
  exists parts, Permutation parts (named (lit "path") markers) /\
    StronglySorted (better ms comparator_predicate (named (lit "path") markers)) parts /\
    exists keep, RemoveAmbiguous s markers ms = filter keep ms /\
      forall x, In x ms ->
        (keep x = false <->
         (exists k, In k parts /\ found ms every k x) /\
         ~ exists k, winner ms every parts (m_name x) k /\ part_value ms every k (m_name x) (m_value x)).
Proof.
  intros Hm Hk Hd Hdk. exists (marker_sorted s ms comparator_predicate (named (lit "path") markers)).
  destruct (marker_sorted_spec s ms comparator_predicate (named (lit "path") markers)) as [P S];
    [exact Hm|apply inside_named; exact Hk|apply distinct_filter; exact Hdk|].
  split; [exact P|]. split; [exact S|]. apply removal; auto.
  intros m H. apply (inside_named s (lit "path") markers Hk). eapply Permutation_in; [exact P|exact H].
Qed.
Print Assumptions C30_remove_ambiguous.
(** hence in the result all the values of a property inside path parts are values of one part, the best one having it *)
Theorem C30_agree s markers ms x k : inside s ms -> inside s markers -> distinct ms -> distinct markers ->
  In x (RemoveAmbiguous s markers ms) -> In k (named (lit "path") markers) -> found ms every k x ->
  exists best y, In best (named (lit "path") markers) /\ In y (RemoveAmbiguous s markers ms) /\ found ms every best y /\
    m_name y = m_name x /\ m_value y = m_value x /\
    forall k', In k' (named (lit "path") markers) -> has_prop ms every k' (m_name x) -> k' = best \/ better ms comparator_predicate (named (lit "path") markers) best k'.
Proof.
  intros Hm Hk Hd Hdk Hx Hin Hf. destruct (C30_remove_ambiguous s markers ms Hm Hk Hd Hdk) as (parts & P & S & keep & E & HK).
  rewrite E in Hx. apply filter_In in Hx as [Hx Kx].
  assert (Hk' : In k parts) by (eapply Permutation_in; [symmetry; exact P|exact Hin]).
  assert (W : exists k, winner ms every parts (m_name x) k /\ part_value ms every k (m_name x) (m_value x)).
  { assert (Hend : forall q, In q parts -> m_end q <= List.length s)
      by (intros q Hq; apply (inside_named s (lit "path") markers Hk); eapply Permutation_in; [exact P|exact Hq]).
    destruct (leftmost_exists parts (fun q => has_prop ms every q (m_name x))) as (w & l1 & l2 & Ew & Hw & Hno).
    - intros q Hq. destruct (existsb (has_name (m_name x)) (range s ms (m_start q) (m_end q) every)) eqn:Eq.
      + left. apply existsb_exists in Eq as (y & Hy & En). exists y. split; [apply (range_found s); auto|apply has_name_iff; exact En].
      + right. intros (y & Hy & En). assert (existsb (has_name (m_name x)) (range s ms (m_start q) (m_end q) every) = true); [|congruence].
        apply existsb_exists; exists y; split; [apply (range_found s); auto|apply has_name_iff; exact En].
    - exists k; split; [exact Hk'|exists x; auto].
    - assert (Hwe : m_end w <= List.length s) by (apply Hend; rewrite Ew; apply in_app_iff; right; left; reflexivity).
      destruct (List.in_dec mval_eq_dec (m_value x) (map m_value (filter (has_name (m_name x)) (range s ms (m_start w) (m_end w) every)))) as [Hv|Hv].
      + apply in_map_iff in Hv as (y & Ev & Hy). apply filter_In in Hy as [Hy Hn]. apply has_name_iff in Hn.
        apply (range_found s) in Hy; [|exact Hm|exact Hwe]. exists w; split; [exists l1, l2; auto|exists y; auto].
      + exfalso. assert (keep x = false); [|congruence]. apply HK; [exact Hx|]. split; [exists k; auto|].
        intros (w' & (m1 & m2 & Ew' & Hw' & Hno') & (y & Hy & En & Ev)).
        assert (w' = w) by (eapply (leftmost_unique parts (fun q => has_prop ms every q (m_name x))); [exists m1, m2; auto|exists l1, l2; auto]).
        subst w'. apply Hv, in_map_iff. exists y; split; [exact Ev|]. apply filter_In; split; [apply (range_found s); auto|apply has_name_iff; exact En]. }
  destruct W as (w & (l1 & l2 & Ew & Hw & Hno) & (y & Hy & En & Ev)).
  exists w, y. split; [eapply Permutation_in; [exact P|rewrite Ew; apply in_app_iff; right; left; reflexivity]|].
  split.
  { rewrite E. apply filter_In. split; [apply (found_mono _ _ _ _ Hy)|]. destruct (keep y) eqn:Ky; [reflexivity|exfalso].
    apply HK in Ky; [|apply (found_mono _ _ _ _ Hy)]. destruct Ky as [_ Ky]. apply Ky. exists w. rewrite En. split; [exists l1, l2; auto|]. exists y; auto. }
  split; [exact Hy|]. split; [exact En|]. split; [exact Ev|].
  intros q Hq Hp. assert (Hq' : In q parts) by (eapply Permutation_in; [symmetry; exact P|exact Hq]).
  rewrite Ew in Hq', S. apply in_app_iff in Hq' as [Hq'|[Hq'|Hq']]; [exfalso; exact (Hno q Hq' Hp)|auto|right].
  eapply sorted_before; [exact S|]. apply in_split in Hq' as (a & b & ->). exists l1, a, b; reflexivity.
Qed.
Print Assumptions C30_agree.
Example C30_example : RemoveAmbiguous ex_s ex_paths ex_ms =
  [simple 4 5 (lit "episode") (MvInt 7) [lit "SxxExx"]; simple 6 7 (lit "season") (MvInt 3) [lit "SxxExx"]; simple 7 8 (lit "year") (MvInt 1999) []].
Proof. reflexivity. Qed.

(** ** C31 *)
Lemma named_part n ms k m : found ms (has_name n) k m <-> In m ms /\ m_name m = n /\ m_start m < m_end k /\ m_start k < m_end m.
Proof. unfold found. rewrite has_name_iff. reflexivity. Qed.
(** a match of the property [name] lies in the part [k], as part of an SxxExx form *)
Definition sxxexx_in (ms : list mt) (name : str) (k : mt) : Prop :=
  exists m, In m ms /\ m_name m = name /\ In (lit "SxxExx") (m_tags m) /\ m_start m < m_end k /\ m_start k < m_end m.
Definition value_in (ms : list mt) (name : str) (k : mt) (v : mval) : Prop :=
  exists m, In m ms /\ m_name m = name /\ m_start m < m_end k /\ m_start k < m_end m /\ m_value m = v.
(** the part that decides: the leftmost one with an SxxExx form of the property, else the leftmost one with the property *)
Definition decides (ms : list mt) (name : str) (parts : list mt) (k : mt) : Prop :=
  leftmost parts (sxxexx_in ms name) k \/
  ((forall k', In k' parts -> ~ sxxexx_in ms name k') /\ leftmost parts (fun k => exists v, value_in ms name k v) k).
Lemma leftmost_ext parts (P Q : mt -> Prop) k : (forall k, P k <-> Q k) -> leftmost parts P k <-> leftmost parts Q k.
Proof.
  intros H. split; intros (l1 & l2 & E & A & B); exists l1, l2; (split; [exact E|]); (split; [apply H; exact A|]);
    intros k' Hk' C; apply (B k' Hk'), H; exact C.
Qed.
Lemma sxxexx_form ms n k : has_form ms n k <-> sxxexx_in ms n k.
Proof.
  unfold has_form, sxxexx_in, found. split; intros (m & H); exists m.
  - destruct H as (A & B & C & D). apply sxx_name in B as [B B']. apply has_tag_iff in B'. auto.
  - destruct H as (A & B & B' & C & D). rewrite sxx_name, has_tag_iff. auto.
Qed.
Lemma value_part ms n k v : part_value ms (has_name n) k n v <-> value_in ms n k v.
Proof.
  unfold part_value, value_in. split; intros (m & H); exists m.
  - rewrite named_part in H. tauto.
  - rewrite named_part. tauto.
Qed.
Lemma has_part ms n k : has_prop ms (has_name n) k n <-> exists v, value_in ms n k v.
Proof.
  unfold has_prop. split.
  - intros (m & H & E). exists (m_value m). apply value_part. exists m; auto.
  - intros (v & H). apply value_part in H as (m & H & E & _). exists m; auto.
Qed.
Lemma decides_iff ms n parts k : deciding ms n parts k <-> decides ms n parts k.
Proof.
  unfold deciding, decides. rewrite (leftmost_ext parts _ _ k (sxxexx_form ms n)), (leftmost_ext parts _ _ k (has_part ms n)).
  split; (intros [H|[H H']]; [left; exact H|right; split; [|exact H']]); intros k' Hk' Hf; apply (H k' Hk'), sxxexx_form; exact Hf.
Qed.
(** the matches left: all but those of the property that are in some path part, with a value that the deciding part does not have *)
Theorem C31_less_specific name s markers ms : inside s ms -> inside s markers -> distinct ms -> distinct markers ->
  exists keep, RemoveLessSpecific name s markers ms = filter keep ms /\
    forall x, In x ms ->
      (keep x = false <->
       m_name x = name /\
       (exists k, In k (named (lit "path") markers) /\ m_start x < m_end k /\ m_start k < m_end x) /\
       ~ exists k, decides ms name (named (lit "path") markers) k /\ value_in ms name k (m_value x)).
Proof.
  intros Hm Hk Hd Hdk. pose proof (inside_named s (lit "path") markers Hk) as Hk'.
  pose proof (distinct_filter (has_name (lit "path")) markers Hdk) as Hd'. fold (named (lit "path") markers) in Hd'.
  destruct (specific_order_spec s ms name (named (lit "path") markers) Hm Hk' Hd') as [P _].
  destruct (removal s ms (has_name name) (specific_order s ms name (named (lit "path") markers)) Hm) as (keep & E & HK); [|exact Hd|].
  { intros m H. apply Hk'. eapply Permutation_in; [exact P|exact H]. }
  exists keep. split; [exact E|]. intros x Hx. rewrite (HK x Hx).
  assert (W : forall v, wins ms (has_name name) (specific_order s ms name (named (lit "path") markers)) name v <->
                        exists k, decides ms name (named (lit "path") markers) k /\ value_in ms name k v).
  { intros v. unfold wins. split; intros (k & A & B); exists k.
    - rewrite winner_deciding, decides_iff in A by assumption. rewrite value_part in B. auto.
    - rewrite winner_deciding, decides_iff by assumption. rewrite value_part. auto. }
  split.
  - intros [(k & Hin & F) HW]. apply named_part in F as (_ & En & L). split; [exact En|].
    split; [exists k; split; [eapply Permutation_in; [exact P|exact Hin]|exact L]|]. rewrite En in HW. rewrite <- W. exact HW.
  - intros (En & (k & Hin & L) & HW). split; [exists k; split; [eapply Permutation_in; [symmetry; exact P|exact Hin]|apply named_part; auto]|].
    rewrite En, W. exact HW.
Qed.
Print Assumptions C31_less_specific.
(** parts 2 and 3 have an SxxExx form: the leftmost of both decides *)
Example C31_example : RemoveLessSpecific (lit "season") ex_s ex_paths ex_ms =
  [simple 3 4 (lit "season") (MvInt 2) [lit "SxxExx"]; simple 4 5 (lit "episode") (MvInt 7) [lit "SxxExx"]; simple 7 8 (lit "year") (MvInt 1999) []].
Proof. reflexivity. Qed.
(** limit: the documentation of the rule says that the rightmost part wins; without SxxExx form the value of the
    rightmost part is removed and the one of the leftmost part is kept *)
Theorem C31_rightmost_refuted :
  exists s markers ms, inside s ms /\ inside s markers /\ distinct ms /\ distinct markers /\
    (forall m, In m ms -> ~ In (lit "SxxExx") (m_tags m)) /\
    exists l r, ms = [l; r] /\ m_end l < m_start r /\ RemoveLessSpecific (lit "episode") s markers ms = [l].
Proof.
  exists ex_s, ex_paths, [simple 0 1 (lit "episode") (MvInt 1) []; simple 6 7 (lit "episode") (MvInt 2) []].
  split; [intros m Hm; cbn in Hm; repeat (destruct Hm as [<-|Hm]; [cbn; lia|]); destruct Hm|].
  split; [apply ex_inside|]. split; [repeat (constructor; [cbn; intuition discriminate|]); constructor|].
  split; [apply ex_distinct|]. split; [intros m Hm; cbn in Hm; repeat (destruct Hm as [<-|Hm]; [cbn; tauto|]); destruct Hm|].
  eexists _, _. split; [reflexivity|]. split; [cbn; lia|reflexivity].
Qed.
Print Assumptions C31_rightmost_refuted.

(** ** C32 *)
(** [str.istitle]: some letter; capitals only at the start of a run of letters, and every run starts with a capital *)
Definition cased_at (s : str) (i : nat) : Prop := exists c, nth_error s i = Some c /\ (is_upper c = true \/ is_lower c = true).
Definition title_cased (s : str) : Prop :=
  (exists i, cased_at s i) /\
  forall i c, nth_error s i = Some c ->
    (is_upper c = true -> forall j, i = S j -> ~ cased_at s j) /\ (is_lower c = true -> exists j, i = S j /\ cased_at s j).
Lemma upper_not_lower c : is_upper c = true -> is_lower c = false.
Proof. unfold is_upper, is_lower. lia. Qed.
Lemma istitle_from_spec : forall s cased seen, istitle_from cased seen s = true <->
  (seen = true \/ exists i, cased_at s i) /\
  forall i c, nth_error s i = Some c ->
    (is_upper c = true -> match i with 0 => cased = false | S j => ~ cased_at s j end) /\
    (is_lower c = true -> match i with 0 => cased = true | S j => cased_at s j end).
Proof.
  induction s as [|x s IH]; intros cased seen; cbn [istitle_from].
  - split; [intros H; split; [auto|intros [|i] c H'; discriminate]|].
    intros [[H|(i & c & H & _)] _]; [exact H|destruct i; discriminate].
  - assert (CS : forall i, cased_at (x :: s) (S i) <-> cased_at s i) by (intros i; reflexivity).
    assert (C0 : cased_at (x :: s) 0 <-> is_upper x = true \/ is_lower x = true).
    { unfold cased_at; cbn. split; [intros (c & H & H'); injection H as <-; exact H'|intros H; exists x; auto]. }
    assert (Shift : forall cs sn, (cs = true <-> cased_at (x :: s) 0) -> istitle_from cs sn s = true <->
      (sn = true \/ exists i, cased_at s i) /\
      forall i c, nth_error (x :: s) (S i) = Some c -> (is_upper c = true -> ~ cased_at (x :: s) i) /\ (is_lower c = true -> cased_at (x :: s) i)).
    { intros cs sn Hc. rewrite IH. split; intros [A B]; (split; [exact A|]); intros i c Hi; specialize (B i c Hi); destruct B as [B1 B2];
        (split; intros Hu; [specialize (B1 Hu)|specialize (B2 Hu)]); destruct i as [|j]; try (rewrite CS in * ); auto.
      - rewrite <- Hc. congruence.
      - apply Hc; exact B2.
      - destruct cs; [exfalso; apply B1, Hc; reflexivity|reflexivity].
      - apply Hc; exact B2. }
    assert (Whole : forall (Q0 : Prop), (forall i c, nth_error (x :: s) i = Some c ->
       (is_upper c = true -> match i with 0 => cased = false | S j => ~ cased_at (x :: s) j end) /\
       (is_lower c = true -> match i with 0 => cased = true | S j => cased_at (x :: s) j end)) <->
       ((is_upper x = true -> cased = false) /\ (is_lower x = true -> cased = true)) /\
       forall i c, nth_error (x :: s) (S i) = Some c -> (is_upper c = true -> ~ cased_at (x :: s) i) /\ (is_lower c = true -> cased_at (x :: s) i)).
    { intros _. split.
      - intros H. split; [exact (H 0 x eq_refl)|]. intros i c Hi. exact (H (S i) c Hi).
      - intros [H0 H] [|i] c Hi; [cbn in Hi; injection Hi as <-; exact H0|exact (H i c Hi)]. }
    rewrite (Whole True). clear Whole.
    assert (Ex : (exists i, cased_at (x :: s) i) <-> cased_at (x :: s) 0 \/ exists i, cased_at s i).
    { split; [intros ([|i] & H); [left; exact H|right; exists i; exact H]|intros [H|(i & H)]; [exists 0; exact H|exists (S i); exact H]]. }
    rewrite Ex. clear Ex.
    destruct (is_upper x) eqn:Eu.
    + pose proof (upper_not_lower x Eu) as El. rewrite El in *.
      destruct cased; [split; [discriminate|intros (_ & [H _] & _); discriminate (H eq_refl)]|].
      rewrite Shift by tauto. intuition discriminate.
    + destruct (is_lower x) eqn:El.
      * destruct cased; [|split; [discriminate|intros (_ & [_ H] & _); discriminate (H eq_refl)]].
        rewrite Shift by tauto. intuition discriminate.
      * rewrite Shift by (rewrite C0; intuition discriminate). rewrite C0. intuition discriminate.
Qed.
Theorem C32_istitle s : istitle s = true <-> title_cased s.
Proof.
  unfold istitle, title_cased. rewrite istitle_from_spec. split.
  - intros [[H|H] B]; [discriminate|]. split; [exact H|]. intros i c Hi. destruct (B i c Hi) as [B1 B2]. split; intros Hc.
    + intros j ->. exact (B1 Hc).
    + destruct i as [|j]; [discriminate (B2 Hc)|exists j; split; [reflexivity|exact (B2 Hc)]].
  - intros [H B]. split; [right; exact H|]. intros i c Hi. destruct (B i c Hi) as [B1 B2]. split; intros Hc.
    + destruct i as [|j]; [reflexivity|exact (B1 Hc j eq_refl)].
    + destruct (B2 Hc) as (j & -> & Hj). exact Hj.
Qed.
Print Assumptions C32_istitle.
Definition all_upper (s : str) : Prop :=
  (exists c, In c s /\ is_upper c = true) /\ forall c, In c s -> is_lower c = false.
Theorem C32_isupper s : isupper s = true <-> all_upper s.
Proof.
  unfold isupper, all_upper. rewrite Bool.andb_true_iff, existsb_exists, Bool.negb_true_iff, <- Bool.not_true_iff_false, existsb_exists.
  split; intros [A B]; (split; [exact A|]).
  - intros c Hc. destruct (is_lower c) eqn:E; [exfalso; apply B; exists c; auto|reflexivity].
  - intros (c & Hc & E). rewrite (B c Hc) in E; discriminate.
Qed.
Print Assumptions C32_isupper.

(** one of the two texts is returned, without failure, when they are equal up to the case *)
Theorem C32_one_of_both v1 v2 : same_but_case v1 v2 -> exists v, preferred_string v1 v2 = Ok v /\ (v = v1 \/ v = v2).
Proof.
  intros H. unfold preferred_string. destruct (str_eqb v1 v2) eqn:E; [eauto|].
  destruct (istitle v1 && _); [eauto|]. destruct (negb (isupper v1) && isupper v2); [eauto|].
  destruct v1 as [|a v1], v2 as [|b v2]; try discriminate. cbn [first_upper bind].
  destruct (negb (isupper _)); [destruct (is_upper a); cbn [bind]; [destruct (negb (is_upper b))|]|]; cbn [bind]; eauto;
    destruct (_ <? _); eauto.
Qed.
Print Assumptions C32_one_of_both.
Lemma not_title v : ~ title_cased v -> istitle v = false.
Proof. rewrite <- C32_istitle. destruct (istitle v); [intros H; exfalso; auto|reflexivity]. Qed.
Lemma not_upper v : ~ all_upper v -> isupper v = false.
Proof. rewrite <- C32_isupper. destruct (isupper v); [intros H; exfalso; auto|reflexivity]. Qed.
(** a title-cased text is preferred to one which is not: always as the first argument, ... *)
Theorem C32_title_first v1 v2 : title_cased v1 -> ~ title_cased v2 -> preferred_string v1 v2 = Ok v1.
Proof.
  intros H1 H2. apply C32_istitle in H1. apply not_title in H2. unfold preferred_string. rewrite H1, H2.
  destruct (str_eqb v1 v2); reflexivity.
Qed.
Print Assumptions C32_title_first.
(** ... and as the second one except when it is in capitals too and the first one is not *)
Theorem C32_title_second v1 v2 : same_but_case v1 v2 -> ~ title_cased v1 -> title_cased v2 -> (all_upper v2 -> all_upper v1) ->
  preferred_string v1 v2 = Ok v2.
Proof.
  intros Hc H1 H2 Hu. apply not_title in H1. apply C32_istitle in H2. rewrite <- !C32_isupper in Hu.
  unfold preferred_string. destruct (str_eqb v1 v2) eqn:E; [apply str_eqb_eq in E; subst; reflexivity|]. rewrite H1. cbn [andb].
  replace (negb (isupper v1) && isupper v2) with false by (destruct (isupper v1), (isupper v2); auto; exfalso; discriminate (Hu eq_refl)).
  pose proof (count_title v1 v2 Hc H2) as Hn.
  replace (count_title_words v2 <? count_title_words v1) with false by lia.
  destruct (negb (isupper v1)); cbn [bind]; [|reflexivity].
  unfold same_but_case in Hc. destruct v1 as [|a v1], v2 as [|b v2]; try discriminate. cbn [first_upper bind].
  destruct (is_upper a) eqn:Ea; cbn [bind]; [|reflexivity]. rewrite !lower_cons in Hc. injection Hc as Hc _.
  assert (Hb : is_upper b = true).
  { destruct (is_upper b) eqn:Eb; [reflexivity|]. unfold istitle in H2. cbn [istitle_from] in H2. rewrite Eb in H2.
    destruct (is_lower b) eqn:El; [discriminate|]. assert (is_cased a = is_cased b) as X by (apply cased_lower; exact Hc).
    unfold is_cased in X. rewrite Ea, Eb, El in X. discriminate. }
  rewrite Hb. reflexivity.
Qed.
Print Assumptions C32_title_second.
(** a text not in capitals is preferred to the same one in capitals: always as the first argument, ... *)
Theorem C32_upper_second v1 v2 : same_but_case v1 v2 -> ~ all_upper v1 -> all_upper v2 -> preferred_string v1 v2 = Ok v1.
Proof.
  intros _ H1 H2. apply not_upper in H1. apply C32_isupper in H2. unfold preferred_string. rewrite H1, H2.
  destruct (str_eqb v1 v2); [reflexivity|]. destruct (istitle v1 && _); reflexivity.
Qed.
Print Assumptions C32_upper_second.
(** ... and as the second one if no word of the first one is title-cased (a single letter, for instance) *)
Theorem C32_upper_first v1 v2 : all_upper v1 -> ~ all_upper v2 ->
  (forall a b, WordsProofs.maximal_run WordsProofs.is_word_sep v1 a b -> ~ title_cased (slice a b v1)) -> preferred_string v1 v2 = Ok v2.
Proof.
  intros H1 H2 Hw. pose proof H1 as H1'. apply C32_isupper in H1. apply not_upper in H2.
  destruct (WordsProofs.iter_words_spec v1) as (Hsp & _ & Hr). rewrite Forall_forall in Hsp.
  assert (Hno : forall w, In w (iter_words v1) -> istitle (w_value w) = false).
  { intros w Hin. apply not_title. rewrite (Hsp w Hin). apply Hw. apply Hr. exists w; auto. }
  assert (Ht : istitle v1 = false).
  { destruct (istitle v1) eqn:Et; [exfalso|reflexivity]. destruct H1' as [(c & Hc & Hcu) _].
    apply In_nth_error in Hc as (k & Hk).
    assert (Hns : ~ WordsProofs.is_word_sep c).
    { rewrite <- WordsProofs.word_sep_iff. intros Hs. apply sep_uncased in Hs. unfold is_cased in Hs. rewrite Hcu in Hs; discriminate. }
    destruct (WordsProofs.run_exists v1 k c Hk Hns) as (a & b & Hrun & Hab).
    pose proof Hrun as Hrun'. apply Hr in Hrun as (w & Hin & <- & <-).
    pose proof (Hno w Hin) as Hn. rewrite (word_title v1 w Hin Et) in Hn; [discriminate|].
    apply existsb_exists. exists c. split; [|unfold is_cased; rewrite Hcu; reflexivity].
    rewrite (Hsp w Hin). apply (nth_error_In _ (k - w_start w)). rewrite slice_nth.
    destruct (Nat.ltb_spec (k - w_start w) (w_end w - w_start w)); [|lia]. replace (w_start w + (k - w_start w)) with k by lia. exact Hk. }
  unfold preferred_string. destruct (str_eqb v1 v2) eqn:E; [apply str_eqb_eq in E; subst; reflexivity|]. rewrite Ht, H1. cbn [andb negb bind].
  replace (count_title_words v1) with 0; [reflexivity|]. unfold count_title_words.
  symmetry. replace (filter _ (iter_words v1)) with (@nil word); [reflexivity|]. symmetry. apply filter_nil. exact Hno.
Qed.
Print Assumptions C32_upper_first.
Example C32_example :
  preferred_string (lit "the big bang") (lit "The Big Bang") = Ok (lit "The Big Bang") /\
  preferred_string (lit "The Big Bang") (lit "the big bang") = Ok (lit "The Big Bang") /\
  preferred_string (lit "THE BIG BANG") (lit "The big bang") = Ok (lit "The big bang") /\
  preferred_string (lit "The big bang") (lit "THE BIG BANG") = Ok (lit "The big bang").
Proof. repeat split; reflexivity. Qed.
(** limits: the choice depends on the order of the arguments; capitals may be preferred; a title-cased text of single letters may lose *)
Theorem C32_limits :
  (exists a b, same_but_case a b /\ a <> b /\ preferred_string a b = Ok b /\ preferred_string b a = Ok a) /\
  (exists a b, same_but_case a b /\ all_upper a /\ ~ all_upper b /\ preferred_string a b = Ok a) /\
  (exists a b, same_but_case a b /\ ~ title_cased a /\ title_cased b /\ preferred_string a b = Ok a).
Proof.
  split; [|split].
  - exists (lit "fOO bar"), (lit "foo bAR"). split; [reflexivity|]. split; [discriminate|]. split; reflexivity.
  - exists (lit "AB C"), (lit "ab c"). split; [reflexivity|]. rewrite <- !C32_isupper. split; [reflexivity|]. split; [discriminate|reflexivity].
  - exists (lit "a b"), (lit "A B"). split; [reflexivity|]. rewrite <- !C32_istitle. split; [discriminate|]. split; reflexivity.
Qed.
Print Assumptions C32_limits.
(** on texts that differ otherwise it can fail: an empty text has no first character *)
Example C32_empty : preferred_string (lit "A b") [] = Err IndexError.
Proof. reflexivity. Qed.

(** ** C33 *)
Lemma set_name_distinct n l ms : distinct ms -> (forall m, In m l -> In m ms) -> NoDup l ->
  (forall m, In m l -> m_name m <> n) -> (forall a b, In a l -> In b l -> m_name a = m_name b) -> (forall m, In m ms -> m_name m <> n) ->
  distinct (ms ++ map (fun m => set_name m n) l).
Proof.
  intros Hd Hin Hn Hne Hsame Hms. unfold distinct in *. rewrite map_app, map_map.
  assert (G : forall l1 l2 : list (nat * nat * str * mval * option pinfo), NoDup l1 -> NoDup l2 -> (forall x, In x l1 -> ~ In x l2) -> NoDup (l1 ++ l2)).
  { clear. induction l1 as [|x l1 IHl]; cbn; intros l2 H1 H2 H; [exact H2|]. inversion H1; subst.
    constructor; [rewrite in_app_iff; intros [A|A]; [contradiction|apply (H x); auto]|]. apply IHl; auto. }
  apply G; [exact Hd| |].
  - clear Hms. induction l as [|m l IH]; cbn [map]; [constructor|]. inversion Hn; subst.
    constructor; [|apply IH; auto; intros; try apply Hin; try apply Hne; try apply Hsame; right; assumption].
    intros H. apply in_map_iff in H as (x & E & Hx). unfold mkey in E; cbn in E. assert (x = m); [|subst; contradiction].
    apply (distinct_inj ms); [exact Hd|apply Hin; right; exact Hx|apply Hin; left; reflexivity|].
    unfold mkey. rewrite (Hsame x m (or_intror Hx) (or_introl eq_refl)). congruence.
  - intros k Hk Hk'. apply in_map_iff in Hk as (x & <- & Hx). apply in_map_iff in Hk' as (y & E & Hy).
    apply (Hms x Hx). unfold mkey in E; cbn in E. congruence.
Qed.
Definition a_year (v : mval) : Prop := exists z, v = MvInt z /\ (1920 <= z < 2030)%Z.
Lemma a_year_iff v : valid_year_value v = true <-> a_year v.
Proof.
  unfold valid_year_value, a_year. destruct v; [unfold valid_year|split; [discriminate|intros (z & H & _); discriminate]..].
  split; [intros H; exists z; split; [reflexivity|lia]|intros (z' & E & H); injection E as <-; lia].
Qed.

(** the given matches, and one more [year] for each season that is a valid year, if there is no year *)
Theorem C33_season_year ctx ms : distinct ms ->
  ((exists y, In y ms /\ m_name y = lit "year") -> SeasonYear ctx ms = ms) /\
  ((forall y, In y ms -> m_name y <> lit "year") ->
   exists chosen, SeasonYear ctx ms = ms ++ map (fun m => set_name m (lit "year")) (filter chosen ms) /\
     forall m, In m ms -> (chosen m = true <-> m_name m = lit "season" /\ a_year (m_value m))).
Proof.
  intros Hd. unfold SeasonYear, season_year. split.
  - intros (y & Hy & E). destruct (named (lit "year") ms) eqn:En; [|reflexivity].
    assert (In y []) by (rewrite <- En; apply named_In; auto). contradiction.
  - intros Hno. exists (fun m => has_name (lit "season") m && valid_year_value (m_value m)).
    replace (named (lit "year") ms) with (@nil mt); [|symmetry; apply filter_nil; intros x Hx; destruct (has_name (lit "year") x) eqn:E; [apply has_name_iff in E; destruct (Hno x Hx E)|reflexivity]].
    unfold named. rewrite filter_filter. split.
    + apply append_all_fresh. apply set_name_distinct; auto.
      * intros m Hm. apply filter_In in Hm; tauto.
      * apply NoDup_filter, distinct_NoDup; exact Hd.
      * intros m Hm. apply filter_In in Hm as [Hm _]. auto.
      * intros a b Ha Hb. apply filter_In in Ha as [_ Ha], Hb as [_ Hb]. apply andb_prop in Ha as [Ha _], Hb as [Hb _].
        apply has_name_iff in Ha, Hb. congruence.
    + intros m Hm. rewrite Bool.andb_true_iff, has_name_iff, a_year_iff. reflexivity.
Qed.
Print Assumptions C33_season_year.
(** the given matches, and one more [season] for each year, if there is no season but an episode *)
Theorem C33_year_season ctx ms : distinct ms ->
  (((exists y, In y ms /\ m_name y = lit "season") \/ (forall e, In e ms -> m_name e <> lit "episode")) -> YearSeason ctx ms = ms) /\
  ((forall y, In y ms -> m_name y <> lit "season") -> (exists e, In e ms /\ m_name e = lit "episode") ->
   exists chosen, YearSeason ctx ms = ms ++ map (fun m => set_name m (lit "season")) (filter chosen ms) /\
     forall m, In m ms -> (chosen m = true <-> m_name m = lit "year")).
Proof.
  intros Hd. unfold YearSeason, year_season. split.
  - intros [(y & Hy & E)|Hno].
    + destruct (named (lit "season") ms) eqn:En; [|reflexivity].
      assert (In y []) by (rewrite <- En; apply named_In; auto). contradiction.
    + destruct (named (lit "season") ms); [|reflexivity]. destruct (named (lit "episode") ms) as [|e l] eqn:En; [reflexivity|].
      assert (H : In e (named (lit "episode") ms)) by (rewrite En; left; reflexivity). apply named_In in H as [H H']. destruct (Hno e H H').
  - intros Hno (e & He & Ee). exists (has_name (lit "year")).
    replace (named (lit "season") ms) with (@nil mt); [|symmetry; apply filter_nil; intros x Hx; destruct (has_name (lit "season") x) eqn:E; [apply has_name_iff in E; destruct (Hno x Hx E)|reflexivity]].
    destruct (named (lit "episode") ms) as [|e' l] eqn:En.
    { assert (In e []) by (rewrite <- En; apply named_In; auto). contradiction. }
    split; [|intros m Hm; apply has_name_iff].
    apply append_all_fresh. apply set_name_distinct; auto.
      * intros m Hm. apply filter_In in Hm; tauto.
      * apply NoDup_filter, distinct_NoDup; exact Hd.
      * intros m Hm. apply filter_In in Hm as [Hm _]. auto.
      * intros a b Ha Hb. apply filter_In in Ha as [_ Ha], Hb as [_ Hb]. apply has_name_iff in Ha, Hb. congruence.
Qed.
Print Assumptions C33_year_season.
Definition ex_sy : list mt := [simple 0 4 (lit "season") (MvInt 2009) []; simple 5 6 (lit "season") (MvInt 3) []; simple 6 8 (lit "episode") (MvInt 20) []].
Example C33_example :
  SeasonYear [] ex_sy = ex_sy ++ [simple 0 4 (lit "year") (MvInt 2009) []] /\
  YearSeason [] [simple 0 4 (lit "year") (MvInt 2009) []; simple 6 8 (lit "episode") (MvInt 20) []] =
    [simple 0 4 (lit "year") (MvInt 2009) []; simple 6 8 (lit "episode") (MvInt 20) []; simple 0 4 (lit "season") (MvInt 2009) []].
Proof. split; reflexivity. Qed.
(** limit: with the option [excludes] naming it, a property can still be added by these rules *)
Theorem C33_excludes_refuted :
  exists ctx ms, is_disabled ctx (lit "year") = Ok true /\ distinct ms /\ ~ (exists y, In y ms /\ m_name y = lit "year") /\
    exists y, In y (SeasonYear ctx ms) /\ m_name y = lit "year".
Proof.
  exists [(KS (lit "excludes"), VList [VStr (lit "year")])], [simple 0 4 (lit "season") (MvInt 2009) []].
  split; [reflexivity|]. split; [repeat constructor; intros []|]. split; [intros (y & [<-|[]] & E); discriminate|].
  exists (simple 0 4 (lit "year") (MvInt 2009) []). split; [right; left; reflexivity|reflexivity].
Qed.
Print Assumptions C33_excludes_refuted.

(** ** C51 (second part): the bounds of the raw text *)
Definition is_trim_sep (c : char) : Prop := In c seps_no_groups.
Lemma no_group_iff c : no_group c = true <-> is_trim_sep c.
Proof. unfold no_group, is_trim_sep. apply cmem_In. Qed.
Lemma no_group_all l : forallb no_group l = true <-> Forall is_trim_sep l.
Proof. rewrite forallb_forall, Forall_forall. split; intros H c Hc; apply no_group_iff, H; exact Hc. Qed.
(** a side of a text needs no trimming: it does not start with a separator, unless the third character is one too (an acronym) *)
Definition clean_side (l : str) : Prop :=
  forall c, nth_error l 0 = Some c -> is_trim_sep c -> exists d, nth_error l 2 = Some d /\ is_trim_sep d.
Lemma clean_trimmed l : trimmed l <-> clean_side l.
Proof.
  unfold trimmed, clean_side. split; intros H c Hc Hs; destruct (H c Hc) as (d & Hd & Hs'); try (apply no_group_iff; exact Hs); exists d; split; auto; apply no_group_iff; exact Hs'.
Qed.
Theorem C51_strip_separators s ms : (forall m, In m ms -> m_raw_start m <= m_raw_end m <= List.length s) ->
  (forall out, StripSeparators s ms = Ok out ->
     Forall2 (fun m m' => exists a b, m' = set_raw m (a, b) /\
        m_raw_start m <= a /\ a < b /\ b <= m_raw_end m /\ a <= m_raw_start m + 2 /\ m_raw_end m <= b + 2 /\
        Forall is_trim_sep (slice (m_raw_start m) a s) /\ Forall is_trim_sep (slice b (m_raw_end m) s) /\
        clean_side (slice a b s) /\ clean_side (rev (slice a b s))) ms out) /\
  (forall e, StripSeparators s ms = Err e -> e = IndexError /\
     exists m, In m ms /\ m_raw_end m - m_raw_start m <= 2 /\ Forall is_trim_sep (slice (m_raw_start m) (m_raw_end m) s)).
Proof.
  unfold StripSeparators. induction ms as [|m ms IH]; intros H; cbn [mapM].
  - split; [intros out E; injection E as <-; constructor|discriminate].
  - destruct (H m (or_introl eq_refl)) as [H1 H2].
    destruct (IH (fun x Hx => H x (or_intror Hx))) as [IH1 IH2]. clear IH H.
    destruct (strip_raw_spec s (m_raw_start m) (m_raw_end m) H1 H2) as [(-> & Hl & Hf)|(a & b & -> & B1 & B2 & B3 & B4 & B5 & F1 & F2 & T1 & T2)]; cbn [bind].
    + split; [discriminate|]. intros e E; injection E as <-. split; [reflexivity|]. exists m. rewrite <- no_group_all. auto using in_eq.
    + destruct (mapM _ ms) as [out'|e'] eqn:Em; cbn [bind].
      * split; [|discriminate]. intros out E; injection E as <-. constructor; [|auto].
        exists a, b. rewrite <- !no_group_all, <- !clean_trimmed. auto 10.
      * split; [discriminate|]. intros e E; injection E as <-. destruct (IH2 e' eq_refl) as (E & x & Hx & R). split; [exact E|]. exists x; split; [right; exact Hx|exact R].
Qed.
Print Assumptions C51_strip_separators.
(** one or two separators alone make it fail *)
Theorem C51_strip_separators_fails s m : m_raw_start m <= m_raw_end m <= List.length s ->
  m_raw_end m - m_raw_start m <= 2 -> Forall is_trim_sep (slice (m_raw_start m) (m_raw_end m) s) ->
  StripSeparators s [m] = Err IndexError.
Proof.
  intros [H1 H2] Hl Hf. unfold StripSeparators; cbn [mapM].
  destruct (strip_raw_spec s (m_raw_start m) (m_raw_end m) H1 H2) as [(-> & _)|(a & b & _ & B1 & B2 & B3 & B4 & B5 & F1 & F2 & T1 & T2)]; [reflexivity|exfalso].
  assert (Hc : exists c, nth_error (slice a b s) 0 = Some c).
  { destruct (nth_error (slice a b s) 0) eqn:E; [eauto|]. rewrite slice_nth in E. replace (0 <? b - a) with true in E by lia.
    apply nth_error_None in E. lia. }
  destruct Hc as (c & Hc). assert (Hs : is_trim_sep c).
  { rewrite slice_nth in Hc. replace (0 <? b - a) with true in Hc by lia. rewrite Forall_forall in Hf. apply Hf.
    apply (nth_error_In _ (a - m_raw_start m)). rewrite slice_nth. destruct (Nat.ltb_spec (a - m_raw_start m) (m_raw_end m - m_raw_start m)); [|lia].
    rewrite <- Hc. f_equal. lia. }
  apply clean_trimmed in T1. destruct (T1 c Hc Hs) as (d & Hd & _). rewrite slice_nth in Hd. destruct (Nat.ltb_spec 2 (b - a)); [lia|discriminate].
Qed.
Print Assumptions C51_strip_separators_fails.
Example C51_strip_example :
  let s := lit "x.ab._.S.H.I." in
  StripSeparators s [simple 1 6 (lit "title") (MvStr []) []; simple 6 13 (lit "title") (MvStr []) []] =
    Ok [set_raw (simple 1 6 (lit "title") (MvStr []) []) (2, 4); set_raw (simple 6 13 (lit "title") (MvStr []) []) (6, 13)].
Proof. reflexivity. Qed.

(** ** C54 *)
(** a match just inside a bracket group is extended over the bracket, on the side where it touches it *)
Definition after_open (markers : list mt) (m : mt) : Prop := exists g, In g markers /\ m_name g = lit "group" /\ m_start m = m_start g + 1.
Definition before_close (markers : list mt) (m : mt) : Prop := exists g, In g markers /\ m_name g = lit "group" /\ m_end m + 1 = m_end g.
Definition enlarged (markers : list mt) (m m' : mt) : Prop :=
  exists a b, m' = set_span m a b /\
    (after_open markers m -> a + 1 = m_start m) /\ (~ after_open markers m -> a = m_start m) /\
    (before_close markers m -> b = m_end m + 1) /\ (~ before_close markers m -> b = m_end m).
Lemma Forall2_map_r {A B} (R : A -> B -> Prop) (f : A -> B) ms : (forall m, In m ms -> R m (f m)) -> Forall2 R ms (map f ms).
Proof.
  induction ms as [|m ms IH]; cbn [map]; intros H; constructor; [apply H; left; reflexivity|apply IH; intros x Hx; apply H; right; exact Hx].
Qed.
Lemma NoDup_map_inj {A B} (f : A -> B) (ms : list A) x y : NoDup (map f ms) -> In x ms -> In y ms -> f x = f y -> x = y.
Proof.
  induction ms as [|z r IH]; cbn [map In]; [tauto|]. intros H. inversion H; subst. intros [->|Hx] [->|Hy] E; auto;
      exfalso; [rewrite E in *|rewrite <- E in *]; auto using in_map.
Qed.
Lemma NoDup_map_sub {A B} (f : A -> B) (ms l : list A) : NoDup (map f ms) -> NoDup l -> (forall x, In x l -> In x ms) -> NoDup (map f l).
Proof.
  intros H. assert (inj : forall x y, In x ms -> In y ms -> f x = f y -> x = y).
  { induction ms as [|z r IH]; cbn [map In] in *; [tauto|]. inversion H; subst. intros x y [->|Hx] [->|Hy] E; auto;
      exfalso; [rewrite E in *|rewrite <- E in *]; auto using in_map. }
  induction l as [|x l IH]; intros Hn Hin; cbn [map]; [constructor|]. inversion Hn; subst. constructor; [|apply IH; auto using in_cons].
  intros E. apply in_map_iff in E as (y & E & Hy). assert (y = x); [|subst; contradiction]. apply inj; auto using in_eq, in_cons.
Qed.
Lemma NoDup_map_comp {A B C} (f : A -> B) (g : B -> C) (h : A -> C) l : (forall x, h x = g (f x)) -> NoDup (map h l) -> NoDup (map f l).
Proof.
  intros E H. apply (NoDup_map_inv g). rewrite map_map. erewrite map_ext; [exact H|]. intros x; symmetry; apply E.
Qed.
Definition front_only (markers ms : list mt) (m : mt) : mt := if mmem m (enlarge_starting markers ms) then enlarge_front m else m.
(** the groups found in the input start and end at different places (see C16); no two matches become equal *)
Theorem C54_enlarge markers ms : distinct ms -> distinct (map (front_only markers ms) ms) ->
  NoDup (map m_start (named (lit "group") markers)) -> NoDup (map m_end (named (lit "group") markers)) ->
  (forall g, In g markers -> m_start g < m_end g) ->
  exists out, Permutation (EnlargeGroupMatches markers ms) out /\ Forall2 (enlarged markers) ms out.
Proof.
  intros Hd Hd' Hs He Hg. unfold EnlargeGroupMatches. set (st := enlarge_starting markers ms) in *. set (en := enlarge_ending markers ms).
  fold (front_only markers ms).
  assert (Dst : distinct st).
  { unfold st, enlarge_starting. apply (flat_filter_distinct (groups_of markers) m_start (fun g => m_start g + 1)); [exact Hd|].
    apply (NoDup_map_comp _ (fun n => n - 1) m_start); [intros; lia|exact Hs]. }
  assert (Den : NoDup en).
  { apply distinct_NoDup. unfold en, enlarge_ending. apply (flat_filter_distinct (groups_of markers) m_end (fun g => m_end g - 1)); [exact Hd|].
    assert (Hpos : forall g, In g (groups_of markers) -> 0 < m_end g) by (intros g H; apply named_sub in H; specialize (Hg g H); lia).
    revert He. unfold groups_of in *. revert Hpos. generalize (named (lit "group") markers). clear. induction l as [|g l IH]; cbn [map]; intros Hp H; [constructor|].
    inversion H as [|? ? Hn Hr]; subst. constructor; [|apply IH; auto using in_cons].
    intros X. apply Hn. apply in_map_iff in X as (y & E & Hy). apply in_map_iff. exists y; split; [|exact Hy].
    pose proof (Hp y (or_intror Hy)). pose proof (Hp g (or_introl eq_refl)). lia. }
  assert (Sst : forall m, In m st <-> In m ms /\ after_open markers m).
  { intros m. unfold st, enlarge_starting, starting, after_open. rewrite in_flat_map. split.
    - intros (g & H & H'). apply filter_In in H' as [H' E]. apply named_In in H. split; [exact H'|]. exists g. split; [tauto|]. split; [tauto|lia].
    - intros (H & g & Hi & En & E). exists g. split; [apply named_In; auto|]. apply filter_In. split; [exact H|lia]. }
  assert (Sen : forall m, In m en <-> In m ms /\ before_close markers m).
  { intros m. unfold en, enlarge_ending, ending, before_close. rewrite in_flat_map. split.
    - intros (g & H & H'). apply filter_In in H' as [H' E]. apply named_In in H as [H H0]. specialize (Hg g H). split; [exact H'|]. exists g. split; [tauto|]. split; [tauto|lia].
    - intros (H & g & Hi & En & E). exists g. split; [apply named_In; auto|]. apply filter_In. split; [exact H|lia]. }
  assert (P1 : Permutation (replace_each enlarge_front st ms) (map (front_only markers ms) ms)).
  { apply replace_each_perm; auto. intros m H; apply Sst in H; tauto. }
  assert (D1 : distinct (replace_each enlarge_front st ms)).
  { unfold distinct. eapply Permutation_NoDup; [apply Permutation_map; symmetry; exact P1|exact Hd']. }
  set (en' := map (front_only markers ms) en).
  assert (D2 : distinct en').
  { unfold en', distinct. rewrite map_map. apply (NoDup_map_sub _ ms); [unfold distinct in Hd'; rewrite map_map in Hd'; exact Hd'|exact Den|].
    intros x H; apply Sen in H; tauto. }
  assert (P2 : Permutation (replace_each enlarge_back en' (replace_each enlarge_front st ms))
                 (map (fun m => if mmem m en' then enlarge_back m else m) (replace_each enlarge_front st ms))).
  { apply replace_each_perm; auto. intros m H. eapply Permutation_in; [symmetry; exact P1|]. unfold en' in H.
    apply in_map_iff in H as (x & <- & H). apply in_map. apply Sen in H; tauto. }
  exists (map (fun m => if mmem (front_only markers ms m) en' then enlarge_back (front_only markers ms m) else front_only markers ms m) ms).
  split; [etransitivity; [exact P2|]; etransitivity; [apply Permutation_map; exact P1|]; rewrite map_map; reflexivity|].
  assert (Men : forall m, In m ms -> (mmem (front_only markers ms m) en' = true <-> before_close markers m)).
  { intros m Hm. rewrite mmem_iff. split.
    - intros (x & H & E). unfold en' in H. apply in_map_iff in H as (y & <- & H). pose proof H as H0. apply Sen in H as [H H'].
      assert (y = m); [|subst; exact H'].
      unfold distinct in Hd'. rewrite map_map in Hd'. exact (NoDup_map_inj _ ms y m Hd' H Hm E).
    - intros H. exists (front_only markers ms m). split; [apply in_map, Sen; auto|reflexivity]. }
  assert (Mst : forall m, In m ms -> (mmem m st = true <-> after_open markers m)).
  { intros m Hm. rewrite mmem_iff. split.
    - intros (x & H & E). pose proof H as H0. apply Sst in H as [H H']. assert (x = m) by (apply (distinct_inj ms); auto). subst; exact H'.
    - intros H. exists m. split; [apply Sst; auto|reflexivity]. }
  assert (Out : forall m, In m ms -> enlarged markers m (if mmem (front_only markers ms m) en' then enlarge_back (front_only markers ms m) else front_only markers ms m)).
  { intros m Hm. specialize (Men m Hm). specialize (Mst m Hm).
    assert (Hpos : after_open markers m -> m_start m - 1 + 1 = m_start m) by (intros (g & _ & _ & E); lia).
    unfold front_only in *. fold st in Men |- *.
    destruct (mmem m st), (mmem _ en'); unfold enlarged, enlarge_back, enlarge_front; cbn [set_span m_start m_end];
      [exists (m_start m - 1), (m_end m + 1)|exists (m_start m - 1), (m_end m)|exists (m_start m), (m_end m + 1)|exists (m_start m), (m_end m)];
      (split; [destruct m; reflexivity|]); (split; [|split; [|split]]); intros X; auto; exfalso; try (apply X; (apply Mst || apply Men); reflexivity);
      first [discriminate (proj2 Mst X)|discriminate (proj2 Men X)]. }
  apply Forall2_map_r; exact Out.
Qed.
Print Assumptions C54_enlarge.
Example C54_example :
  let g := simple 2 8 (lit "group") (MvStr []) [] in
  let ms := [simple 3 5 (lit "year") (MvInt 1) []; simple 3 7 (lit "season") (MvInt 2) []; simple 5 6 (lit "episode") (MvInt 2) []] in
  EnlargeGroupMatches [g] ms =
    [simple 5 6 (lit "episode") (MvInt 2) []; set_span (simple 3 5 (lit "year") (MvInt 1) []) 2 5; set_span (simple 3 7 (lit "season") (MvInt 2) []) 2 8].
Proof. reflexivity. Qed.
