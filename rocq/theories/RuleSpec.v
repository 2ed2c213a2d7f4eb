(** Vocabulary and facts shared by the theorems about rules. *)
From Verif Require Import Py PyFacts Text Sort Rebulk RebulkFacts.
From Coq Require Import Arith Lia Permutation Sorted ZifyBool.

Lemma merge_new_key a b k : (exists x, In x (merge_new a b) /\ mkey x = k) <-> (exists x, (In x a \/ In x b) /\ mkey x = k).
Proof.
  unfold merge_new. revert a. induction b as [|m b IH]; intros a; cbn [fold_left].
  - split; intros (x & H & E); exists x; [auto|destruct H as [H|[]]; auto].
  - rewrite IH. destruct (mmem m a) eqn:Em.
    + apply mmem_iff in Em as (z & Hz & Ez). split; intros (x & H & E).
      * exists x. split; [|exact E]. destruct H; cbn; auto.
      * destruct H as [H|[->|H]]; [exists x; auto|exists z; split; [auto|congruence]|exists x; auto].
    + split; intros (x & H & E).
      * exists x. split; [|exact E]. rewrite in_app_iff in H. cbn in *. intuition.
      * exists x. split; [|exact E]. rewrite in_app_iff. cbn in *. intuition.
Qed.
Lemma merge_new_sub a b x : In x (merge_new a b) -> In x a \/ In x b.
Proof.
  unfold merge_new. revert a. induction b as [|m b IH]; intros a; cbn [fold_left]; [auto|]. intros H. apply IH in H as [H|H]; [|cbn; auto].
  destruct (mmem m a); [auto|]. apply in_app_iff in H as [H|[->|[]]]; cbn; auto.
Qed.
Lemma at_match_iff y markers n : (exists x, In x (at_match y markers) /\ m_name x = n) <->
  exists g, In g markers /\ m_name g = n /\ (m_start g <= m_start y < m_end g \/ (0 < m_end y /\ m_start g <= m_end y - 1 < m_end g)).
Proof.
  unfold at_match, at_span. split.
  - intros (x & H & E). exists x. apply merge_new_sub in H as [H|H].
    + apply filter_In in H as [H C]. unfold covers in C. repeat split; auto; lia.
    + destruct (m_end y) as [|e] eqn:Ey; [destruct H|]. apply filter_In in H as [H C]. unfold covers in C. split; [exact H|]. split; [exact E|]. right; lia.
  - intros (g & H & E & C).
    assert (K : exists x, In x (merge_new (at_index (m_start y) markers) (match m_end y with 0 => [] | S b' => at_index b' markers end)) /\ mkey x = mkey g).
    { apply merge_new_key. exists g. split; [|reflexivity]. destruct C as [C|[C0 C]]; [left|right].
      - apply filter_In. split; [exact H|]. unfold covers; lia.
      - destruct (m_end y) as [|e]; [lia|]. apply filter_In. split; [exact H|]. unfold covers; lia. }
    destruct K as (x & Hx & K). exists x. split; [exact Hx|]. unfold mkey in K. congruence.
Qed.
Lemma sorted_lt_unique (l l' : list mt) : StronglySorted (fun a b => m_start a < m_start b) l ->
  StronglySorted (fun a b => mt_le a b = true) l' -> Permutation l l' -> l = l'.
Proof.
  intros H. revert l'. induction H as [|x l Hs IH Hx]; intros l' H' P.
  - apply Permutation_nil in P; subst; reflexivity.
  - destruct l' as [|y l']; [apply Permutation_sym, Permutation_nil_cons in P; destruct P|].
    inversion H' as [|? ? Hs' Hy]; subst. rewrite Forall_forall in Hx, Hy.
    assert (x = y).
    { assert (In x (y :: l')) as Hin by (eapply Permutation_in; [exact P|left; reflexivity]). destruct Hin as [E|Hin]; [auto|].
      assert (In y (x :: l)) as Hin' by (eapply Permutation_in; [symmetry; exact P|left; reflexivity]). destruct Hin' as [E|Hin']; [auto|].
      exfalso. specialize (Hx y Hin'). specialize (Hy x Hin). unfold mt_le in Hy. lia. }
    subst y. f_equal. apply IH; [exact Hs'|]. eapply Permutation_cons_inv; exact P.
Qed.
Lemma filter_sorted {A} (R : A -> A -> Prop) (p : A -> bool) l : StronglySorted R l -> StronglySorted R (filter p l).
Proof.
  induction 1 as [|x l Hs IH Hx]; cbn [filter]; [constructor|]. destruct (p x); [|exact IH]. constructor; [exact IH|].
  rewrite Forall_forall in *. intros y Hy. apply filter_In in Hy as [Hy _]. auto.
Qed.
Lemma sorted_NoDup (l : list mt) : StronglySorted (fun a b => m_start a < m_start b) l -> NoDup l.
Proof. induction 1 as [|x l Hs IH Hx]; constructor; [|exact IH]. rewrite Forall_forall in Hx. intros H. specialize (Hx x H). lia. Qed.
(** only separators, or text of other matches, between two positions *)
Definition adjacent (s : str) (ms : list mt) (a b : nat) : Prop :=
  forall j c, a <= j < b -> nth_error s j = Some c -> ~ covered ms j -> is_sep c = true.
(** [p] is the first one of the matches ending closest before [m], provided it is of one of the names *)
Definition just_before (ms : list mt) (m p : mt) : Prop :=
  In p ms /\ m_end p <= m_start m /\ forall y, In y ms -> m_end y <= m_start m -> m_end y <= m_end p.
Definition just_after (ms : list mt) (m a : mt) : Prop :=
  In a ms /\ m_start m < m_start a /\ forall y, In y ms -> m_start m < m_start y -> m_start a <= m_start y.
Lemma not_text s ms a b : nonempty ms -> inside s ms -> b <= List.length s -> negb (text_between s ms a b) = true <-> adjacent s ms a b.
Proof.
  intros Hn Hi Hb. pose proof (text_between_iff s ms a b Hn Hi Hb) as T. unfold adjacent. rewrite Bool.negb_true_iff. split.
  - intros E j c Hj Hc Hu. destruct (is_sep c) eqn:Es; [reflexivity|]. exfalso. assert (text_between s ms a b = true); [|congruence].
    apply T. exists j, c. auto.
  - intros H. destruct (text_between s ms a b); [|reflexivity]. destruct (proj1 T eq_refl) as (j & c & Hj & Hc & Hs & Hu).
    rewrite (H j c Hj Hc Hu) in Hs. discriminate.
Qed.
Lemma first_spec {A} (l : list A) : match first l with Some x => In x l | None => l = [] end.
Proof. destruct l; cbn; auto. Qed.

(** RemoveMatch: exactly the matches of [l] are dropped, the order of the others is kept *)
Lemma remove_keep l ms : distinct ms -> (forall m, In m l -> In m ms) ->
  exists keep, remove_all l ms = filter keep ms /\ forall y, In y ms -> (keep y = false <-> In y l).
Proof.
  intros Hd Hl. exists (fun x => negb (mmem x l)). split; [apply remove_all_filter; exact Hd|].
  intros y Hy. rewrite Bool.negb_false_iff. split; [|apply mmem_In].
  intros H. apply mmem_iff in H as (x & Hx & E). assert (x = y); [|subst; exact Hx]. apply (distinct_inj ms); auto.
Qed.
Lemma remove_filter p ms : distinct ms -> remove_all (filter p ms) ms = filter (fun m => negb (p m)) ms.
Proof.
  intros Hd. rewrite remove_all_filter by exact Hd. apply filter_ext_In. intros x Hx. f_equal.
  apply Bool.eq_iff_eq_true. rewrite mmem_iff. split.
  - intros (y & Hy & E). apply filter_In in Hy as [Hy Py]. replace x with y; [exact Py|]. apply (distinct_inj ms); auto.
  - intros Px. exists x. split; [apply filter_In; auto|reflexivity].
Qed.
(** [matches.conflicting] *)
Lemma conflict_fold ms k : forall l acc,
  (exists x, In x (fold_left (fun acc i => merge_new acc (at_index i ms)) l acc) /\ mkey x = k) <->
  (exists x, In x acc /\ mkey x = k) \/ (exists x i, In i l /\ In x ms /\ covers i x = true /\ mkey x = k).
Proof.
  induction l as [|i l IH]; intros acc; cbn [fold_left].
  - split; [auto|]. intros [H|(x & i & [] & _)]; exact H.
  - rewrite IH, merge_new_key. split.
    + intros [(x & [H|H] & E)|(x & j & H & H')].
      * left; exists x; auto.
      * right. apply filter_In in H as [H C]. exists x, i. cbn; auto.
      * right. exists x, j. cbn; tauto.
    + intros [(x & H & E)|(x & j & [->|H] & H1 & H2 & H3)].
      * left; exists x; auto.
      * left; exists x. split; [right; apply filter_In; auto|exact H3].
      * right. exists x, j. auto.
Qed.
Lemma conflict_sub ms x : forall l acc, In x (fold_left (fun acc i => merge_new acc (at_index i ms)) l acc) ->
  In x acc \/ In x ms.
Proof.
  induction l as [|i l IH]; intros acc; cbn [fold_left]; [auto|]. intros H. apply IH in H as [H|H]; [|auto].
  apply merge_new_sub in H as [H|H]; [auto|]. apply filter_In in H; tauto.
Qed.
Lemma rm_In m x : mkey x <> mkey m -> forall l,
  In x ((fix rm (l : list mt) := match l with [] => [] | x :: r => if mt_eqb m x then r else x :: rm r end) l) <-> In x l.
Proof.
  intros N. induction l as [|y r IH]; [reflexivity|]. destruct (mt_eqb m y) eqn:E.
  - split; [right; exact H|]. intros [->|H]; [|exact H]. apply mt_eqb_eq in E. congruence.
  - cbn [In]. rewrite IH. reflexivity.
Qed.
(** the matches sharing a position of the input with [m] *)
Definition overlapping (m x : mt) : Prop := exists i, m_start m <= i < m_end m /\ m_start x <= i < m_end x.
Lemma conflicting_In m ms p x : distinct ms -> p m = false -> In m ms ->
  In x (conflicting m ms p) <-> In x ms /\ p x = true /\ overlapping m x.
Proof.
  intros Hd Pm Hm. unfold conflicting. rewrite filter_In.
  set (all := fold_left _ _ _).
  assert (A : In x all <-> In x ms /\ overlapping m x).
  { split.
    - intros H. assert (Hx : In x ms) by (destruct (conflict_sub _ _ _ _ H) as [[]|]; auto). split; [exact Hx|].
      assert (K : exists y, In y all /\ mkey y = mkey x) by (exists x; auto). apply conflict_fold in K as [(y & [] & _)|(y & i & Hi & Hy & C & E)].
      apply in_seq in Hi. unfold covers in C. exists i. unfold mkey in E. injection E as E1 E2 _ _ _. lia.
    - intros [Hx (i & Hi & C)]. assert (K : exists y, In y all /\ mkey y = mkey x).
      { apply conflict_fold. right. exists x, i. split; [apply in_seq; lia|]. split; [exact Hx|]. unfold covers. split; [lia|reflexivity]. }
      destruct K as (y & Hy & E). replace x with y; [exact Hy|]. apply (distinct_inj ms); auto. destruct (conflict_sub _ _ _ _ Hy) as [[]|]; auto. }
  split.
  - intros [H Px]. assert (N : mkey x <> mkey m \/ mkey x = mkey m) by (destruct (mkey_eq_dec (mkey x) (mkey m)); auto).
    destruct N as [N|N].
    + rewrite rm_In in H by exact N. apply A in H. tauto.
    + exfalso. assert (In x ms).
      { assert (S : forall l, In x ((fix rm (l : list mt) := match l with [] => [] | x :: r => if mt_eqb m x then r else x :: rm r end) l) -> In x l).
        { induction l as [|y r IH]; [auto|]. destruct (mt_eqb m y); cbn [In]; [auto|]. intros [->|]; auto. }
        apply S in H. destruct (conflict_sub _ _ _ _ H) as [[]|]; auto. }
      assert (x = m) by (apply (distinct_inj ms); auto). congruence.
  - intros (Hx & Px & O). split; [|exact Px]. apply rm_In; [|apply A; auto].
    intros E. assert (x = m) by (apply (distinct_inj ms); auto). congruence.
Qed.
(** the first match of a range *)
Lemma range_first s ms a b p : inside s ms -> b <= List.length s ->
  match first (range s ms a b p) with
  | Some x => (In x ms /\ m_start x < b /\ a < m_end x /\ p x = true) /\
              forall y, In y ms -> m_start y < b -> a < m_end y -> p y = true -> mt_le x y = true
  | None => forall y, In y ms -> m_start y < b -> a < m_end y -> p y = false
  end.
Proof.
  intros Hi Hb. pose proof (fun x => range_In' s ms a b p x Hi Hb) as R.
  assert (S : StronglySorted (fun a b => mt_le a b = true) (range s ms a b p)) by (unfold range; apply filter_sorted, filter_sorted, msorted_sorted).
  destruct (range s ms a b p) as [|x l]; cbn [first hd_error].
  - intros y Hy H1 H2. destruct (p y) eqn:E; [|reflexivity]. exfalso. apply (proj2 (R y)). auto.
  - split; [apply R; left; reflexivity|]. intros y Hy H1 H2 H3. inversion S as [|? ? _ F]; subst. rewrite Forall_forall in F.
    destruct (proj2 (R y)) as [->|H]; auto. unfold mt_le; lia.
Qed.

(** groups of the pattern of a match *)
(** the group [n] of the match captured the text [t] *)
Definition captured (s : str) (m : mt) (n : string) (t : str) : Prop :=
  exists c, In c (m_children m) /\ c_name c = lit n /\ t = slice (c_start c) (c_end c) s.
Definition not_captured (m : mt) (n : string) : Prop := forall c, In c (m_children m) -> c_name c <> lit n.
Lemma map_inj {A B} (f : A -> B) l x y : NoDup (map f l) -> In x l -> In y l -> f x = f y -> x = y.
Proof.
  induction l as [|a l IH]; cbn [map In]; [tauto|]. intros ND Hx Hy E. inversion ND as [|? ? N ND']; subst.
  destruct Hx as [->|Hx], Hy as [->|Hy]; [reflexivity| | |apply IH; auto]; exfalso; apply N; [rewrite E|rewrite <- E]; apply in_map; assumption.
Qed.
Lemma child_text_spec s m n : NoDup (map c_name (m_children m)) ->
  match child_text s m (lit n) with
  | Some t => captured s m n t /\ forall t', captured s m n t' -> t' = t
  | None => not_captured m n
  end.
Proof.
  intros ND. unfold child_text. destruct (find _ _) as [c|] eqn:E.
  - apply find_some in E as [Hc E]. apply str_eqb_eq in E. split; [exists c; auto|].
    intros t' (c' & Hc' & E' & ->). replace c' with c; [reflexivity|]. apply (map_inj c_name (m_children m)); auto; congruence.
  - intros c Hc En. rewrite find_none in E. specialize (E c Hc). rewrite En, str_eqb_refl in E. discriminate.
Qed.
Lemma not_both s m n t : captured s m n t -> not_captured m n -> False.
Proof. intros (c & Hc & E & _) H. exact (H c Hc E). Qed.
Ltac nb := exfalso; match goal with H1 : captured ?s ?m ?n ?t, H2 : not_captured ?m ?n |- _ => exact (not_both s m n t H1 H2) end.

(** results *)
Lemma mapM_Ok {A B} (f : A -> res B) l ys : mapM f l = Ok ys -> Forall2 (fun x y => f x = Ok y) l ys.
Proof.
  revert ys. induction l as [|x l IH]; intros ys; cbn [mapM]; [intros E; injection E as <-; constructor|].
  destruct (f x) as [y|] eqn:E; cbn [bind]; [|discriminate]. destruct (mapM f l) as [ys'|]; cbn [bind]; [|discriminate].
  intros E'; injection E' as <-. constructor; auto.
Qed.
Lemma mapM_total {A B} (f : A -> res B) l : (forall x, In x l -> exists y, f x = Ok y) -> exists ys, mapM f l = Ok ys.
Proof.
  induction l as [|x l IH]; intros H; cbn [mapM]; [eexists; reflexivity|].
  destruct (H x (or_introl eq_refl)) as (y & ->). destruct IH as (ys & ->); [intros z Hz; apply H; right; exact Hz|]. cbn [bind]. eexists; reflexivity.
Qed.
Lemma mapM_fails {A B} (f : A -> res B) l x e : In x l -> f x = Err e -> exists e', mapM f l = Err e'.
Proof.
  induction l as [|y l IH]; cbn [mapM In]; [tauto|]. intros [->|H] E; [rewrite E; cbn [bind]; eexists; reflexivity|].
  destruct (f y); cbn [bind]; [|eexists; reflexivity]. destruct (IH H E) as (e' & ->). cbn [bind]. eexists; reflexivity.
Qed.
Lemma Forall2_In_l {A B} (R : A -> B -> Prop) l l' x : Forall2 R l l' -> In x l -> exists y, In y l' /\ R x y.
Proof. induction 1 as [|a b l l' H F IH]; cbn [In]; [tauto|]. intros [->|Hx]; [exists b; auto|]. destruct (IH Hx) as (y & Hy & Ry). exists y; auto. Qed.
Lemma Forall2_In_r {A B} (R : A -> B -> Prop) l l' y : Forall2 R l l' -> In y l' -> exists x, In x l /\ R x y.
Proof. induction 1 as [|a b l l' H F IH]; cbn [In]; [tauto|]. intros [->|Hx]; [exists a; auto|]. destruct (IH Hx) as (x & Hy & Ry). exists x; auto. Qed.
Lemma Forall2_impl_In {A B} (R R' : A -> B -> Prop) l l' : (forall x y, In x l -> R x y -> R' x y) -> Forall2 R l l' -> Forall2 R' l l'.
Proof. intros H F. induction F as [|a b l l' H1 F IH]; constructor; [apply H; [left; reflexivity|exact H1]|]. apply IH. intros x y Hx. apply H; right; exact Hx. Qed.
