(** Ranges of seasons and episodes (C36) *)
From Verif Require Import Py PyFacts Text TextFacts Sort Formatters Rebulk RebulkFacts RuleSpec Title TitleProofs TitleProps TitleMore EpisodeTitle EpisodeTitleProps HolesMore TitleConflictProps Episodes EpisodesProofs.
From Coq Require Import Arith ZifyBool Sorted Permutation.

(** the numbers of the property [n] in a list of matches *)
Definition values (n : str) (l : list mt) : list Z := map num (filter (has_name n) l).
(** the numbers of the property grow along the text *)
Definition increasing (n : str) (ms : list mt) : Prop :=
  forall x y, In x ms -> In y ms -> m_name x = n -> m_name y = n -> m_start x < m_start y -> (num x < num y)%Z.

(** ** stable sorting *)
Lemma insert_rel {A} (le : A -> A -> bool) (R : A -> A -> Prop) (trans : forall x y z, le x y = true -> le y z = true -> le x z = true) x : forall l,
  StronglySorted (Le le) l -> StronglySorted R l -> Forall (fun y => if le x y then R x y else R y x) l -> StronglySorted R (insert le x l).
Proof.
  induction l as [|y l IH]; intros S1 S2 F; cbn [insert]; [repeat constructor|].
  inversion S1 as [|? ? S1' F1]; subst. inversion S2 as [|? ? S2' F2]; subst. inversion F as [|? ? Fy F']; subst.
  destruct (le x y) eqn:E.
  - constructor; [exact S2|]. constructor; [exact Fy|]. apply Forall_forall. intros z Hz. rewrite Forall_forall in F', F1.
    specialize (F' z Hz). specialize (F1 z Hz). unfold Le in F1. rewrite (trans _ _ _ E F1) in F'. exact F'.
  - constructor; [apply IH; assumption|]. apply Forall_forall. intros z Hz. apply (Permutation_in _ (insert_perm le x l)) in Hz.
    destruct Hz as [<-|Hz]; [exact Fy|]. rewrite Forall_forall in F2. apply F2. exact Hz.
Qed.
Lemma isort_rel {A} (le : A -> A -> bool) (R : A -> A -> Prop) (total : forall x y, le x y = false -> le y x = true)
    (trans : forall x y z, le x y = true -> le y z = true -> le x z = true) : forall l,
  ForallOrdPairs (fun x y => if le x y then R x y else R y x) l -> StronglySorted R (isort le l).
Proof.
  induction l as [|x l IH]; intros F; cbn [isort]; [constructor|]. inversion F as [|? ? Fx F']; subst.
  apply insert_rel; [exact trans|apply isort_sorted; assumption|apply IH; exact F'|]. apply Forall_forall. intros y Hy.
  rewrite Forall_forall in Fx. apply Fx. apply (Permutation_in _ (isort_perm le l)). exact Hy.
Qed.
Lemma pairs_split {A} (Q : A -> A -> Prop) l : (forall u a v b w, l = u ++ a :: v ++ b :: w -> Q a b) -> ForallOrdPairs Q l.
Proof.
  induction l as [|x l IH]; intros H; constructor.
  - apply Forall_forall. intros y Hy. apply in_split in Hy as (v & w & ->). apply (H [] x v y w). reflexivity.
  - apply IH. intros u a v b w ->. apply (H (x :: u) a v b w). reflexivity.
Qed.
Lemma sorted_pair {A} (R : A -> A -> Prop) u a v b w : StronglySorted R (u ++ a :: v ++ b :: w) -> R a b.
Proof. intros S. apply sorted_suffix in S. inversion S as [|? ? _ F]; subst. rewrite Forall_forall in F. apply F. apply in_app_iff. right; left; reflexivity. Qed.
Lemma filter_mid {A} (p : A -> bool) u a v b w : p a = true -> p b = true -> filter p (u ++ a :: v ++ b :: w) = filter p u ++ a :: filter p v ++ b :: filter p w.
Proof. intros Ha Hb. rewrite filter_app. cbn [filter]. rewrite Ha, filter_app. cbn [filter]. rewrite Hb. reflexivity. Qed.

Section Results.
Variables (s : str) (ini : mt -> mt) (range_seps : list str) (n : str) (can_start : mt -> bool) (ms : list mt).
Hypothesis W : numbers_ok n ms.
Let res := apply_change (separator_range s ini range_seps n can_start ms) ms.
Let J := joined s ini range_seps n can_start ms.

(** at the place of a number: the numbers that the range leads to, in order, and the number itself *)
Theorem range_place x : In x ms -> m_name x = n ->
  exists ks, at_place n x res = map (with_number x) ks /\ StronglySorted Z.lt ks /\
    forall k, In k ks <-> k = num x \/ exists p, J p x /\ (num p < k < num x)%Z.
Proof.
  intros X1 X2. destruct (place_result s ini range_seps n can_start ms W x X1 X2) as [P1 P2]. unfold result, the_change in P1, P2. fold res in P1, P2.
  destruct (no_int _ _ W x X1 X2) as [k Ek]. assert (Hk : num x = k) by (unfold num; rewrite Ek; reflexivity).
  assert (Ex : with_number x (num x) = x) by (rewrite Hk; unfold with_number, set_value; destruct x; cbn in *; subst; reflexivity).
  destruct (joined_dec s ini range_seps n can_start ms W x X1 X2) as [[p Hp]|Hno].
  - exists (zrange (num p + 1) (num x) ++ [num x]). rewrite (P1 p Hp). unfold full, copies. rewrite map_app. cbn [map]. rewrite Ex. split; [reflexivity|]. split.
    + apply StronglySorted_app_one; [apply zrange_sorted|]. intros y Hy. apply zrange_In in Hy. lia.
    + intros j. rewrite in_app_iff, zrange_In. cbn [In]. split.
      * intros [H|[H|[]]]; [right; exists p; split; [exact Hp|lia]|left; symmetry; exact H].
      * intros [->|(q & Hq & H)]; [auto|]. rewrite (joined_unique s ini range_seps n can_start ms W q p x Hq Hp) in H. left; lia.
  - exists [num x]. rewrite (P2 Hno). cbn [map]. rewrite Ex. split; [reflexivity|]. split; [repeat constructor|]. intros j. cbn [In]. split; [intros [H|[]]; auto|].
    intros [->|(q & Hq & _)]; [auto|]. destruct (Hno q Hq).
Qed.
Lemma with_inj x k : num (with_number x k) = k.
Proof. reflexivity. Qed.
(** every number of the result is at the place of a number that was there *)
Lemma res_place m : In m res -> m_name m = n -> exists x, In x ms /\ m_name x = n /\ In m (at_place n x res).
Proof.
  intros H N. pose proof H as Hr. unfold res in H. apply (result_In s ini range_seps n can_start ms W) in H.
  assert (G : exists x, In x ms /\ m_name x = n /\ m_start m = m_start x /\ m_end m = m_end x).
  { destruct H as [H|[(p & x & k & H & -> & _)|(p & x & _ & ->)]].
    - exists m. auto.
    - apply (joined_next s ini range_seps n can_start ms W) in H as (_ & _ & X1 & X2 & _). exists x. auto.
    - exfalso. exact (sep_not_n n N). }
  destruct G as (x & X1 & X2 & A & B). exists x. split; [exact X1|]. split; [exact X2|]. unfold at_place. apply filter_In. split; [exact Hr|].
  unfold has_name. rewrite N, str_eqb_refl, A, B, !Nat.eqb_refl. reflexivity.
Qed.
(** the numbers found are the ones that were there and the ones inside the ranges *)
Theorem range_values k : In k (values n res) <->
  (exists x, In x ms /\ m_name x = n /\ k = num x) \/ (exists p x, J p x /\ (num p < k < num x)%Z).
Proof.
  unfold values. rewrite in_map_iff. split.
  - intros (m & <- & H). apply filter_In in H as [H N]. apply has_name_iff in N. destruct (res_place m H N) as (x & X1 & X2 & Hm).
    destruct (range_place x X1 X2) as (ks & E & _ & Hks). rewrite E in Hm. apply in_map_iff in Hm as (j & <- & Hj). apply Hks in Hj as [->|(p & Hp & Hj)].
    + left. exists x. auto.
    + right. exists p, x. auto.
  - intros H. assert (G : exists x ks, In x ms /\ m_name x = n /\ at_place n x res = map (with_number x) ks /\ In k ks).
    { destruct H as [(x & X1 & X2 & ->)|(p & x & Hp & Hk)].
      - destruct (range_place x X1 X2) as (ks & E & _ & Hks). exists x, ks. repeat split; auto. apply Hks. auto.
      - pose proof (joined_next s ini range_seps n can_start ms W p x Hp) as (_ & _ & X1 & X2 & _).
        destruct (range_place x X1 X2) as (ks & E & _ & Hks). exists x, ks. repeat split; auto. apply Hks. right. exists p. auto. }
    destruct G as (x & ks & X1 & X2 & E & Hk). exists (with_number x k). split; [reflexivity|].
    assert (Hm : In (with_number x k) (at_place n x res)) by (rewrite E; apply in_map; exact Hk). unfold at_place in Hm. apply filter_In in Hm as [Hm He].
    apply filter_In. split; [exact Hm|]. apply Bool.andb_true_iff in He. apply He.
Qed.
(** they come in order when the numbers of the text are in order *)
Theorem range_order : increasing n ms -> StronglySorted Z.lt (values n (msorted res)).
Proof.
  intros Inc.
  assert (S : StronglySorted (fun a b => m_name a = n -> m_name b = n -> (num a < num b)%Z) (msorted res)).
  { apply isort_rel; [intros; unfold mt_le in *; lia|intros; unfold mt_le in *; lia|]. apply pairs_split. intros u a v b w El.
    assert (Ha : In a res) by (rewrite El; apply in_app_iff; right; left; reflexivity).
    assert (Hb : In b res) by (rewrite El; apply in_app_iff; right; right; apply in_app_iff; right; left; reflexivity).
    assert (Core : m_name a = n -> m_name b = n -> if mt_le a b then (num a < num b)%Z else (num b < num a)%Z).
    { intros Na Nb. destruct (res_place a Ha Na) as (x & X1 & X2 & Pa). destruct (res_place b Hb Nb) as (y & Y1 & Y2 & Pb).
      destruct (range_place x X1 X2) as (ks & Ex & Sx & Kx). destruct (range_place y Y1 Y2) as (js & Ey & Sy & Ky).
      assert (Cross : forall c d z t, m_start z < m_start t -> In z ms -> In t ms -> m_name z = n -> m_name t = n ->
        (c = num z \/ exists p, J p z /\ (num p < c < num z)%Z) -> (d = num t \/ exists p, J p t /\ (num p < d < num t)%Z) -> (c < d)%Z).
      { intros c d z t L Z1 T1 Z2 T2 Hc Hd. assert (Hcz : (c <= num z)%Z) by (destruct Hc as [->|(p & _ & Hc)]; lia).
        destruct Hd as [->|(p & Hp & Hd)]; [specialize (Inc z t Z1 T1 Z2 T2 L); lia|].
        pose proof (joined_next s ini range_seps n can_start ms W p t Hp) as (P1 & P2 & _ & _ & Lp & Hno).
        destruct (Nat.lt_trichotomy (m_start z) (m_start p)) as [L2|[L2|L2]].
        - specialize (Inc z p Z1 P1 Z2 P2 L2). lia.
        - rewrite (number_inj ini n can_start ms W z p Z1 P1 Z2 P2 L2) in Hcz. lia.
        - exfalso. apply (Hno z Z1 Z2). lia. }
      assert (Sa : m_start a = m_start x /\ m_end a = m_end x) by (unfold at_place in Pa; apply filter_In in Pa; lia).
      assert (Sb : m_start b = m_start y /\ m_end b = m_end y) by (unfold at_place in Pb; apply filter_In in Pb; lia).
      assert (Ka : In (num a) ks) by (rewrite Ex in Pa; apply in_map_iff in Pa as (j & <- & Hj); exact Hj).
      assert (Kb : In (num b) js) by (rewrite Ey in Pb; apply in_map_iff in Pb as (j & <- & Hj); exact Hj).
      pose proof (no_nonempty _ _ W x X1) as Lx. pose proof (no_nonempty _ _ W y Y1) as Ly.
      destruct (no_apart _ _ W x y X1 Y1 X2 (or_introl Y2)) as [<-|[A|A]].
      - (* same place *)
        assert (mt_le a b = true) as -> by (unfold mt_le; lia).
        assert (Fl : at_place n x res = at_place n x u ++ a :: at_place n x v ++ b :: at_place n x w).
        { rewrite El. unfold at_place in *. apply filter_In in Pa as [_ Pa]. apply filter_In in Pb as [_ Pb]. apply filter_mid; assumption. }
        assert (Sn : StronglySorted (fun c d => (num c < num d)%Z) (at_place n x res)).
        { rewrite Ex. clear -Sx. induction Sx as [|j l S IH F]; cbn [map]; constructor; [exact IH|]. apply Forall_forall. intros c Hc. apply in_map_iff in Hc as (i & <- & Hi).
          rewrite Forall_forall in F. apply (F i Hi). }
        rewrite Fl in Sn. apply (sorted_pair _ _ _ _ _ _ Sn).
      - assert (mt_le a b = true) as -> by (unfold mt_le; lia). apply (Cross (num a) (num b) x y); auto; [lia|apply Kx; exact Ka|apply Ky; exact Kb].
      - assert (mt_le a b = false) as -> by (unfold mt_le; lia). apply (Cross (num b) (num a) y x); auto; [lia|apply Ky; exact Kb|apply Kx; exact Ka]. }
    destruct (mt_le a b); intros N1 N2; apply Core; assumption. }
  unfold values. induction S as [|a l S IH F]; cbn [filter map]; [constructor|]. destruct (has_name n a) eqn:Na; [|exact IH]. cbn [map]. constructor; [exact IH|].
  apply Forall_forall. intros k Hk. apply in_map_iff in Hk as (b & <- & Hb). apply filter_In in Hb as [Hb Nb]. rewrite Forall_forall in F. apply (F b Hb); apply has_name_iff; assumption.
Qed.
End Results.

(** ** ranges of the "see" pattern: Cap.102_104 *)
Definition see (n : str) (m : mt) : Prop := m_name m = n /\ In (lit "see-pattern") (m_tags m).
Definition see_name (m : mt) : Prop := m_name m = lit "episode" \/ m_name m = lit "season" \/ m_name m = lit "episodeSeparator".
(** [p], a separator, a season and [x] follow each other *)
Definition see_follow (ms : list mt) (p sep x : mt) : Prop :=
  In sep ms /\ see (lit "episodeSeparator") sep /\ just_before ms sep p /\ see (lit "episode") p /\
  exists sn, just_after ms sep sn /\ see (lit "season") sn /\ just_after ms sn x /\ see (lit "episode") x.
Definition see_pair (range_seps : list str) (ms : list mt) (p x : mt) : Prop :=
  exists sep t, see_follow ms p sep x /\ m_value sep = MvStr t /\ In t range_seps.
Record see_ok (ms : list mt) : Prop := {
  se_distinct : distinct ms;
  se_nonempty : nonempty ms;
  se_int : forall m, In m ms -> see (lit "episode") m -> exists k, m_value m = MvInt k;
  se_apart : forall x y, In x ms -> In y ms -> see_name x -> In (lit "see-pattern") (m_tags x) -> see_name y -> x = y \/ m_end x <= m_start y \/ m_end y <= m_start x
}.

Section See.
Variables (range_seps : list str) (ms : list mt).
Hypothesis W : see_ok ms.
Let res := SeePatternRange range_seps ms.

Lemma is_see_iff n m : is_see n m = true <-> see n m.
Proof. unfold is_see, see. rewrite Bool.andb_true_iff, has_name_iff, has_tag_iff. reflexivity. Qed.
Lemma see_sep m : In m (see_separators ms) <-> In m ms /\ see (lit "episodeSeparator") m.
Proof. unfold see_separators, tagged, see. rewrite !filter_In, has_name_iff, has_tag_iff. tauto. Qed.
Lemma first_prev sep n : match first (previous sep ms (is_see n)) with Some p => just_before ms sep p /\ see n p | None => forall p, just_before ms sep p -> ~ see n p end.
Proof.
  destruct (first (previous sep ms (is_see n))) as [p|] eqn:E.
  - apply hd_error_In in E. apply previous_In in E as (E1 & E2 & E3 & E4). apply is_see_iff in E1. split; [split; auto|exact E1].
  - intros p (P1 & P2 & P3) Np. assert (H : In p (previous sep ms (is_see n))) by (apply previous_In; apply is_see_iff in Np; auto).
    destruct (previous sep ms (is_see n)); [destruct H|discriminate].
Qed.
Lemma first_next sep n : match first (next sep ms (is_see n)) with Some p => just_after ms sep p /\ see n p | None => forall p, just_after ms sep p -> ~ see n p end.
Proof.
  assert (Wf : forall y, In y ms -> m_start y <= m_end y) by (intros y Hy; pose proof (se_nonempty _ W y Hy); lia).
  destruct (first (next sep ms (is_see n))) as [p|] eqn:E.
  - apply hd_error_In in E. apply next_In in E as (E1 & E2 & E3 & E4); [|exact Wf]. apply is_see_iff in E1. split; [split; auto|exact E1].
  - intros p (P1 & P2 & P3) Np. assert (H : In p (next sep ms (is_see n))) by (apply next_In; [exact Wf|]; apply is_see_iff in Np; auto).
    destruct (next sep ms (is_see n)); [destruct H|discriminate].
Qed.
Lemma see_start x y : In x ms -> In y ms -> see_name x -> In (lit "see-pattern") (m_tags x) -> see_name y -> m_start x = m_start y -> x = y.
Proof.
  intros X1 Y1 X2 X3 Y2 E. pose proof (se_nonempty _ W x X1). pose proof (se_nonempty _ W y Y1).
  destruct (se_apart _ W x y X1 Y1 X2 X3 Y2) as [->|[H1|H1]]; [reflexivity|lia|lia].
Qed.
Lemma see_end x y : In x ms -> In y ms -> see_name x -> In (lit "see-pattern") (m_tags x) -> see_name y -> m_end x = m_end y -> x = y.
Proof.
  intros X1 Y1 X2 X3 Y2 E. pose proof (se_nonempty _ W x X1). pose proof (se_nonempty _ W y Y1).
  destruct (se_apart _ W x y X1 Y1 X2 X3 Y2) as [->|[H1|H1]]; [reflexivity|lia|lia].
Qed.
Lemma see_is n m : see n m -> n = lit "episode" \/ n = lit "season" \/ n = lit "episodeSeparator" -> see_name m /\ In (lit "see-pattern") (m_tags m).
Proof. intros [A B] H. split; [|exact B]. unfold see_name. rewrite A. exact H. Qed.
Lemma after_unique m x y : see_name x -> In (lit "see-pattern") (m_tags x) -> see_name y -> just_after ms m x -> just_after ms m y -> x = y.
Proof. intros X2 X3 Y2 (X1 & A & B) (Y1 & C & D). apply see_start; auto. specialize (B y Y1 C). specialize (D x X1 A). lia. Qed.
Lemma before_unique m x y : see_name x -> In (lit "see-pattern") (m_tags x) -> see_name y -> just_before ms m x -> just_before ms m y -> x = y.
Proof. intros X2 X3 Y2 (X1 & A & B) (Y1 & C & D). apply see_end; auto. specialize (B y Y1 C). specialize (D x X1 A). lia. Qed.
(** what comes just before is found from what comes just after *)
Lemma after_inj m m' x : In m ms -> In m' ms -> see_name m -> In (lit "see-pattern") (m_tags m) -> see_name m' -> just_after ms m x -> just_after ms m' x -> m = m'.
Proof.
  intros M1 M1' M2 M3 M2' (X1 & A & B) (_ & C & D). pose proof (se_nonempty _ W m M1). pose proof (se_nonempty _ W m' M1').
  destruct (se_apart _ W m m' M1 M1' M2 M3 M2') as [->|[E|E]]; [reflexivity| |]; exfalso.
  - specialize (B m' M1' ltac:(lia)). lia.
  - specialize (D m M1 ltac:(lia)). lia.
Qed.
Lemma follow_unique p sep p' sep' x : see_follow ms p sep x -> see_follow ms p' sep' x -> p = p' /\ sep = sep'.
Proof.
  intros (S1 & S2 & S3 & S4 & sn & N1 & N2 & N3 & N4) (T1 & T2 & T3 & T4 & sn' & M1 & M2 & M3 & M4).
  apply see_is in S2 as [S2 S2']; [|auto]. apply see_is in T2 as [T2 T2']; [|auto]. apply see_is in S4 as [S4 S4']; [|auto]. apply see_is in T4 as [T4 T4']; [|auto].
  apply see_is in N2 as [N2 N2']; [|auto]. apply see_is in M2 as [M2 M2']; [|auto].
  assert (sn = sn') as <- by (apply (after_inj sn sn' x); auto; [apply N1|apply M1]).
  assert (sep = sep') as <- by (apply (after_inj sep sep' sn); auto). split; [|reflexivity]. apply (before_unique sep); auto.
Qed.
Lemma see_cases sep : In sep ms -> see (lit "episodeSeparator") sep ->
  (exists p x t, see_follow ms p sep x /\ m_value sep = MvStr t /\ In t range_seps /\ see_one range_seps ms sep = ([x; sep], copies x (num p + 1) (num x + 1))) \/
  ((see_one range_seps ms sep = ([sep], []) \/ (see_one range_seps ms sep = ([], []) /\ forall sn, just_after ms sep sn -> ~ see (lit "season") sn)) /\
   ~ exists p x t, see_follow ms p sep x /\ m_value sep = MvStr t /\ In t range_seps).
Proof.
  intros S1 S2. unfold see_one. pose proof (first_prev sep (lit "episode")) as Pv. pose proof (first_next sep (lit "season")) as Nx.
  destruct (first (next sep ms (is_see (lit "season")))) as [sn|].
  2:{ right. split; [right; split; [reflexivity|exact Nx]|]. intros (p & x & t & (_ & _ & _ & _ & sn & J & N & _) & _). exact (Nx sn J N). }
  destruct Nx as [N1 N2]. assert (m_truthy sn = true) as -> by (unfold m_truthy; apply Nat.ltb_lt; apply (se_nonempty _ W); apply N1).
  pose proof (first_next sn (lit "episode")) as Nx. apply see_is in N2 as N2'; [|auto].
  assert (Usn : forall sn', just_after ms sep sn' -> see (lit "season") sn' -> sn' = sn).
  { intros sn' A B. apply see_is in B as [B B']; [|auto]. symmetry. apply (after_unique sep sn sn'); tauto. }
  destruct (first (previous sep ms (is_see (lit "episode")))) as [p|]; [|right; split; [left; reflexivity|]; intros (p & x & t & (_ & _ & J & N & _) & _); exact (Pv p J N)].
  destruct (first (next sn ms (is_see (lit "episode")))) as [x|].
  2:{ right. split; [left; reflexivity|]. intros (q & x & t & (_ & _ & _ & _ & sn' & J & N & J' & N') & _). rewrite (Usn sn' J N) in J'. exact (Nx x J' N'). }
  destruct Pv as [P1 P2]. destruct Nx as [X1 X2]. 
  assert (m_truthy p = true) as -> by (unfold m_truthy; apply Nat.ltb_lt; apply (se_nonempty _ W); apply P1).
  assert (m_truthy x = true) as -> by (unfold m_truthy; apply Nat.ltb_lt; apply (se_nonempty _ W); apply X1).
  cbn [andb]. unfold value_in, val_text.
  destruct (m_value sep) as [z|t|q u|id|q] eqn:Ev; try (right; split; [left; reflexivity|]; intros (p0 & x0 & t0 & _ & E & _); discriminate).
  destruct (smem t range_seps) eqn:Et.
  - left. exists p, x, t. apply smem_In in Et. split; [|auto]. split; [exact S1|]. split; [exact S2|]. split; [exact P1|]. split; [exact P2|]. exists sn. auto.
  - right. split; [left; reflexivity|]. intros (p0 & x0 & t0 & _ & E & Ht). injection E as <-. apply smem_In in Ht. congruence.
Qed.
Definition see_change : change := joins (map (see_one range_seps ms) (see_separators ms)).
Lemma see_removed_in m : In m (fst see_change) -> In m ms.
Proof.
  unfold see_change. rewrite joins_eq; cbn [fst]. rewrite in_concat, map_map. intros (b & Hb & Hm). apply in_map_iff in Hb as (sep & <- & Hs). apply see_sep in Hs as [S1 S2].
  destruct (see_cases sep S1 S2) as [(p & x & t & F & _ & _ & E)|[[E|[E _]] _]]; rewrite E in Hm; cbn [fst In] in Hm.
  - destruct Hm as [<-|[<-|[]]]; [|exact S1]. destruct F as (_ & _ & _ & _ & sn & _ & _ & F & _). apply F.
  - destruct Hm as [<-|[]]. exact S1.
  - destruct Hm.
Qed.
Lemma see_removed m : In m ms -> m_name m = lit "episode" -> In m (fst see_change) <-> exists p, see_pair range_seps ms p m.
Proof.
  intros M1 M2. unfold see_change. rewrite joins_eq; cbn [fst]. rewrite in_concat, map_map. split.
  - intros (b & Hb & Hm). apply in_map_iff in Hb as (sep & <- & Hs). apply see_sep in Hs as [S1 S2].
    assert (Hne : sep <> m). { intros ->. destruct S2 as [S2 _]. rewrite M2 in S2. discriminate. }
    destruct (see_cases sep S1 S2) as [(p & x & t & F & E1 & E2 & E)|[[E|[E _]] _]]; rewrite E in Hm; cbn [fst In] in Hm.
    + destruct Hm as [->|[<-|[]]]; [|contradiction]. exists p, sep, t. auto.
    + destruct Hm as [<-|[]]. contradiction.
    + destruct Hm.
  - intros (p & sep & t & F & E1 & E2). exists (fst (see_one range_seps ms sep)). split; [apply in_map_iff; exists sep; split; [reflexivity|apply see_sep; split; apply F]|].
    destruct (see_cases sep ltac:(apply F) ltac:(apply F)) as [(p' & x & t' & F' & _ & _ & ->)|[_ N]]; [|exfalso; apply N; exists p, m, t; auto].
    cbn [fst In]. left. destruct F as (_ & _ & _ & _ & sn & J1 & J2 & J3 & J4), F' as (_ & _ & _ & _ & sn' & K1 & K2 & K3 & K4).
    apply see_is in J2 as [J2 J2']; [|auto]. apply see_is in K2 as [K2 K2']; [|auto]. apply see_is in J4 as [J4 J4']; [|auto]. apply see_is in K4 as [K4 K4']; [|auto].
    assert (sn = sn') as <- by (apply (after_unique sep); auto). apply (after_unique sn); auto.
Qed.
Theorem see_place x : In x ms -> see (lit "episode") x ->
  exists ks, at_place (lit "episode") x res = map (with_number x) ks /\ StronglySorted Z.lt ks /\
    forall k, In k ks <-> (exists p, see_pair range_seps ms p x /\ (num p < k <= num x)%Z) \/ (k = num x /\ forall p, ~ see_pair range_seps ms p x).
Proof.
  intros X1 X2. apply see_is in X2 as X3; [|auto]. destruct X3 as [X3 X4].
  destruct (se_int _ W x X1 X2) as [k0 Ek]. assert (Hk0 : num x = k0) by (unfold num; rewrite Ek; reflexivity).
  assert (Ex : with_number x (num x) = x) by (rewrite Hk0; unfold with_number, set_value; destruct x; cbn in *; subst; reflexivity).
  unfold res, SeePatternRange. fold see_change. unfold apply_change.
  assert (Eb : at_place (lit "episode") x (append_all (snd see_change) (remove_all (fst see_change) ms)) = append_all (at_place (lit "episode") x (snd see_change)) (at_place (lit "episode") x (remove_all (fst see_change) ms))).
  { apply append_filter. intros a b K. unfold mkey in K. unfold has_name. assert (m_start a = m_start b /\ m_end a = m_end b /\ m_name a = m_name b) as (-> & -> & ->) by (repeat split; congruence). reflexivity. }
  rewrite Eb. clear Eb.
  assert (Only : forall y, In y ms -> has_name (lit "episode") y && ((m_start y =? m_start x) && (m_end y =? m_end x)) = true -> y = x).
  { intros y Y1 E. apply Bool.andb_true_iff in E as [E1 E2]. apply has_name_iff in E1. symmetry. apply see_start; auto; [unfold see_name; auto|lia]. }
  assert (Sub : forall y, In y (remove_all (fst see_change) ms) <-> In y ms /\ ~ In y (fst see_change)) by (intros y; apply remove_all_In; [apply W|exact see_removed_in]).
  (* what is appended at the place *)
  assert (App : forall sep, In sep (see_separators ms) ->
    at_place (lit "episode") x (snd (see_one range_seps ms sep)) = [] \/
    exists p t, see_follow ms p sep x /\ m_value sep = MvStr t /\ In t range_seps /\ at_place (lit "episode") x (snd (see_one range_seps ms sep)) = copies x (num p + 1) (num x + 1)).
  { intros sep Hs. apply see_sep in Hs as [S1 S2]. destruct (see_cases sep S1 S2) as [(p & y & t & F & E1 & E2 & ->)|[[->|[-> _]] _]]; cbn [snd]; auto.
    assert (Y : In y ms /\ see (lit "episode") y) by (destruct F as (_ & _ & _ & _ & sn & _ & _ & F & F'); split; [apply F|exact F']). destruct Y as [Y1 Y2].
    destruct (Nat.eq_dec (m_start y) (m_start x)) as [E|E].
    - assert (y = x) as ->. { apply see_is in Y2 as [Y2 Y2']; [|auto]. apply see_start; auto. }
      right. exists p, t. repeat (split; [assumption|]). apply filter_id. intros m Hm. apply in_map_iff in Hm as (k & <- & _). unfold with_number, set_value, has_name. cbn [m_name m_start m_end].
      destruct X2 as [X2 _]. rewrite X2, str_eqb_refl, !Nat.eqb_refl. reflexivity.
    - left. apply filter_nil. intros m Hm. apply in_map_iff in Hm as (k & <- & _). unfold with_number, set_value. cbn [m_start m_end].
      rewrite (proj2 (Nat.eqb_neq _ _) E). rewrite Bool.andb_false_r. reflexivity. }
  assert (Esnd : at_place (lit "episode") x (snd see_change) = List.concat (map (fun sep => at_place (lit "episode") x (snd (see_one range_seps ms sep))) (see_separators ms))).
  { unfold see_change. rewrite joins_eq; cbn [snd]. unfold at_place at 1. rewrite filter_concat, !map_map. reflexivity. }
  rewrite Esnd.
  destruct (existsb (mt_eqb x) (fst see_change)) eqn:Er.
  - (* replaced *)
    assert (Hr : In x (fst see_change)).
    { apply existsb_exists in Er as (y & Hy & E). apply mt_eqb_eq in E. replace x with y; [exact Hy|]. apply (distinct_inj ms); [apply W|apply see_removed_in; exact Hy|exact X1|symmetry; exact E]. }
    assert (Hp := Hr). apply see_removed in Hp as [p Hp]; [|exact X1|apply X2]. destruct Hp as (sep & t & F & E1 & E2).
    assert (Eb : at_place (lit "episode") x (remove_all (fst see_change) ms) = []).
    { apply filter_nil. intros y Hy. apply Sub in Hy as [Y1 Y2]. destruct (has_name (lit "episode") y && ((m_start y =? m_start x) && (m_end y =? m_end x))) eqn:E; [|reflexivity].
      exfalso. apply Y2. rewrite (Only y Y1 E). exact Hr. }
    rewrite Eb. exists (zrange (num p + 1) (num x + 1)). split; [|split; [apply zrange_sorted|]].
    + set (f := copies x (num p + 1) (num x + 1)). change (map (with_number x) (zrange (num p + 1) (num x + 1))) with f.
      assert (D : distinct f).
      { unfold distinct, f, copies. rewrite map_map. apply FinFun.Injective_map_NoDup; [intros a b E; unfold mkey, with_number, set_value in E; cbn [m_value] in E; congruence|].
        pose proof (zrange_sorted (num p + 1) (num x + 1)) as S. clear -S. induction S as [|a l S IH G]; constructor; [|exact IH]. intros Ha. rewrite Forall_forall in G. specialize (G a Ha). lia. }
      assert (In f (map (fun sep => at_place (lit "episode") x (snd (see_one range_seps ms sep))) (see_separators ms)) /\
        forall b, In b (map (fun sep => at_place (lit "episode") x (snd (see_one range_seps ms sep))) (see_separators ms)) -> b = [] \/ b = f) as [I1 I2].
      { assert (U : forall p' sep', see_follow ms p' sep' x -> copies x (num p' + 1) (num x + 1) = f) by (intros p' sep' F'; destruct (follow_unique p' sep' p sep x F' F) as [-> _]; reflexivity).
        split.
        - apply in_map_iff. exists sep. assert (Hs : In sep (see_separators ms)) by (apply see_sep; split; apply F). split; [|exact Hs].
          destruct (see_cases sep ltac:(apply F) ltac:(apply F)) as [(p' & y & t' & F' & _ & _ & E)|[_ N]]; [|exfalso; apply N; exists p, x, t; auto].
          destruct (App sep Hs) as [E'|(p'' & t'' & F'' & _ & _ & E')]; [|rewrite E'; apply (U p'' sep F'')]. rewrite E'. rewrite E in E'. cbn [snd] in E'.
          assert (y = x) as ->.
          { destruct F as (_ & _ & _ & _ & sn & J1 & J2 & J3 & J4), F' as (_ & _ & _ & _ & sn' & K1 & K2 & K3 & K4).
            apply see_is in J2 as [J2 J2']; [|auto]. apply see_is in K2 as [K2 K2']; [|auto]. apply see_is in J4 as [J4 J4']; [|auto]. apply see_is in K4 as [K4 K4']; [|auto].
            assert (sn = sn') as <- by (apply (after_unique sep); auto). symmetry. apply (after_unique sn); auto. }
          rewrite (U p' sep F') in E'.
          assert (Fid : at_place (lit "episode") x f = f).
          { apply filter_id. intros m Hm. apply in_map_iff in Hm as (k & <- & _). unfold with_number, set_value, has_name. cbn [m_name m_start m_end].
            destruct X2 as [X2 _]. rewrite X2, str_eqb_refl, !Nat.eqb_refl. reflexivity. }
          rewrite Fid in E'. symmetry; exact E'.
        - intros b Hb. apply in_map_iff in Hb as (sep' & <- & Hs). destruct (App sep' Hs) as [E'|(p'' & t'' & F'' & _ & _ & E')]; [left; exact E'|right; rewrite E'; apply (U p'' sep' F'')]. }
      destruct (concat_first f _ I2 I1) as (rest & -> & Hrest). apply append_block; assumption.
    + intros k. rewrite zrange_In. split.
      * intros H. left. exists p. split; [exists sep, t; auto|lia].
      * intros [(p' & (sep' & t' & F' & _) & H)|[_ H]]; [|destruct (H p); exists sep, t; auto]. destruct (follow_unique p' sep' p sep x F' F) as [-> _]. lia.
  - assert (Hno : forall p, ~ see_pair range_seps ms p x).
    { intros p Hp. enough (existsb (mt_eqb x) (fst see_change) = true) by congruence. apply existsb_exists. exists x. split; [|apply mt_eqb_refl]. apply see_removed; [exact X1|apply X2|]. exists p; exact Hp. }
    rewrite concat_nil.
    2:{ intros b Hb. apply in_map_iff in Hb as (sep' & <- & Hs). destruct (App sep' Hs) as [E'|(p'' & t'' & F'' & E1 & E2 & E')]; [exact E'|]. destruct (Hno p''). exists sep', t''. auto. }
    cbn [append_all fold_left].
    assert (NR : ~ In x (fst see_change)).
    { intros H. apply see_removed in H as [p Hp]; [exact (Hno p Hp)|exact X1|apply X2]. }
    assert (Ep : at_place (lit "episode") x (remove_all (fst see_change) ms) = [x]).
    { rewrite remove_all_filter by apply W. unfold at_place. rewrite filter_filter.
      assert (Hp : forall y, In y (filter (fun m => has_name (lit "episode") m && ((m_start m =? m_start x) && (m_end m =? m_end x)) && negb (mmem m (fst see_change))) ms) <-> y = x).
      { intros y. rewrite filter_In. split.
        - intros [Y1 E]. apply Bool.andb_true_iff in E as [E _]. apply Only; assumption.
        - intros ->. split; [exact X1|]. destruct X2 as [X2 _]. unfold has_name. rewrite X2, str_eqb_refl, !Nat.eqb_refl. cbn [andb].
          destruct (mmem x (fst see_change)) eqn:Em; [|reflexivity]. apply mmem_iff in Em as (y & Hy & Ky). exfalso. apply NR. replace x with y; [exact Hy|]. apply (distinct_inj ms); auto; [apply W|apply see_removed_in; exact Hy]. }
      match goal with |- filter ?f ms = _ => assert (ND : NoDup (filter f ms)) by (apply NoDup_filter; apply distinct_NoDup; apply W); assert (Hq : forall y, In y (filter f ms) <-> y = x) end.
      { intros y. rewrite <- Hp, !filter_In. split; intros [A B]; (split; [exact A|]); revert B; rewrite !Bool.andb_true_iff; tauto. }
      clear Hp. destruct (filter _ ms) as [|a [|b r]].
      - destruct (proj2 (Hq x) eq_refl).
      - f_equal. apply Hq. left; reflexivity.
      - exfalso. inversion ND as [|? ? Ha _]; subst. apply Ha. rewrite (proj1 (Hq a) (or_introl eq_refl)), <- (proj1 (Hq b) (or_intror (or_introl eq_refl))). left; reflexivity. }
    exists [num x]. cbn [map]. rewrite Ex. split; [exact Ep|]. split; [repeat constructor|]. intros k. cbn [In]. split.
    + intros [<-|[]]. right. auto.
    + intros [(p & Hp & _)|[-> _]]; [destruct (Hno p Hp)|auto].
Qed.
End See.

(** ** C36 *)
(** the numbers after the rule are those that were there and those strictly inside a range *)
Theorem C36_episodes s ini range_seps ms k : numbers_ok (lit "episode") ms ->
  let strong := fun m => negb (has_tag (lit "weak-episode") m) in
  In k (values (lit "episode") (EpisodeNumberSeparatorRange s ini range_seps ms)) <->
  (exists x, In x ms /\ m_name x = lit "episode" /\ k = num x) \/
  (exists p x, joined s ini range_seps (lit "episode") strong ms p x /\ (num p < k < num x)%Z).
Proof. intros W strong. apply range_values. exact W. Qed.
Theorem C36_seasons s ini range_seps ms k : numbers_ok (lit "season") ms ->
  In k (values (lit "season") (SeasonSeparatorRange s ini range_seps ms)) <->
  (exists x, In x ms /\ m_name x = lit "season" /\ k = num x) \/
  (exists p x, joined s ini range_seps (lit "season") (fun _ => true) ms p x /\ (num p < k < num x)%Z).
Proof. intros W. apply range_values. exact W. Qed.
(** when the numbers of the text grow, the numbers found are listed in order and each once *)
Theorem C36_order s ini range_seps ms :
  (numbers_ok (lit "episode") ms -> increasing (lit "episode") ms ->
     StronglySorted Z.lt (values (lit "episode") (msorted (EpisodeNumberSeparatorRange s ini range_seps ms)))) /\
  (numbers_ok (lit "season") ms -> increasing (lit "season") ms ->
     StronglySorted Z.lt (values (lit "season") (msorted (SeasonSeparatorRange s ini range_seps ms)))).
Proof. split; intros W I; apply range_order; assumption. Qed.
(** whatever the order of the text, the numbers of a place are in order and each there once *)
Theorem C36_place s ini range_seps ms x : numbers_ok (lit "episode") ms -> In x ms -> m_name x = lit "episode" ->
  exists ks, at_place (lit "episode") x (EpisodeNumberSeparatorRange s ini range_seps ms) = map (with_number x) ks /\ StronglySorted Z.lt ks /\
    forall k, In k ks <-> k = num x \/
      exists p, joined s ini range_seps (lit "episode") (fun m => negb (has_tag (lit "weak-episode") m)) ms p x /\ (num p < k < num x)%Z.
Proof. intros W X1 X2. apply range_place; assumption. Qed.
(** no separator stays but the private ones that mark a range between two patterns, and other matches are left as they are *)
Theorem C36_rest s ini range_seps ms m : numbers_ok (lit "episode") ms ->
  (m_name m = lit "episodeSeparator" -> In m (EpisodeNumberSeparatorRange s ini range_seps ms) ->
     m_private m = true /\ exists p x, by_text s ini range_seps (lit "episode") (fun m => negb (has_tag (lit "weak-episode") m)) ms p x /\ m_start m = m_end p /\ m_end m = m_start x - 1) /\
  (m_name m <> lit "episode" -> m_name m <> lit "episodeSeparator" -> In m (EpisodeNumberSeparatorRange s ini range_seps ms) <-> In m ms).
Proof.
  intros W. split.
  - intros N H. destruct (result_separator s ini range_seps (lit "episode") (fun m => negb (has_tag (lit "weak-episode") m)) ms W m N H) as (p & x & B & ->).
    split; [reflexivity|]. exists p, x. auto.
  - intros N1 N2. apply result_other; assumption.
Qed.
(** Cap.102_104: the numbers of the end are those after the first number up to its own *)
Theorem C36_see range_seps ms x : see_ok ms -> In x ms -> see (lit "episode") x ->
  exists ks, at_place (lit "episode") x (SeePatternRange range_seps ms) = map (with_number x) ks /\ StronglySorted Z.lt ks /\
    forall k, In k ks <-> (exists p, see_pair range_seps ms p x /\ (num p < k <= num x)%Z) \/ (k = num x /\ forall p, ~ see_pair range_seps ms p x).
Proof. intros W. apply see_place; exact W. Qed.

(** *** examples *)
Definition dash_seps : list str := [lit "-"; lit "~"; lit "to"; lit "a"].
Definition e36a : mt := simple 1 3 (lit "episode") (MvInt 1) [].
Definition e36b : mt := simple 5 7 (lit "episode") (MvInt 4) [].
(** E01-E04: each number is the child of its own pattern *)
Definition ini36 (m : mt) : mt := simple (m_start m - 1) (m_end m) (lit "parent") (MvStr []) [].
Lemma ok36 : numbers_ok (lit "episode") [e36a; e36b].
Proof.
  constructor.
  - repeat constructor; cbn; intuition discriminate.
  - intros m [<-|[<-|[]]]; cbn; lia.
  - intros m [<-|[<-|[]]] _; [exists 1%Z|exists 4%Z]; reflexivity.
  - intros x y [<-|[<-|[]]] [<-|[<-|[]]] _ _; cbn; auto; lia.
Qed.
Example C36_ex : values (lit "episode") (msorted (EpisodeNumberSeparatorRange (lit "E01-E04") ini36 dash_seps [e36a; e36b])) = [1; 2; 3; 4]%Z.
Proof. vm_compute. reflexivity. Qed.
Example C36_ex_inc : increasing (lit "episode") [e36a; e36b].
Proof. intros x y [<-|[<-|[]]] [<-|[<-|[]]] _ _ H; cbn in *; lia. Qed.
Example C36_ex_joined : joined (lit "E01-E04") ini36 dash_seps (lit "episode") (fun m => negb (has_tag (lit "weak-episode") m)) [e36a; e36b] e36a e36b.
Proof.
  right. split; [|split].
  - split; [left; reflexivity|]. split; [reflexivity|]. split; [right; left; reflexivity|]. split; [reflexivity|]. split; [cbn; lia|]. intros y [<-|[<-|[]]] _; cbn; lia.
  - exists e36a. split; [left; reflexivity|]. split; [reflexivity|]. split; [reflexivity|lia].
  - left. vm_compute. auto.
Qed.
(** 1x02-05: the separator is a match *)
Definition e36c : mt := simple 2 4 (lit "episode") (MvInt 2) [].
Definition e36d : mt := simple 4 5 (lit "episodeSeparator") (MvStr (lit "-")) [].
Definition e36e : mt := simple 5 7 (lit "episode") (MvInt 5) [].
Example C36_ex_match : values (lit "episode") (msorted (EpisodeNumberSeparatorRange (lit "1x02-05") (fun m => simple 0 7 [] (MvStr []) []) dash_seps [e36c; e36d; e36e])) = [2; 3; 4; 5]%Z /\
  by_match dash_seps (lit "episode") [e36c; e36d; e36e] e36c e36e.
Proof.
  split; [vm_compute; reflexivity|]. exists e36d, (lit "-"). split; [right; left; reflexivity|]. split; [reflexivity|]. split; [reflexivity|]. split; [left; reflexivity|].
  split; [|split; [reflexivity|split; [|reflexivity]]].
  - split; [left; reflexivity|]. split; [cbn; lia|]. intros y [<-|[<-|[<-|[]]]]; cbn; lia.
  - split; [right; right; left; reflexivity|]. split; [cbn; lia|]. intros y [<-|[<-|[<-|[]]]]; cbn; lia.
Qed.
Example C36_ex_see : let tag := [lit "see-pattern"] in
  values (lit "episode") (msorted (SeePatternRange (dash_seps ++ [lit "_"])
    [simple 4 5 (lit "season") (MvInt 1) tag; simple 5 7 (lit "episode") (MvInt 2) tag; simple 7 8 (lit "episodeSeparator") (MvStr (lit "_")) tag;
     simple 8 9 (lit "season") (MvInt 1) tag; simple 9 11 (lit "episode") (MvInt 4) tag])) = [2; 3; 4]%Z.
Proof. vm_compute. reflexivity. Qed.

(** *** limits *)
(** separators around a dash stop the range: E01 - E04 gives 1 and 4 only, as the whole text between the patterns is removed *)
Theorem C36_spaced_limit : exists s ini ms, numbers_ok (lit "episode") ms /\
  values (lit "episode") (msorted (EpisodeNumberSeparatorRange s ini dash_seps ms)) = [1; 4]%Z /\ s = lit "E01 - E04".
Proof.
  exists (lit "E01 - E04"), ini36, [e36a; simple 7 9 (lit "episode") (MvInt 4) []]. split; [|split; [vm_compute; reflexivity|reflexivity]]. constructor.
  - repeat constructor; cbn; intuition discriminate.
  - intros m [<-|[<-|[]]]; cbn; lia.
  - intros m [<-|[<-|[]]] _; [exists 1%Z|exists 4%Z]; reflexivity.
  - intros x y [<-|[<-|[]]] [<-|[<-|[]]] _ _; cbn; auto; lia.
Qed.
(** the greatest length of a range in a chain does not bound a range between two patterns: a short text gives as many matches as its
    second number says *)
Theorem C36_unbounded N : exists ini ms, numbers_ok (lit "episode") ms /\ List.length ms = 2 /\
  forall k, (1 <= k <= Z.of_nat N + 2)%Z -> In k (values (lit "episode") (EpisodeNumberSeparatorRange (lit "E01-E04") ini dash_seps ms)).
Proof.
  exists ini36, [e36a; with_number e36b (Z.of_nat N + 2)]. set (b := with_number e36b (Z.of_nat N + 2)).
  assert (W : numbers_ok (lit "episode") [e36a; b]).
  { constructor.
    - unfold distinct. cbn [map]. constructor; [intros [E|[]]; discriminate|repeat constructor; intros []].
    - intros m [<-|[<-|[]]]; cbn; lia.
    - intros m [<-|[<-|[]]] _; [exists 1%Z; reflexivity|exists (Z.of_nat N + 2)%Z; reflexivity].
    - intros x y [<-|[<-|[]]] [<-|[<-|[]]] _ _; cbn; auto; lia. }
  split; [exact W|]. split; [reflexivity|]. intros k Hk. apply (C36_episodes (lit "E01-E04") ini36 dash_seps [e36a; b] k W).
  destruct (Z.eq_dec k 1) as [->|H1]; [left; exists e36a; split; [left; reflexivity|split; reflexivity]|].
  destruct (Z.eq_dec k (Z.of_nat N + 2)) as [->|H2]; [left; exists b; split; [right; left; reflexivity|split; reflexivity]|].
  right. exists e36a, b. split; [|cbn; lia]. right. split; [|split].
  - split; [left; reflexivity|]. split; [reflexivity|]. split; [right; left; reflexivity|]. split; [reflexivity|]. split; [cbn; lia|]. intros y [<-|[<-|[]]] _; cbn; lia.
  - exists e36a. split; [left; reflexivity|]. split; [reflexivity|]. split; [reflexivity|lia].
  - left. vm_compute. auto.
Qed.
Print Assumptions C36_episodes.
Print Assumptions C36_seasons.
Print Assumptions C36_order.
Print Assumptions C36_place.
Print Assumptions C36_rest.
Print Assumptions C36_see.
Print Assumptions C36_spaced_limit.
Print Assumptions C36_unbounded.
