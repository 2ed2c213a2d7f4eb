(** Ranges of seasons and episodes: specification and proofs (C36) *)
From Verif Require Import Py PyFacts Text TextFacts Sort Formatters Rebulk RebulkFacts RuleSpec Title TitleProofs TitleProps TitleMore EpisodeTitle EpisodeTitleProps TitleConflictProps Episodes.
From Coq Require Import Arith ZifyBool Sorted Permutation.

(** ** specification *)
Definition sepname (n : str) : str := n ++ lit "Separator".
(** [x] is the next number after [p] in the order of the text *)
Definition next_number (n : str) (ms : list mt) (p x : mt) : Prop :=
  In p ms /\ m_name p = n /\ In x ms /\ m_name x = n /\ m_start p < m_start x /\
  forall y, In y ms -> m_name y = n -> ~ (m_start p < m_start y < m_start x).
(** a range separator was matched between the two numbers, with nothing else matched between *)
Definition by_match (range_seps : list str) (n : str) (ms : list mt) (p x : mt) : Prop :=
  exists sep t, In sep ms /\ m_name sep = sepname n /\ m_value sep = MvStr t /\ In t range_seps /\
  just_before ms sep p /\ m_name p = n /\ just_after ms sep x /\ m_name x = n.
(** the text between the two patterns is a range separator, maybe with separators around it; a number that may start a range
    is at [p] or before *)
Definition by_text (s : str) (ini : mt -> mt) (range_seps : list str) (n : str) (can_start : mt -> bool) (ms : list mt) (p x : mt) : Prop :=
  next_number n ms p x /\ (exists z, In z ms /\ m_name z = n /\ can_start z = true /\ m_start z <= m_start p) /\
  let t := slice (m_end (ini p)) (m_start (ini x)) s in
  In t range_seps \/ In (strip is_sep t) range_seps.
Definition joined (s : str) (ini : mt -> mt) (range_seps : list str) (n : str) (can_start : mt -> bool) (ms : list mt) (p x : mt) : Prop :=
  by_match range_seps n ms p x \/ by_text s ini range_seps n can_start ms p x.
(** a store where numbers and separators of the property are apart, and numbers are integers *)
Record numbers_ok (n : str) (ms : list mt) : Prop := {
  no_distinct : distinct ms;
  no_nonempty : nonempty ms;
  no_int : forall m, In m ms -> m_name m = n -> exists k, m_value m = MvInt k;
  no_apart : forall x y, In x ms -> In y ms -> m_name x = n -> m_name y = n \/ m_name y = sepname n -> x = y \/ m_end x <= m_start y \/ m_end y <= m_start x
}.
(** the matches of the property at the place of [x], in order *)
Definition at_place (n : str) (x : mt) (l : list mt) : list mt := filter (fun m => has_name n m && ((m_start m =? m_start x) && (m_end m =? m_end x))) l.

(** ** lists of changes *)
Lemma joins_eq l : joins l = (List.concat (map fst l), List.concat (map snd l)).
Proof.
  unfold joins. assert (G : forall l a, fold_left join l a = (fst a ++ List.concat (map fst l), snd a ++ List.concat (map snd l))).
  { clear l. induction l as [|x l IH]; intros a; cbn [fold_left map List.concat]; [rewrite !app_nil_r; destruct a; reflexivity|].
    rewrite IH. unfold join; cbn [fst snd]. rewrite !app_assoc. reflexivity. }
  rewrite G. reflexivity.
Qed.
Lemma append_merge A base : append_all A base = merge_new base A.
Proof. reflexivity. Qed.
Lemma append_filter p A base : (forall x y, mkey x = mkey y -> p x = p y) -> filter p (append_all A base) = append_all (filter p A) (filter p base).
Proof. intros H. rewrite !append_merge. apply merge_new_filter. exact H. Qed.
Lemma append_old A : forall base m, In m base -> In m (append_all A base).
Proof.
  unfold append_all. induction A as [|a A IH]; intros base m H; cbn [fold_left]; [exact H|]. apply IH. destruct (mmem a base); [exact H|]. apply in_app_iff. left; exact H.
Qed.
Lemma append_all_cat A B base : append_all (A ++ B) base = append_all B (append_all A base).
Proof. unfold append_all. apply fold_left_app. Qed.
Lemma append_all_old A base : (forall x, In x A -> exists y, In y base /\ mkey y = mkey x) -> append_all A base = base.
Proof.
  unfold append_all. induction A as [|a A IH]; intros H; cbn [fold_left]; [reflexivity|].
  rewrite (proj2 (mmem_iff a base)) by (apply H; left; reflexivity). apply IH. intros x Hx. apply H. right; exact Hx.
Qed.
Lemma filter_concat {A} (p : A -> bool) (l : list (list A)) : filter p (List.concat l) = List.concat (map (filter p) l).
Proof. induction l as [|x l IH]; cbn [List.concat map]; [reflexivity|]. rewrite filter_app, IH. reflexivity. Qed.

Lemma zrange_In a b k : In k (zrange a b) <-> (a <= k < b)%Z.
Proof.
  unfold zrange. rewrite in_map_iff. split.
  - intros (i & <- & Hi). apply in_seq in Hi. lia.
  - intros H. exists (Z.to_nat (k - a)). split; [lia|]. apply in_seq. lia.
Qed.
Lemma zrange_sorted a b : StronglySorted Z.lt (zrange a b).
Proof.
  unfold zrange. generalize (Z.to_nat (b - a)) as m. intros m. generalize 0 as i. induction m as [|m IH]; intros i; cbn [seq map]; constructor; [apply IH|].
  apply Forall_forall. intros k Hk. apply in_map_iff in Hk as (j & <- & Hj). apply in_seq in Hj. lia.
Qed.

(** ** the pairs of neighbours *)
Fixpoint chain (p : mt) (l : list mt) : list (mt * mt) := match l with [] => [] | x :: r => (p, x) :: chain x r end.
Fixpoint started (can_start : mt -> bool) (l : list mt) : list mt := match l with [] => [] | x :: r => if can_start x then l else started can_start r end.
Definition neighbours (can_start : mt -> bool) (l : list mt) : list (mt * mt) := match started can_start l with [] => [] | a :: r => chain a r end.
Lemma pairs_chain s ini rs n cs : forall l p, pairs s ini rs n cs (Some p) l = map (fun q => pair_one s ini rs n (fst q) (snd q)) (chain p l).
Proof. induction l as [|x l IH]; intros p; cbn [pairs chain map fst snd]; [reflexivity|]. rewrite IH. reflexivity. Qed.
Lemma pairs_neighbours s ini rs n cs l : pairs s ini rs n cs None l = map (fun q => pair_one s ini rs n (fst q) (snd q)) (neighbours cs l).
Proof.
  unfold neighbours. induction l as [|x l IH]; cbn [pairs started]; [reflexivity|]. destruct (cs x); [apply pairs_chain|exact IH].
Qed.
Lemma chain_In p x : forall l a, In (p, x) (chain a l) <-> exists u v, a :: l = u ++ p :: x :: v.
Proof.
  induction l as [|y l IH]; intros a; cbn [chain In].
  - split; [intros []|]. intros (u & v & E). destruct u as [|? [|? ?]]; discriminate.
  - rewrite IH. split.
    + intros [E|(u & v & E)]; [injection E as <- <-; exists [], l; reflexivity|]. exists (a :: u), v. rewrite E. reflexivity.
    + intros (u & v & E). destruct u as [|b u]; cbn [app] in E; [injection E as <- <- _; left; reflexivity|]. injection E as _ E. right. exists u, v. exact E.
Qed.
Lemma chain_seconds : forall l a, map snd (chain a l) = l.
Proof. induction l as [|x l IH]; intros a; cbn [chain map snd]; [reflexivity|]. f_equal. apply IH. Qed.
Lemma started_spec cs l : exists u, l = u ++ started cs l /\ (forall y, In y u -> cs y = false) /\ match started cs l with [] => True | a :: _ => cs a = true end.
Proof.
  induction l as [|x l (u & E & Hu & Ha)]; cbn [started]; [exists []; repeat split; intros y []|]. destruct (cs x) eqn:Ec.
  - exists []. repeat split; auto. intros y [].
  - exists (x :: u). rewrite E at 1. split; [reflexivity|]. split; [|exact Ha]. intros y [<-|Hy]; auto.
Qed.

(** strictly sorted lists *)
Definition start_lt (a b : mt) : Prop := m_start a < m_start b.
Lemma sorted_app_lt u v : StronglySorted start_lt (u ++ v) -> forall a b, In a u -> In b v -> start_lt a b.
Proof.
  induction u as [|x u IH]; cbn [app]; intros S a b Ha Hb; [destruct Ha|]. inversion S as [|? ? S' F]; subst. destruct Ha as [<-|Ha]; [|apply IH; assumption].
  rewrite Forall_forall in F. apply F. apply in_app_iff. right; exact Hb.
Qed.
Lemma sorted_suffix {A} (R : A -> A -> Prop) u v : StronglySorted R (u ++ v) -> StronglySorted R v.
Proof. induction u as [|x u IH]; cbn [app]; intros S; [exact S|]. inversion S; subst. apply IH. assumption. Qed.

Section Ranges.
Variables (s : str) (ini : mt -> mt) (range_seps : list str) (n : str) (can_start : mt -> bool) (ms : list mt).
Hypothesis W : numbers_ok n ms.

Lemma sep_not_n : sepname n <> n.
Proof. unfold sepname. intros E. apply (f_equal (@List.length N)) in E. rewrite app_length in E. cbn in E. lia. Qed.
Lemma numbers_sorted : StronglySorted start_lt (by_start (named n ms)).
Proof.
  pose proof (isort_sorted (fun a b => m_start a <=? m_start b) ltac:(cbv beta; intros; lia) ltac:(cbv beta; intros; lia) (named n ms)) as S. fold (by_start (named n ms)) in S.
  assert (P : Permutation (by_start (named n ms)) (named n ms)) by apply isort_perm.
  assert (ND : NoDup (by_start (named n ms))).
  { apply (Permutation_NoDup (Permutation_sym P)). apply NoDup_filter. apply distinct_NoDup. apply W. }
  assert (In' : forall x, In x (by_start (named n ms)) -> In x ms /\ m_name x = n).
  { intros x Hx. apply (Permutation_in _ P) in Hx. apply named_In in Hx. exact Hx. }
  clear P. induction S as [|x l S IH F]; [constructor|]. inversion ND as [|? ? Hx ND']; subst.
  constructor; [apply IH; [exact ND'|intros y Hy; apply In'; right; exact Hy]|].
  apply Forall_forall. intros y Hy. rewrite Forall_forall in F. specialize (F y Hy). unfold Le in F. apply Nat.leb_le in F. unfold start_lt.
  destruct (In' x (or_introl eq_refl)) as [X1 X2]. destruct (In' y (or_intror Hy)) as [Y1 Y2].
  pose proof (no_nonempty _ _ W x X1). pose proof (no_nonempty _ _ W y Y1).
  destruct (no_apart _ _ W x y X1 Y1 X2 (or_introl Y2)) as [->|[H1|H1]]; [contradiction|lia|lia].
Qed.
Lemma numbers_In x : In x (by_start (named n ms)) <-> In x ms /\ m_name x = n.
Proof.
  rewrite <- named_In. split; apply Permutation_in; [|apply Permutation_sym]; apply isort_perm.
Qed.
Lemma neighbours_iff p x : In (p, x) (neighbours can_start (by_start (named n ms))) <->
  next_number n ms p x /\ exists z, In z ms /\ m_name z = n /\ can_start z = true /\ m_start z <= m_start p.
Proof.
  unfold neighbours. pose proof numbers_sorted as S. set (l := by_start (named n ms)) in *.
  assert (Il : forall y, In y l <-> In y ms /\ m_name y = n) by exact numbers_In. clearbody l.
  destruct (started_spec can_start l) as (u0 & El & Hu0 & Ha).
  destruct (started can_start l) as [|a r] eqn:Est.
  - split; [intros []|]. intros (_ & z & Z1 & Z2 & Z3 & _). assert (Hz : In z l) by (apply Il; auto). rewrite El, app_nil_r in Hz. rewrite (Hu0 z Hz) in Z3. discriminate.
  - assert (Ia : In a l) by (rewrite El; apply in_app_iff; right; left; reflexivity). rewrite chain_In. split.
    + intros (u & v & E). assert (E2 : l = (u0 ++ u) ++ p :: x :: v) by (rewrite El, E, app_assoc; reflexivity).
      assert (Ip : In p l) by (rewrite E2; apply in_app_iff; right; left; reflexivity). assert (Ix : In x l) by (rewrite E2; apply in_app_iff; right; right; left; reflexivity).
      assert (Lpx : start_lt p x).
      { rewrite E2 in S. apply sorted_suffix in S. inversion S as [|? ? _ F]; subst. rewrite Forall_forall in F. apply F. left; reflexivity. }
      split.
      * apply Il in Ip as [P1 P2]. apply Il in Ix as [X1 X2]. repeat (split; [assumption|]). intros y Y1 Y2 Hy. assert (Hyl : In y l) by (apply Il; auto).
        rewrite E2 in Hyl, S. change (p :: x :: v) with ([p] ++ x :: v) in Hyl, S. rewrite app_assoc in Hyl, S. unfold start_lt in *.
        apply in_app_iff in Hyl as [Hyl|Hyl].
        -- apply in_app_iff in Hyl as [Hyl|[<-|[]]]; [|lia]. rewrite <- app_assoc in S. pose proof (sorted_app_lt _ _ S y p Hyl (or_introl eq_refl)). unfold start_lt in *. lia.
        -- destruct Hyl as [<-|Hyl]; [lia|]. apply sorted_suffix in S. inversion S as [|? ? _ F]; subst. rewrite Forall_forall in F. specialize (F y Hyl). unfold start_lt in F. lia.
      * exists a. apply Il in Ia as [A1 A2]. repeat (split; [assumption|]). destruct u as [|b u]; cbn [app] in E; injection E as <- E; [lia|].
        rewrite El in S. apply sorted_suffix in S. inversion S as [|? ? _ F]. rewrite Forall_forall in F. assert (start_lt a p); [|unfold start_lt in *; lia].
        apply F. rewrite E. apply in_app_iff. right; left; reflexivity.
    + intros ((P1 & P2 & X1 & X2 & L & Hno) & z & Z1 & Z2 & Z3 & Z4).
      assert (Hz : In z (a :: r)).
      { assert (Hz : In z l) by (apply Il; auto). rewrite El in Hz. apply in_app_iff in Hz as [Hz|Hz]; [|exact Hz]. rewrite (Hu0 z Hz) in Z3. discriminate. }
      assert (Sa : StronglySorted start_lt (a :: r)) by (rewrite El in S; apply sorted_suffix in S; exact S).
      assert (Big : forall y, In y l -> m_start z <= m_start y -> In y (a :: r)).
      { intros y Hy Hle. rewrite El in Hy. apply in_app_iff in Hy as [Hy|Hy]; [|exact Hy]. rewrite El in S. pose proof (sorted_app_lt _ _ S y z Hy Hz). unfold start_lt in *. lia. }
      assert (Hp : In p (a :: r)) by (apply Big; [apply Il; auto|lia]). assert (Hx : In x (a :: r)) by (apply Big; [apply Il; auto|lia]).
      apply in_split in Hp as (u & w & Ew). exists u. destruct w as [|y w].
      * exfalso. rewrite Ew in Hx, Sa. apply in_app_iff in Hx as [Hx|[->|[]]]; [|lia]. pose proof (sorted_app_lt _ _ Sa x p Hx (or_introl eq_refl)). unfold start_lt in *. lia.
      * assert (y = x) as ->; [|exists w; exact Ew]. rewrite Ew in Hx, Sa. assert (Hyl : In y l) by (rewrite El, Ew; apply in_app_iff; right; apply in_app_iff; right; right; left; reflexivity).
        apply Il in Hyl as [Y1 Y2]. assert (Lpy : m_start p < m_start y).
        { apply sorted_suffix in Sa. inversion Sa as [|? ? _ F]; subst. rewrite Forall_forall in F. apply (F y (or_introl eq_refl)). }
        apply in_app_iff in Hx as [Hx|[->|[->|Hx]]]; [|lia|reflexivity|].
        -- pose proof (sorted_app_lt _ _ Sa x p Hx (or_introl eq_refl)). unfold start_lt in *. lia.
        -- exfalso. apply (Hno y Y1 Y2). split; [exact Lpy|]. apply sorted_suffix in Sa. inversion Sa as [|? ? Sa' _]; subst. inversion Sa' as [|? ? _ F]; subst. rewrite Forall_forall in F. apply (F x Hx).
Qed.
Lemma number_inj x y : In x ms -> In y ms -> m_name x = n -> m_name y = n -> m_start x = m_start y -> x = y.
Proof.
  intros X1 Y1 X2 Y2 E. pose proof (no_nonempty _ _ W x X1). pose proof (no_nonempty _ _ W y Y1).
  destruct (no_apart _ _ W x y X1 Y1 X2 (or_introl Y2)) as [->|[H1|H1]]; [reflexivity|lia|lia].
Qed.
Lemma next_unique p p' x : next_number n ms p x -> next_number n ms p' x -> p = p'.
Proof.
  intros (P1 & P2 & X1 & X2 & L & H) (P1' & P2' & _ & _ & L' & H'). apply number_inj; auto.
  destruct (Nat.lt_trichotomy (m_start p) (m_start p')) as [E|[E|E]]; [|exact E|]; exfalso.
  - apply (H p' P1' P2'). lia.
  - apply (H' p P1 P2). lia.
Qed.
Lemma match_next p x : by_match range_seps n ms p x -> next_number n ms p x.
Proof.
  intros (sep & t & S1 & S2 & S3 & S4 & (P1 & P2 & P3) & P4 & (X1 & X2 & X3) & X4).
  pose proof (no_nonempty _ _ W sep S1) as Ls. pose proof (no_nonempty _ _ W p P1) as Lp.
  repeat (split; [assumption|]). split; [lia|]. intros y Y1 Y2 Hy. pose proof (no_nonempty _ _ W y Y1) as Ly.
  assert (A1 : y = p \/ m_end y <= m_start p \/ m_end p <= m_start y) by (apply (no_apart _ _ W); auto).
  assert (A2 : y = sep \/ m_end y <= m_start sep \/ m_end sep <= m_start y) by (apply (no_apart _ _ W); auto).
  destruct A1 as [->|[A1|A1]]; [lia|lia|]. destruct A2 as [->|[A2|A2]].
  - rewrite S2 in Y2. exact (sep_not_n Y2).
  - specialize (P3 y Y1 A2). lia.
  - specialize (X3 y Y1 ltac:(lia)). lia.
Qed.
Lemma joined_next p x : joined s ini range_seps n can_start ms p x -> next_number n ms p x.
Proof. intros [H|H]; [apply match_next; exact H|apply H]. Qed.

(** *** what a separator does *)
Lemma sep_one_cases sep : In sep ms -> m_name sep = sepname n ->
  (exists p x t, m_value sep = MvStr t /\ In t range_seps /\ just_before ms sep p /\ m_name p = n /\ just_after ms sep x /\ m_name x = n /\
     sep_one range_seps n ms sep = ([x; sep], copies x (num p + 1) (num x) ++ [x])) \/
  (sep_one range_seps n ms sep = ([sep], []) /\
     ~ exists p x t, m_value sep = MvStr t /\ In t range_seps /\ just_before ms sep p /\ m_name p = n /\ just_after ms sep x /\ m_name x = n).
Proof.
  intros S1 S2. unfold sep_one.
  assert (Wf : forall y, In y ms -> m_start y <= m_end y) by (intros y Hy; pose proof (no_nonempty _ _ W y Hy); lia).
  assert (Pv : match first (previous sep ms (has_name n)) with Some p => just_before ms sep p /\ m_name p = n | None => forall p, just_before ms sep p -> m_name p <> n end).
  { destruct (first (previous sep ms (has_name n))) as [p|] eqn:E.
    - apply hd_error_In in E. apply previous_In in E as (E1 & E2 & E3 & E4). apply has_name_iff in E1. split; [split; auto|exact E1].
    - intros p (P1 & P2 & P3) Np. assert (H : In p (previous sep ms (has_name n))) by (apply previous_In; apply has_name_iff in Np; auto).
      destruct (previous sep ms (has_name n)); [destruct H|discriminate]. }
  assert (Nx : match first (next sep ms (has_name n)) with Some p => just_after ms sep p /\ m_name p = n | None => forall p, just_after ms sep p -> m_name p <> n end).
  { destruct (first (next sep ms (has_name n))) as [p|] eqn:E.
    - apply hd_error_In in E. apply next_In in E as (E1 & E2 & E3 & E4); [|exact Wf]. apply has_name_iff in E1. split; [split; auto|exact E1].
    - intros p (P1 & P2 & P3) Np. assert (H : In p (next sep ms (has_name n))) by (apply next_In; [exact Wf|]; apply has_name_iff in Np; auto).
      destruct (next sep ms (has_name n)); [destruct H|discriminate]. }
  destruct (first (previous sep ms (has_name n))) as [p|]; [|right; split; [reflexivity|]; intros (p & x & t & _ & _ & J & N & _); exact (Pv p J N)].
  destruct (first (next sep ms (has_name n))) as [x|]; [|right; split; [reflexivity|]; intros (q & x & t & _ & _ & _ & _ & J & N); exact (Nx x J N)].
  destruct Pv as [P1 P2]. destruct Nx as [X1 X2]. unfold m_truthy.
  rewrite (proj2 (Nat.ltb_lt _ _) (no_nonempty _ _ W p ltac:(apply P1))), (proj2 (Nat.ltb_lt _ _) (no_nonempty _ _ W x ltac:(apply X1))). cbn [andb].
  unfold value_in, val_text. destruct (m_value sep) as [z|t|q u|id|q] eqn:Ev; try (right; split; [reflexivity|]; intros (p0 & x0 & t0 & E & _); discriminate).
  destruct (smem t range_seps) eqn:Et.
  - left. exists p, x, t. apply smem_In in Et. auto 10.
  - right. split; [reflexivity|]. intros (p0 & x0 & t0 & E & Ht & _). injection E as <-. apply smem_In in Ht. congruence.
Qed.
Lemma at_place_key x : forall a b, mkey a = mkey b -> (has_name n a && ((m_start a =? m_start x) && (m_end a =? m_end x))) = (has_name n b && ((m_start b =? m_start x) && (m_end b =? m_end x))).
Proof. intros a b K. unfold mkey in K. unfold has_name. assert (m_start a = m_start b /\ m_end a = m_end b /\ m_name a = m_name b) as (-> & -> & ->) by (repeat split; congruence). reflexivity. Qed.
Definition full (p x : mt) : list mt := copies x (num p + 1) (num x) ++ [x].
Lemma full_place p x : In x ms -> m_name x = n -> at_place n x (full p x) = full p x.
Proof.
  intros X1 X2. apply filter_id. intros m Hm. unfold full in Hm. apply in_app_iff in Hm as [Hm|[<-|[]]].
  - apply in_map_iff in Hm as (k & <- & _). unfold with_number, set_value, has_name. cbn [m_name m_start m_end]. rewrite X2, str_eqb_refl, !Nat.eqb_refl. reflexivity.
  - unfold has_name. rewrite X2, str_eqb_refl, !Nat.eqb_refl. reflexivity.
Qed.
Lemma other_place y x l : In x ms -> m_name x = n -> In y ms -> m_name y = n -> y <> x ->
  (forall m, In m l -> m_name m <> n \/ m_start m = m_start y) -> at_place n x l = [].
Proof.
  intros X1 X2 Y1 Y2 Hne H. apply filter_nil. intros m Hm. destruct (H m Hm) as [E|E].
  - destruct (has_name n m) eqn:En; [apply has_name_iff in En; contradiction|reflexivity].
  - destruct (Nat.eqb_spec (m_start m) (m_start x)) as [E2|E2]; [|rewrite Bool.andb_false_r; reflexivity].
    exfalso. apply Hne. apply number_inj; auto. congruence.
Qed.
Lemma full_other y x p : In x ms -> m_name x = n -> In y ms -> m_name y = n -> y <> x -> at_place n x (full p y) = [].
Proof.
  intros X1 X2 Y1 Y2 Hne. apply (other_place y); auto. intros m Hm. right. unfold full in Hm. apply in_app_iff in Hm as [Hm|[<-|[]]]; [|reflexivity].
  apply in_map_iff in Hm as (k & <- & _). reflexivity.
Qed.
(** the blocks of the separators *)
Lemma sep_blocks x : In x ms -> m_name x = n -> forall l, (forall sep, In sep l -> In sep ms /\ m_name sep = sepname n) ->
  (forall b, In b (map (at_place n x) (map snd (map (sep_one range_seps n ms) l))) -> b = [] \/ exists p, by_match range_seps n ms p x /\ b = full p x) /\
  (forall p, by_match range_seps n ms p x -> (forall sep, In sep ms -> m_name sep = sepname n -> In sep l) -> In (full p x) (map (at_place n x) (map snd (map (sep_one range_seps n ms) l)))).
Proof.
  intros X1 X2 l Hl. split.
  - intros b Hb. rewrite !map_map in Hb. apply in_map_iff in Hb as (sep & <- & Hs). destruct (Hl sep Hs) as [S1 S2].
    destruct (sep_one_cases sep S1 S2) as [(p & y & t & E1 & E2 & E3 & E4 & E5 & E6 & ->)|[-> _]]; cbn [snd]; [|left; reflexivity].
    destruct (mkey_eq_dec (mkey y) (mkey x)) as [K|K].
    + assert (y = x) as -> by (apply (distinct_inj ms); auto; [apply W|apply E5]). right. exists p. split; [exists sep, t; auto 10|]. apply full_place; assumption.
    + left. apply (full_other y); auto; [apply E5|congruence].
  - intros p (sep & t & S1 & S2 & S3 & S4 & S5 & S6 & S7 & S8) Hall. rewrite !map_map. apply in_map_iff. exists sep. split; [|apply Hall; assumption].
    destruct (sep_one_cases sep S1 S2) as [(p' & y & t' & E1 & E2 & E3 & E4 & E5 & E6 & ->)|[_ N]]; [|exfalso; apply N; exists p, x, t; auto 10]. cbn [snd].
    assert (N1 : next_number n ms p x) by (apply match_next; exists sep, t; auto 10).
    assert (N2 : next_number n ms p' y) by (apply match_next; exists sep, t'; auto 10).
    assert (y = x) as ->.
    { destruct S7 as (A1 & A2 & A3), E5 as (B1 & B2 & B3). apply number_inj; auto. specialize (A3 y B1 B2). specialize (B3 x A1 A2). lia. }
    rewrite (next_unique p' p x N2 N1). apply full_place; assumption.
Qed.
Definition text_join (p x : mt) : Prop := let t := slice (m_end (ini p)) (m_start (ini x)) s in In t range_seps \/ In (strip is_sep t) range_seps.
Lemma joined_text_iff p x : joined_text s ini range_seps p x = true <-> text_join p x.
Proof. unfold joined_text, text_join, text_from. rewrite Bool.orb_true_iff, !smem_In. reflexivity. Qed.
Lemma pair_place p x : In x ms -> m_name x = n -> at_place n x (snd (pair_one s ini range_seps n p x)) = if joined_text s ini range_seps p x then full p x else [x].
Proof.
  intros X1 X2. unfold pair_one; cbn [snd]. unfold at_place. rewrite filter_app. destruct (joined_text s ini range_seps p x).
  - pose proof (full_place p x X1 X2) as F. unfold at_place, full in F. rewrite filter_app in F. rewrite filter_app.
    assert (Es : filter (fun m => has_name n m && ((m_start m =? m_start x) && (m_end m =? m_end x))) [range_separator s n p x] = []).
    { apply filter_nil. intros m [<-|[]]. unfold range_separator, has_name; cbn [m_name].
      destruct (str_eqb (n ++ lit "Separator") n) eqn:E; [apply str_eqb_eq in E; destruct (sep_not_n E)|reflexivity]. }
    rewrite Es, app_nil_r. exact F.
  - cbn [filter app]. unfold has_name. rewrite X2, str_eqb_refl, !Nat.eqb_refl. reflexivity.
Qed.
Lemma pair_other p y x : In x ms -> m_name x = n -> In y ms -> m_name y = n -> y <> x -> at_place n x (snd (pair_one s ini range_seps n p y)) = [].
Proof.
  intros X1 X2 Y1 Y2 Hne. unfold pair_one; cbn [snd]. apply (other_place y); auto. intros m Hm. apply in_app_iff in Hm as [Hm|[<-|[]]]; [|auto].
  destruct (joined_text s ini range_seps p y); [|destruct Hm]. apply in_app_iff in Hm as [Hm|[<-|[]]].
  - apply in_map_iff in Hm as (k & <- & _). right; reflexivity.
  - left. unfold range_separator; cbn [m_name]. exact sep_not_n.
Qed.
Lemma pair_blocks x : In x ms -> m_name x = n -> forall C, NoDup (map snd C) -> (forall q, In q C -> In (snd q) ms /\ m_name (snd q) = n) ->
  (forall p, In (p, x) C -> List.concat (map (at_place n x) (map snd (map (fun q => pair_one s ini range_seps n (fst q) (snd q)) C))) = if joined_text s ini range_seps p x then full p x else [x]) /\
  ((forall p, ~ In (p, x) C) -> List.concat (map (at_place n x) (map snd (map (fun q => pair_one s ini range_seps n (fst q) (snd q)) C))) = []).
Proof.
  intros X1 X2 C. induction C as [|[q y] C IH]; intros ND Hc; cbn [map List.concat fst snd].
  - split; [intros p []|reflexivity].
  - apply NoDup_cons_iff in ND as [Hy ND']. destruct (IH ND') as [I1 I2]; [intros q' Hq'; apply Hc; right; exact Hq'|].
    destruct (Hc (q, y) (or_introl eq_refl)) as [Y1 Y2]; cbn [snd] in *. split.
    + intros p [E|Hp].
      * injection E as -> ->. rewrite I2, app_nil_r; [apply pair_place; assumption|]. intros p' Hp'. apply Hy. apply in_map_iff. exists (p', x). auto.
      * rewrite (pair_other q y x X1 X2 Y1 Y2); [apply I1; exact Hp|]. intros ->. apply Hy. apply in_map_iff. exists (p, x). auto.
    + intros Hn. rewrite (pair_other q y x X1 X2 Y1 Y2); [apply I2; intros p Hp; apply (Hn p); right; exact Hp|]. intros ->. apply (Hn q). left; reflexivity.
Qed.
Definition the_change : change := separator_range s ini range_seps n can_start ms.
Definition result : list mt := apply_change the_change ms.
Lemma the_change_eq : the_change =
  (List.concat (map fst (map (sep_one range_seps n ms) (named (sepname n) ms))) ++ map snd (neighbours can_start (by_start (named n ms))),
   List.concat (map snd (map (sep_one range_seps n ms) (named (sepname n) ms))) ++
   List.concat (map snd (map (fun q => pair_one s ini range_seps n (fst q) (snd q)) (neighbours can_start (by_start (named n ms)))))).
Proof.
  unfold the_change, separator_range, join. rewrite !joins_eq, pairs_neighbours. cbn [fst snd]. f_equal. f_equal.
  induction (neighbours can_start (by_start (named n ms))) as [|q l IH]; cbn [map List.concat]; [reflexivity|]. rewrite IH. reflexivity.
Qed.
Lemma neighbours_seconds : NoDup (map snd (neighbours can_start (by_start (named n ms)))).
Proof.
  unfold neighbours. destruct (started_spec can_start (by_start (named n ms))) as (u & E & _ & _).
  assert (ND : NoDup (by_start (named n ms))).
  { apply (Permutation_NoDup (Permutation_sym (isort_perm _ _))). apply NoDup_filter. apply distinct_NoDup. apply W. }
  rewrite E in ND. destruct (started can_start (by_start (named n ms))) as [|a r]; [constructor|]. rewrite chain_seconds.
  assert (ND2 : NoDup (a :: r)) by (clear -ND; induction u as [|x u IH]; [exact ND|]; inversion ND; auto). inversion ND2; assumption.
Qed.
Lemma removed_iff m : In m ms -> In m (fst the_change) <-> m_name m = sepname n \/
  (m_name m = n /\ exists p, by_match range_seps n ms p m \/ In (p, m) (neighbours can_start (by_start (named n ms)))).
Proof.
  intros Hm. rewrite the_change_eq; cbn [fst]. rewrite in_app_iff, in_map_iff, !map_map, in_concat. split.
  - intros [(b & Hb & Hi)|((p & x) & <- & Hp)].
    + apply in_map_iff in Hb as (sep & <- & Hs). apply named_In in Hs as [S1 S2].
      destruct (sep_one_cases sep S1 S2) as [(p & y & t & E1 & E2 & E3 & E4 & E5 & E6 & E)|[E _]]; rewrite E in Hi; cbn [fst In] in Hi.
      * destruct Hi as [<-|[<-|[]]]; [right|left; exact S2]. split; [exact E6|]. exists p. left. exists sep, t. auto 10.
      * destruct Hi as [<-|[]]. left; exact S2.
    + right. cbn [snd]. assert (Hp' := Hp). apply neighbours_iff in Hp' as [(_ & _ & X1 & X2 & _) _]. split; [exact X2|]. exists p. right. exact Hp.
  - intros [N|[N (p & [H|H])]].
    + left. exists (fst (sep_one range_seps n ms m)). split; [apply in_map_iff; exists m; split; [reflexivity|apply named_In; auto]|].
      destruct (sep_one_cases m Hm N) as [(p & y & t & _ & _ & _ & _ & _ & _ & ->)|[-> _]]; cbn [fst In]; auto.
    + left. destruct H as (sep & t & S1 & S2 & S3 & S4 & S5 & S6 & S7 & S8). exists (fst (sep_one range_seps n ms sep)). split; [apply in_map_iff; exists sep; split; [reflexivity|apply named_In; auto]|].
      destruct (sep_one_cases sep S1 S2) as [(p' & y & t' & E1 & E2 & E3 & E4 & E5 & E6 & ->)|[_ N']]; cbn [fst In]; [|exfalso; apply N'; exists p, m, t; auto 10].
      left. destruct S7 as (A1 & A2 & A3), E5 as (B1 & B2 & B3). apply number_inj; auto. specialize (A3 y B1 B2). specialize (B3 m A1 A2). lia.
    + right. exists (p, m). auto.
Qed.
Lemma removed_in m : In m (fst the_change) -> In m ms.
Proof.
  rewrite the_change_eq; cbn [fst]. rewrite in_app_iff, in_map_iff, !map_map, in_concat. intros [(b & Hb & Hi)|((p & x) & <- & Hp)].
  - apply in_map_iff in Hb as (sep & <- & Hs). apply named_In in Hs as [S1 S2].
    destruct (sep_one_cases sep S1 S2) as [(p & y & t & E1 & E2 & E3 & E4 & E5 & E6 & E)|[E _]]; rewrite E in Hi; cbn [fst In] in Hi.
    + destruct Hi as [<-|[<-|[]]]; [apply E5|exact S1].
    + destruct Hi as [<-|[]]. exact S1.
  - apply neighbours_iff in Hp as [(_ & _ & X1 & _) _]. exact X1.
Qed.
Lemma place_in x l : In x ms -> m_name x = n -> (forall y, In y l -> In y ms) -> NoDup l -> In x l -> at_place n x l = [x].
Proof.
  intros X1 X2 Hl ND Hx. assert (Hp : forall y, In y (at_place n x l) <-> y = x).
  { intros y. unfold at_place. rewrite filter_In. split.
    - intros [Hy E]. apply Bool.andb_true_iff in E as [E1 E2]. apply has_name_iff in E1. apply number_inj; auto. lia.
    - intros ->. split; [exact Hx|]. unfold has_name. rewrite X2, str_eqb_refl, !Nat.eqb_refl. reflexivity. }
  assert (ND' : NoDup (at_place n x l)) by (apply NoDup_filter; exact ND).
  destruct (at_place n x l) as [|a [|b r]] eqn:E.
  - exfalso. apply (proj2 (Hp x) eq_refl).
  - f_equal. apply Hp. left; reflexivity.
  - exfalso. inversion ND' as [|? ? Ha _]; subst. apply Ha. rewrite (proj1 (Hp a) (or_introl eq_refl)), <- (proj1 (Hp b) (or_intror (or_introl eq_refl))). left; reflexivity.
Qed.
Lemma place_out x l : In x ms -> m_name x = n -> (forall y, In y l -> In y ms) -> ~ In x l -> at_place n x l = [].
Proof.
  intros X1 X2 Hl Hx. apply filter_nil. intros y Hy. destruct (has_name n y && ((m_start y =? m_start x) && (m_end y =? m_end x))) eqn:E; [|reflexivity].
  exfalso. apply Bool.andb_true_iff in E as [E1 E2]. apply has_name_iff in E1. apply Hx. replace x with y; [exact Hy|]. apply number_inj; auto. lia.
Qed.
(** appending a block, then parts of it *)
Lemma append_block b rest : distinct b -> (forall m, In m rest -> In m b) -> append_all (b ++ rest) [] = b.
Proof.
  intros D H. rewrite append_all_cat, (append_all_fresh b []) by (exact D). cbn [app]. apply append_all_old. intros m Hm. exists m. auto.
Qed.
Lemma full_distinct p x : In x ms -> m_name x = n -> distinct (full p x).
Proof.
  intros X1 X2. unfold distinct, full, copies. rewrite map_app, map_map. cbn [map]. destruct (no_int _ _ W x X1 X2) as [k Ek].
  assert (Hn : num x = k) by (unfold num; rewrite Ek; reflexivity).
  apply NoDup_app_disj.
  - apply FinFun.Injective_map_NoDup.
    + intros a b E. unfold mkey, with_number, set_value in E. cbn [m_value] in E. congruence.
    + pose proof (zrange_sorted (num p + 1) (num x)) as S. clear -S. induction S as [|a l S IH F]; constructor; [|exact IH]. intros Ha. rewrite Forall_forall in F. specialize (F a Ha). lia.
  - repeat constructor. intros [].
  - intros y Hy [<-|[]]. apply in_map_iff in Hy as (j & E & Hj). apply zrange_In in Hj. unfold mkey, with_number, set_value in E. cbn [m_value] in E. rewrite Ek in E. injection E as E. lia.
Qed.
Lemma concat_nil {A} (l : list (list A)) : (forall b, In b l -> b = []) -> List.concat l = [].
Proof. induction l as [|b l IH]; cbn [List.concat]; intros H; [reflexivity|]. rewrite (H b (or_introl eq_refl)). apply IH. intros c Hc. apply H. right; exact Hc. Qed.
Lemma concat_first {A} (f : list A) (l : list (list A)) : (forall b, In b l -> b = [] \/ b = f) -> In f l -> exists rest, List.concat l = f ++ rest /\ forall m, In m rest -> In m f.
Proof.
  induction l as [|b l IH]; cbn [List.concat]; intros H Hf; [destruct Hf|].
  assert (Sub : forall m, In m (List.concat l) -> In m f).
  { intros m Hm. apply in_concat in Hm as (c & Hc & Hm). destruct (H c (or_intror Hc)) as [->| ->]; [destruct Hm|exact Hm]. }
  destruct (H b (or_introl eq_refl)) as [->| ->].
  - cbn [app]. destruct Hf as [<-|Hf]; [|apply IH; [intros c Hc; apply H; right; exact Hc|exact Hf]]. exists (List.concat l). split; [reflexivity|exact Sub].
  - exists (List.concat l). split; [reflexivity|exact Sub].
Qed.
Lemma blocks_dec {A} (f : list A) (l : list (list A)) : f <> [] -> (forall b, In b l -> b = [] \/ b = f) -> In f l \/ ~ In f l.
Proof.
  intros Hf. induction l as [|b l IH]; intros H; [right; intros []|]. destruct (H b (or_introl eq_refl)) as [->| ->]; [|left; left; reflexivity].
  destruct IH as [I|I]; [intros c Hc; apply H; right; exact Hc|left; right; exact I|right; intros [E|E]; [apply Hf; symmetry; exact E|exact (I E)]].
Qed.
Lemma place_result x : In x ms -> m_name x = n ->
  (forall p, joined s ini range_seps n can_start ms p x -> at_place n x result = full p x) /\
  ((forall p, ~ joined s ini range_seps n can_start ms p x) -> at_place n x result = [x]).
Proof.
  intros X1 X2. unfold result, apply_change. set (R := fst the_change). set (base := remove_all R ms).
  assert (Eb : at_place n x (append_all (snd the_change) base) = append_all (at_place n x (snd the_change)) (at_place n x base)) by (apply append_filter; apply at_place_key).
  rewrite Eb. clear Eb. rewrite the_change_eq; cbn [snd].
  set (L1 := map snd (map (sep_one range_seps n ms) (named (sepname n) ms))). set (C := neighbours can_start (by_start (named n ms))).
  set (L2 := map snd (map (fun q => pair_one s ini range_seps n (fst q) (snd q)) C)).
  assert (Ea : at_place n x (List.concat L1 ++ List.concat L2) = List.concat (map (at_place n x) L1) ++ List.concat (map (at_place n x) L2)).
  { unfold at_place at 1. rewrite filter_app, !filter_concat. reflexivity. }
  rewrite Ea. clear Ea.
  destruct (sep_blocks x X1 X2 (named (sepname n) ms)) as [B1 B2]; [intros sep Hs; apply named_In in Hs; exact Hs|]. fold L1 in B1, B2.
  destruct (pair_blocks x X1 X2 C neighbours_seconds) as [P1 P2].
  { intros [p y] Hq. apply neighbours_iff in Hq as [(_ & _ & Y1 & Y2 & _) _]. auto. }
  fold L2 in P1, P2.
  assert (Hb : at_place n x base = if in_dec mkey_eq_dec (mkey x) (map mkey R) then [] else [x]).
  { assert (Sub : forall y, In y base -> In y ms) by (intros y Hy; apply remove_all_In in Hy; [tauto|apply W|exact removed_in]).
    destruct (in_dec mkey_eq_dec (mkey x) (map mkey R)) as [Hi|Hi].
    - apply place_out; auto. intros H. apply remove_all_In in H; [|apply W|exact removed_in]. destruct H as [_ H]. apply H.
      apply in_map_iff in Hi as (y & Ey & Hy). replace x with y; [exact Hy|]. apply (distinct_inj ms); auto; [apply W|apply removed_in; exact Hy].
    - apply place_in; auto.
      + unfold base. rewrite remove_all_filter by apply W. apply NoDup_filter. apply distinct_NoDup. apply W.
      + apply remove_all_In; [apply W|exact removed_in|]. split; [exact X1|]. intros H. apply Hi. apply in_map. exact H. }
  assert (Rx : In x R -> at_place n x base = []).
  { intros H. rewrite Hb. destruct (in_dec mkey_eq_dec (mkey x) (map mkey R)) as [Hi|Hi]; [reflexivity|]. destruct Hi. apply in_map. exact H. }
  assert (L2sub : forall p, next_number n ms p x -> forall m, In m (List.concat (map (at_place n x) L2)) -> In m (full p x)).
  { intros p Np m Hm. destruct (existsb (fun q => mt_eqb (snd q) x) C) eqn:Eq.
    - apply existsb_exists in Eq as ((p' & y) & Hq & Ey). cbn [snd] in Ey. apply mt_eqb_eq in Ey.
      assert (Hq' := Hq). apply neighbours_iff in Hq' as [Nq _]. assert (y = x) as -> by (apply (distinct_inj ms); auto; [apply W|apply Nq]).
      rewrite (P1 p' Hq) in Hm. rewrite (next_unique p' p x Nq Np) in Hm. destruct (joined_text s ini range_seps p x); [exact Hm|]. unfold full. apply in_app_iff. right; exact Hm.
    - rewrite P2 in Hm; [destruct Hm|]. intros p' Hp'. enough (existsb (fun q => mt_eqb (snd q) x) C = true) by congruence. apply existsb_exists. exists (p', x). split; [exact Hp'|apply mt_eqb_refl]. }
  split.
  - intros p Hj. assert (Np : next_number n ms p x) by (apply joined_next; exact Hj). assert (Dx : distinct (full p x)) by (apply full_distinct; assumption).
    assert (U : forall b, In b (map (at_place n x) L1) -> b = [] \/ b = full p x).
    { intros b Hbl. destruct (B1 b Hbl) as [->|(p' & Hp' & ->)]; [auto|]. right. rewrite (next_unique p' p x); auto. apply match_next; exact Hp'. }
    destruct (blocks_dec (full p x) (map (at_place n x) L1)) as [HL|HL]; [unfold full; destruct (copies x (num p + 1) (num x)); discriminate|exact U| |].
    + assert (HR : In x R).
      { apply removed_iff; [exact X1|]. right. split; [exact X2|]. exists p. left. destruct (B1 _ HL) as [E|(p' & Hp' & _)].
        - unfold full in E. destruct (copies x (num p + 1) (num x)); discriminate.
        - rewrite (next_unique p p' x); auto. apply match_next; exact Hp'. }
      rewrite (Rx HR). destruct (concat_first (full p x) _ U HL) as (rest & -> & Hrest). rewrite <- app_assoc. apply append_block; [exact Dx|].
      intros m Hm. apply in_app_iff in Hm as [Hm|Hm]; [apply Hrest; exact Hm|apply (L2sub p Np); exact Hm].
    + destruct Hj as [Hj|(Hj & Hz & Ht)]; [exfalso; apply HL; apply B2; [exact Hj|]; intros sep S1 S2; apply named_In; auto|].
      assert (HC : In (p, x) C) by (apply neighbours_iff; auto). fold (text_join p x) in Ht. apply joined_text_iff in Ht.
      assert (HR : In x R) by (apply removed_iff; [exact X1|]; right; split; [exact X2|]; exists p; right; exact HC).
      rewrite (Rx HR), (P1 p HC), Ht, concat_nil by (intros b Hbl; destruct (U b Hbl) as [->|E]; [reflexivity|]; subst b; contradiction).
      cbn [app]. rewrite <- (app_nil_r (full p x)) at 1. apply append_block; [exact Dx|intros m []].
  - intros Hno. rewrite (concat_nil (map (at_place n x) L1)).
    2:{ intros b Hbl. destruct (B1 b Hbl) as [->|(p & Hp & _)]; [reflexivity|]. exfalso. apply (Hno p). left; exact Hp. }
    cbn [app]. destruct (existsb (fun q => mt_eqb (snd q) x) C) eqn:Eq.
    + apply existsb_exists in Eq as ((p & y) & Hq & Ey). cbn [snd] in Ey. apply mt_eqb_eq in Ey.
      assert (Hq' := Hq). apply neighbours_iff in Hq' as [Nq Zq]. assert (y = x) as -> by (apply (distinct_inj ms); auto; [apply W|apply Nq]).
      rewrite (P1 p Hq). destruct (joined_text s ini range_seps p x) eqn:Et; [exfalso; apply (Hno p); right; split; [exact Nq|]; split; [exact Zq|apply joined_text_iff; exact Et]|].
      rewrite Rx; [reflexivity|]. apply removed_iff; [exact X1|]. right. split; [exact X2|]. exists p. right; exact Hq.
    + assert (NC : forall p, ~ In (p, x) C).
      { intros p' Hp'. enough (existsb (fun q => mt_eqb (snd q) x) C = true) by congruence. apply existsb_exists. exists (p', x). split; [exact Hp'|apply mt_eqb_refl]. }
      rewrite (P2 NC). cbn [append_all fold_left]. rewrite Hb. destruct (in_dec mkey_eq_dec (mkey x) (map mkey R)) as [Hi|Hi]; [|reflexivity]. exfalso.
      apply in_map_iff in Hi as (y & Ey & Hy). assert (y = x) as -> by (apply (distinct_inj ms); auto; [apply W|apply removed_in; exact Hy]).
      apply removed_iff in Hy; [|exact X1]. destruct Hy as [Hy|[_ (p & [Hy|Hy])]]; [rewrite X2 in Hy; symmetry in Hy; exact (sep_not_n Hy)|apply (Hno p); left; exact Hy|exact (NC p Hy)].
Qed.
Lemma joined_dec x : In x ms -> m_name x = n -> (exists p, joined s ini range_seps n can_start ms p x) \/ (forall p, ~ joined s ini range_seps n can_start ms p x).
Proof.
  intros X1 X2. destruct (sep_blocks x X1 X2 (named (sepname n) ms)) as [B1 B2]; [intros sep Hs; apply named_In in Hs; exact Hs|].
  set (L1 := map (at_place n x) (map snd (map (sep_one range_seps n ms) (named (sepname n) ms)))) in *.
  destruct (existsb (fun b => match b with [] => false | _ => true end) L1) eqn:Eb.
  - apply existsb_exists in Eb as (b & Hb & Eb). destruct (B1 b Hb) as [->|(p & Hp & _)]; [discriminate|]. left. exists p. left; exact Hp.
  - assert (NB : forall p, ~ by_match range_seps n ms p x).
    { intros p Hp. enough (existsb (fun b : list mt => match b with [] => false | _ => true end) L1 = true) by congruence. apply existsb_exists. exists (full p x). split.
      - apply B2; [exact Hp|]. intros sep S1 S2. apply named_In; auto.
      - unfold full. destruct (copies x (num p + 1) (num x)); reflexivity. }
    destruct (existsb (fun q => mt_eqb (snd q) x && joined_text s ini range_seps (fst q) (snd q)) (neighbours can_start (by_start (named n ms)))) eqn:Eq.
    + apply existsb_exists in Eq as ((p & y) & Hq & Ey). cbn [fst snd] in Ey. apply Bool.andb_true_iff in Ey as [Ey Et]. apply mt_eqb_eq in Ey.
      assert (Hq' := Hq). apply neighbours_iff in Hq' as [Nq Zq]. assert (y = x) as -> by (apply (distinct_inj ms); auto; [apply W|apply Nq]).
      left. exists p. right. split; [exact Nq|]. split; [exact Zq|]. apply joined_text_iff; exact Et.
    + right. intros p [Hp|(Nq & Zq & Ht)]; [exact (NB p Hp)|].
      enough (existsb (fun q => mt_eqb (snd q) x && joined_text s ini range_seps (fst q) (snd q)) (neighbours can_start (by_start (named n ms))) = true) by congruence.
      apply existsb_exists. exists (p, x). split; [apply neighbours_iff; auto|]. cbn [fst snd]. rewrite mt_eqb_refl. apply joined_text_iff; exact Ht.
Qed.
Lemma joined_unique p p' x : joined s ini range_seps n can_start ms p x -> joined s ini range_seps n can_start ms p' x -> p = p'.
Proof. intros H H'. apply (next_unique p p' x); apply joined_next; assumption. Qed.
(** where the matches of the result come from *)
Lemma result_In m : In m result -> In m ms \/
  (exists p x k, joined s ini range_seps n can_start ms p x /\ m = with_number x k /\ (num p < k < num x)%Z) \/
  (exists p x, by_text s ini range_seps n can_start ms p x /\ m = range_separator s n p x).
Proof.
  unfold result, apply_change. intros H. apply merge_new_sub in H as [H|H].
  - left. apply remove_all_In in H; [tauto|apply W|exact removed_in].
  - rewrite the_change_eq in H; cbn [snd] in H. apply in_app_iff in H as [H|H]; apply in_concat in H as (b & Hb & Hm); rewrite map_map in Hb; apply in_map_iff in Hb as (q & <- & Hq).
    + apply named_In in Hq as [S1 S2]. destruct (sep_one_cases q S1 S2) as [(p & x & t & E1 & E2 & E3 & E4 & E5 & E6 & E)|[E _]]; rewrite E in Hm; cbn [snd] in Hm; [|destruct Hm].
      apply in_app_iff in Hm as [Hm|[<-|[]]]; [|left; apply E5]. apply in_map_iff in Hm as (k & <- & Hk). apply zrange_In in Hk.
      right; left. exists p, x, k. split; [left; exists q, t; auto 10|]. split; [reflexivity|lia].
    + destruct q as [p x]. cbn [fst snd] in Hm. apply neighbours_iff in Hq as [Nq Zq]. unfold pair_one in Hm; cbn [snd] in Hm.
      apply in_app_iff in Hm as [Hm|[<-|[]]]; [|left; apply Nq]. destruct (joined_text s ini range_seps p x) eqn:Et; [|destruct Hm]. apply joined_text_iff in Et.
      assert (BT : by_text s ini range_seps n can_start ms p x) by (split; [exact Nq|]; split; [exact Zq|exact Et]).
      apply in_app_iff in Hm as [Hm|[<-|[]]].
      * apply in_map_iff in Hm as (k & <- & Hk). apply zrange_In in Hk. right; left. exists p, x, k. split; [right; exact BT|]. split; [reflexivity|lia].
      * right; right. exists p, x. split; [exact BT|reflexivity].
Qed.
Lemma result_other m : m_name m <> n -> m_name m <> sepname n -> In m result <-> In m ms.
Proof.
  intros N1 N2. split.
  - intros H. apply result_In in H as [H|[(p & x & k & H & -> & _)|(p & x & _ & ->)]]; [exact H| |].
    + apply joined_next in H as (_ & _ & _ & X2 & _). destruct N1. exact X2.
    + destruct N2. reflexivity.
  - intros H. unfold result, apply_change. apply append_old. apply remove_all_In; [apply W|exact removed_in|]. split; [exact H|].
    intros R. apply removed_iff in R; [|exact H]. tauto.
Qed.
Lemma result_separator m : m_name m = sepname n -> In m result -> exists p x, by_text s ini range_seps n can_start ms p x /\ m = range_separator s n p x.
Proof.
  intros N H. unfold result, apply_change in H. apply merge_new_sub in H as [H|H].
  - exfalso. apply remove_all_In in H; [|apply W|exact removed_in]. destruct H as [H1 H2]. apply H2. apply removed_iff; auto.
  - assert (Hr : In m result \/ True) by auto. clear Hr. rewrite the_change_eq in H; cbn [snd] in H.
    apply in_app_iff in H as [H|H]; apply in_concat in H as (b & Hb & Hm); rewrite map_map in Hb; apply in_map_iff in Hb as (q & <- & Hq).
    + apply named_In in Hq as [S1 S2]. destruct (sep_one_cases q S1 S2) as [(p & x & t & E1 & E2 & E3 & E4 & E5 & E6 & E)|[E _]]; rewrite E in Hm; cbn [snd] in Hm; [|destruct Hm].
      exfalso. apply in_app_iff in Hm as [Hm|[<-|[]]]; [apply in_map_iff in Hm as (k & <- & _); cbn [with_number set_value m_name] in N|]; rewrite E6 in N; symmetry in N; exact (sep_not_n N).
    + destruct q as [p x]. cbn [fst snd] in Hm. apply neighbours_iff in Hq as [Nq Zq]. unfold pair_one in Hm; cbn [snd] in Hm.
      assert (Nx : m_name x = n) by apply Nq.
      apply in_app_iff in Hm as [Hm|[<-|[]]]; [|exfalso; rewrite Nx in N; symmetry in N; exact (sep_not_n N)].
      destruct (joined_text s ini range_seps p x) eqn:Et; [|destruct Hm]. apply joined_text_iff in Et.
      apply in_app_iff in Hm as [Hm|[<-|[]]].
      * exfalso. apply in_map_iff in Hm as (k & <- & _). cbn [with_number set_value m_name] in N. rewrite Nx in N. symmetry in N. exact (sep_not_n N).
      * exists p, x. split; [|reflexivity]. split; [exact Nq|]. split; [exact Zq|exact Et].
Qed.
End Ranges.
