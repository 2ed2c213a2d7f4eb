From Coq Require Import ZifyBool ZifyNat ZifyN.
From Verif Require Import Py PyFacts Text TextFacts Formatters FormattersProofs WordsProofs Regex CrcProofs DateProofs GroupName.

(** [t] is a part of [s] *)
Definition part_of (t s : str) : Prop := exists u v, s = u ++ t ++ v.
(** ["A) [B]"] or ["A)[B]"] written ["A B"], at some places of the text *)
Inductive credits : str -> str -> Prop :=
| credits_refl t : credits t t
| credits_step p g1 sp g2 q q' : (sp = [] \/ exists c, sp = [c] /\ is_space c = true) -> g1 <> [] -> g2 <> [] -> credits q q' ->
    credits (p ++ g1 ++ lit ")" ++ sp ++ lit "[" ++ g2 ++ lit "]" ++ q) (p ++ g1 ++ lit " " ++ g2 ++ q').

Lemma part_refl s : part_of s s.
Proof. exists [], []. rewrite app_nil_r. reflexivity. Qed.
Lemma part_trans a b c : part_of a b -> part_of b c -> part_of a c.
Proof. intros (u & v & ->) (x & y & ->). exists (x ++ u), (v ++ y). rewrite !app_assoc. reflexivity. Qed.
Lemma part_strip p s : part_of (strip p s) s.
Proof. destruct (strip_spec p s) as (u & v & E & _). exists u, v. exact E. Qed.
Lemma part_skipn n s : part_of (skipn n s) s.
Proof. exists (firstn n s), []. rewrite app_nil_r. symmetry; apply firstn_skipn. Qed.
Lemma part_firstn n s : part_of (firstn n s) s.
Proof. exists [], (skipn n s). symmetry; apply firstn_skipn. Qed.

Section Part.
  Context (ignored : str).
  Lemma part_outer s : part_of (clean_outer ignored s) s.
  Proof. unfold clean_outer. destruct (negb _ && negb _); [eapply part_trans; [apply part_strip|]|]; apply part_strip. Qed.
  Lemma part_drop s f : part_of (drop_forbidden ignored s f) s.
  Proof.
    unfold drop_forbidden.
    set (s1 := if startswith f (lower s) && _ then _ else s). assert (H1 : part_of s1 s).
    { unfold s1. destruct (startswith f (lower s) && _); [eapply part_trans; [apply part_strip|apply part_skipn]|apply part_refl]. }
    destruct (endswith f (lower s1) && _); [|exact H1]. eapply part_trans; [eapply part_trans; [apply part_strip|apply part_firstn]|exact H1].
  Qed.
  Lemma part_fold fs : forall s, part_of (fold_left (drop_forbidden ignored) fs s) s.
  Proof. induction fs as [|f fs IH]; intros s; [apply part_refl|]. cbn [fold_left]. eapply part_trans; [apply IH|apply part_drop]. Qed.
End Part.

Lemma slice_skip (s : str) i j : i <= j -> skipn i s = slice i j s ++ skipn j s.
Proof.
  intros H. unfold slice. rewrite <- (firstn_skipn (j - i) (skipn i s)) at 1. f_equal. rewrite skipn_skipn'. f_equal. lia.
Qed.
Lemma any_plus_inv s i c j d : M s any_plus i c j d -> d = c /\ i < j.
Proof.
  unfold any_plus. intros H. apply M_seq_inv in H as (k & e & H1 & H2). apply M_chr_inv in H1 as (-> & -> & _).
  pose proof (M_mono _ _ _ _ _ _ H2). apply M_starchr in H2 as [-> _]. split; [reflexivity|lia].
Qed.
Lemma members_inv s a b c : M s members_re a [] b c -> exists x y, exists sp,
  a < x /\ slice x y s = lit ")" ++ sp ++ lit "[" /\ (sp = [] \/ exists c, sp = [c] /\ is_space c = true) /\
  x <= y < b - 1 /\ slice (b - 1) b s = lit "]" /\ group 1 c = Some (a, x) /\ group 2 c = Some (y, b - 1).
Proof.
  unfold members_re. intros H. apply M_seq_inv in H as (x & d1 & H1 & H). apply M_seq_inv in H as (x1 & d2 & H2 & H).
  apply M_seq_inv in H as (x2 & d3 & H3 & H). apply M_seq_inv in H as (y & d4 & H4 & H). apply M_seq_inv in H as (z & d5 & H5 & H6).
  apply M_grp_inv in H1 as (e1 & -> & H1). apply any_plus_inv in H1 as [-> H1].
  apply M_chr_inv in H2 as (-> & -> & c2 & E2 & P2). apply M_chr_inv in H4 as (-> & -> & c4 & E4 & P4).
  apply M_grp_inv in H5 as (e5 & -> & H5). apply any_plus_inv in H5 as [-> H5]. apply M_chr_inv in H6 as (-> & -> & c6 & E6 & P6).
  apply N.eqb_eq in P2, P4, P6. subst c2 c4 c6.
  assert (Hsp : exists sp, slice (S x) x2 s = sp /\ S x <= x2 /\ (sp = [] \/ exists c, sp = [c] /\ is_space c = true) /\ d3 = [(1, (a, x))]).
  { apply M_alt_inv in H3 as [H3|H3].
    - apply M_chr_inv in H3 as (-> & -> & w & Ew & Pw). exists [w]. rewrite (slice_one s (S x) w Ew). split; [reflexivity|]. split; [lia|]. split; [right; eauto|reflexivity].
    - inversion H3; subst. exists []. split; [unfold slice; rewrite Nat.sub_diag; reflexivity|]. split; [lia|]. auto. }
  destruct Hsp as (sp & Esp & Hle & Hsp & ->).
  exists x, (S x2), sp. split; [lia|]. split.
  { rewrite (slice_app s x (S x) (S x2)) by lia. rewrite (slice_app s (S x) x2 (S x2)) by lia. rewrite Esp, (slice_one s x _ E2), (slice_one s x2 _ E4). reflexivity. }
  split; [exact Hsp|]. replace (S z - 1) with z by lia. split; [lia|]. split; [apply slice_one; exact E6|]. split; reflexivity.
Qed.
Lemma nonempty_slice (s : str) i j : i < j -> i < List.length s -> slice i j s <> [].
Proof. intros H Hi E. apply (f_equal (@List.length N)) in E. unfold slice in E. rewrite firstn_length, skipn_length in E. simpl in E. lia. Qed.
Lemma sub_credits s fuel : forall pos, pos <= List.length s -> credits (skipn pos s) (sub_members s (finditer_loop s members_re fuel pos) pos).
Proof.
  induction fuel as [|f IH]; intros pos Hpos; cbn [finditer_loop]; [apply credits_refl|].
  pose proof (search_spec s members_re pos) as Hs. destruct (search s members_re pos) as [[[a b] c]|]; [|apply credits_refl].
  destruct Hs as (H1 & H2 & H3 & _). cbn [sub_members].
  destruct (members_inv s a b c H3) as (x & y & sp & K1 & K2 & K3 & K4 & K5 & K6 & K7).
  unfold group_of. rewrite K6, K7.
  assert (E : skipn pos s = slice pos a s ++ slice a x s ++ lit ")" ++ sp ++ lit "[" ++ slice y (b - 1) s ++ lit "]" ++ skipn b s).
  { rewrite (slice_skip s pos a) by lia. rewrite (slice_skip s a x) by lia. rewrite (slice_skip s x y) by lia. rewrite (slice_skip s y (b - 1)) by lia. rewrite (slice_skip s (b - 1) b) by lia.
    rewrite K2, K5, <- !app_assoc. reflexivity. }
  rewrite E. apply credits_step; [exact K3|apply nonempty_slice; lia|apply nonempty_slice; lia|apply IH; lia].
Qed.
Lemma clean_credits ignored forbidden s : exists t, part_of t s /\ credits t (clean_groupname ignored forbidden s).
Proof.
  unfold clean_groupname. eexists. split; [|apply (sub_credits _ _ 0); lia].
  rewrite skipn_O. eapply part_trans; [apply part_strip|]. eapply part_trans; [apply part_fold|apply part_outer].
Qed.
Lemma credits_facts t r : credits t r -> (forall c, In c r -> In c t \/ c = 32%N) /\ List.length r <= List.length t /\ (~ In 91%N t -> r = t).
Proof.
  induction 1 as [t|p g1 sp g2 q q' Hsp H1 H2 H (IH1 & IH2 & IH3)]; [split; [auto|]; split; auto|]. split; [|split].
  - intros c Hc. rewrite !in_app_iff in *. destruct Hc as [Hc|[Hc|[Hc|[Hc|Hc]]]]; auto.
    + destruct Hc as [<-|[]]. right; reflexivity.
    + left. tauto.
    + destruct (IH1 c Hc) as [Hc'|Hc']; [left; tauto|auto].
  - rewrite !app_length. change (List.length (lit ")")) with 1. change (List.length (lit "[")) with 1. change (List.length (lit "]")) with 1. change (List.length (lit " ")) with 1. lia.
  - intros Hn. destruct Hn. rewrite !in_app_iff. right; right; right; right; left. left; reflexivity.
Qed.

Lemma credits_plain t r : credits t r -> ~ In 41%N t -> r = t.
Proof.
  intros H. destruct H as [t|p g1 sp g2 q q' Hsp H1 H2 H]; [reflexivity|]. intros N. destruct N. rewrite !in_app_iff. right; right; left. left; reflexivity.
Qed.
Lemma strip_nop p u : (forall c, hd_error u = Some c -> p c = false) -> (forall c, last_error u = Some c -> p c = false) -> strip p u = u.
Proof.
  intros H1 H2. unfold strip. assert (E : lstrip p u = u) by (destruct u as [|c u]; [reflexivity|]; simpl; rewrite (H1 c eq_refl); reflexivity).
  rewrite E. unfold rstrip. assert (E2 : lstrip p (rev u) = rev u).
  { destruct (rev u) as [|c v] eqn:Er; [reflexivity|]. simpl. rewrite (H2 c); [reflexivity|]. unfold last_error. rewrite Er; reflexivity. }
  rewrite E2. apply rev_involutive.
Qed.
Lemma hd_In {A} (u : list A) c : hd_error u = Some c -> In c u.
Proof. destruct u; simpl; [discriminate|]. intros H; injection H as ->; auto. Qed.
Lemma last_In {A} (u : list A) c : last_error u = Some c -> In c u.
Proof. unfold last_error. intros H. apply hd_In in H. apply in_rev; exact H. Qed.
Section Forbidden.
  Context (ignored f : str).
  Definition no_ignored (s : str) : Prop := forall c, In c s -> ~ In c ignored.
  (** does not start or end with a separator *)
  Definition trimmed (s : str) : Prop := (forall c, hd_error s = Some c -> ~ In c seps) /\ (forall c, last_error s = Some c -> ~ In c seps).
  Lemma ignored_false s c : no_ignored s -> In c s -> is_ignored ignored c = false.
  Proof. intros H Hc. unfold is_ignored. destruct (cmem c ignored) eqn:E; [|reflexivity]. apply cmem_In in E. destruct (H c Hc E). Qed.
  Lemma outer_nop s : no_ignored s -> clean_outer ignored s = strip (groupname_sep ignored) s.
  Proof.
    intros H. unfold clean_outer. set (t := strip (groupname_sep ignored) s).
    assert (Ht : forall c, In c t -> is_ignored ignored c = false).
    { intros c Hc. apply (ignored_false s); [exact H|]. destruct (part_strip (groupname_sep ignored) s) as (u & v & E). fold t in E. rewrite E, !in_app_iff. auto. }
    assert (E : strip (is_ignored ignored) t = t) by (apply strip_nop; intros c Hc; apply Ht; [apply hd_In|apply last_In]; exact Hc).
    rewrite E. destruct (negb _ && negb _); reflexivity.
  Qed.
  Lemma sep_not_groupname c : ~ In c seps -> groupname_sep ignored c = false.
  Proof. intros H. unfold groupname_sep, is_sep. destruct (cmem c seps) eqn:E; [apply cmem_In in E; contradiction|reflexivity]. Qed.
  Lemma trimmed_nop s : trimmed s -> strip (groupname_sep ignored) s = s.
  Proof. intros [H1 H2]. apply strip_nop; intros c Hc; apply sep_not_groupname; auto. Qed.
  Lemma slice_pre (a b : str) : slice (List.length a) (List.length a + 1) (a ++ b) = firstn 1 b.
  Proof. unfold slice. rewrite skipn_app, skipn_all, Nat.sub_diag. simpl skipn. f_equal. lia. Qed.
  Lemma sep_head_strip c r : In c seps -> ~ In c ignored -> strip (groupname_sep ignored) (c :: r) = strip (groupname_sep ignored) r.
  Proof.
    intros H1 H2. unfold strip. cbn [lstrip]. unfold groupname_sep at 2. unfold is_sep. apply cmem_In in H1. rewrite H1.
    destruct (cmem c ignored) eqn:E; [apply cmem_In in E; contradiction|]. reflexivity.
  Qed.
  Lemma endswith_part u t : endswith f (lower t) = true -> endswith f (lower (u ++ t)) = true.
  Proof. rewrite !endswith_app. intros [r E]. unfold lower in *. rewrite map_app, E. exists (map to_lower u ++ r). rewrite app_assoc. reflexivity. Qed.

  Lemma forbidden_prefix f' c rest : f <> [] -> lower f' = f -> In c seps -> no_ignored (f' ++ c :: rest) -> trimmed (f' ++ c :: rest) ->
    rest <> [] -> endswith f (lower rest) = false ->
    clean_groupname ignored [f] (f' ++ c :: rest) = clean_groupname ignored [] rest.
  Proof.
    intros Hf Hlow Hc Hno Htr Hne Hend. unfold clean_groupname. cbn [fold_left].
    assert (Hno2 : no_ignored rest) by (intros x Hx; apply Hno; rewrite in_app_iff; right; right; exact Hx).
    rewrite (outer_nop _ Hno), (trimmed_nop _ Htr), (outer_nop _ Hno2).
    unfold drop_forbidden.
    assert (Hl : List.length f = List.length f') by (rewrite <- Hlow; apply lower_length).
    assert (E1 : startswith f (lower (f' ++ c :: rest)) = true).
    { apply startswith_app. unfold lower in *. rewrite map_app, Hlow. eauto. }
    rewrite E1, Hl, slice_pre. cbn [firstn slice_in_seps andb]. unfold is_sep. rewrite (proj2 (cmem_In c seps) Hc).
    rewrite skipn_app, skipn_all, Nat.sub_diag. cbn [skipn app].
    rewrite sep_head_strip; [|exact Hc|apply Hno; rewrite in_app_iff; right; left; reflexivity].
    set (t := strip (groupname_sep ignored) rest).
    assert (E2 : endswith f (lower t) = false).
    { destruct (endswith f (lower t)) eqn:E; [|reflexivity]. exfalso.
      destruct (strip_spec (groupname_sep ignored) rest) as (u & v & Er & _ & Hv & _). fold t in Er.
      assert (v = []).
      { destruct v as [|y v']; [reflexivity|]. exfalso. destruct (@exists_last _ (y :: v') ltac:(discriminate)) as (v & x & Ev). rewrite Ev in Er, Hv. apply Forall_app in Hv as [_ Hv]. inversion Hv as [|? ? Hx _]; subst x0 l. clear Hv.
        destruct Htr as [_ Htr]. specialize (Htr x). rewrite Er in Htr. 
        assert (last_error (f' ++ c :: u ++ t ++ v ++ [x]) = Some x).
        { unfold last_error. change (f' ++ c :: u ++ t ++ v ++ [x]) with (f' ++ (c :: u) ++ t ++ v ++ [x]). rewrite !app_assoc, rev_app_distr. reflexivity. }
        specialize (Htr H). rewrite (sep_not_groupname x Htr) in Hx. discriminate. }
      subst v. rewrite app_nil_r in Er. rewrite Er in Hend. rewrite (endswith_part u t E) in Hend. discriminate. }
    rewrite E2. reflexivity.
  Qed.
  Lemma forbidden_alone f' : f <> [] -> lower f' = f -> no_ignored f' -> trimmed f' -> clean_groupname ignored [f] f' = [].
  Proof.
    intros Hf Hlow Hno Htr. unfold clean_groupname. cbn [fold_left]. rewrite (outer_nop _ Hno), (trimmed_nop _ Htr). unfold drop_forbidden.
    assert (Hl : List.length f = List.length f') by (rewrite <- Hlow; apply lower_length).
    assert (E1 : startswith f (lower f') = true) by (apply startswith_app; exists []; rewrite app_nil_r; exact Hlow).
    rewrite E1, Hl. replace (slice (List.length f') (List.length f' + 1) f') with (@nil N) by (unfold slice; rewrite skipn_all; symmetry; apply firstn_nil).
    cbn [slice_in_seps andb]. rewrite skipn_all. change (strip (groupname_sep ignored) []) with (@nil N).
    assert (E2 : endswith f (lower []) = false).
    { destruct (endswith f (lower [])) eqn:E; [|reflexivity]. apply endswith_app in E as [r E]. destruct r; [destruct f; [congruence|discriminate]|discriminate]. }
    rewrite E2. reflexivity.
  Qed.
End Forbidden.
