(** Proofs about [Processors.v]. *)
From Verif Require Import Py PyFacts Text TextFacts Sort Words WordsProofs Date Rebulk RebulkFacts Processors ProcessorsSpec.
From Coq Require Import Arith Lia Permutation Sorted ZifyBool.

Lemma dedup_In x l : In x (dedup l) <-> In x l.
Proof.
  induction l as [|y r IH]; cbn [dedup]; [reflexivity|]. destruct (smem y r) eqn:E.
  - rewrite IH. apply smem_In in E. cbn [In]; intuition subst; auto.
  - cbn [In]; rewrite IH; reflexivity.
Qed.
Lemma dedup_NoDup l : NoDup (dedup l).
Proof.
  induction l as [|y r IH]; cbn [dedup]; [constructor|]. destruct (smem y r) eqn:E; [exact IH|].
  constructor; [|exact IH]. rewrite dedup_In, <- smem_In. congruence.
Qed.


Lemma index_m_lt k l : In k l -> index_m k l < List.length l.
Proof.
  induction l as [|x r IH]; cbn [In index_m List.length]; [tauto|]. intros H.
  destruct (mt_eqb k x) eqn:E; [lia|]. destruct H as [->|H]; [rewrite mt_eqb_refl in E; discriminate|]. specialize (IH H); lia.
Qed.
Lemma index_before l a b : distinct l -> In a l -> In b l -> index_m a l < index_m b l -> before l a b.
Proof.
  unfold distinct. induction l as [|x r IH]; cbn [In index_m map]; [tauto|]. intros H Ha Hb Hlt.
  inversion H as [|? ? Hx Hr]; subst.
  destruct (mt_eqb a x) eqn:Ea.
  - assert (a = x). { destruct Ha as [->|Ha]; [reflexivity|]. exfalso; apply Hx. apply mt_eqb_eq in Ea; rewrite <- Ea; apply in_map; exact Ha. }
    subst a. destruct (mt_eqb b x) eqn:Eb; [lia|]. destruct Hb as [->|Hb]; [rewrite mt_eqb_refl in Eb; discriminate|].
    apply in_split in Hb as (l2 & l3 & ->). exists [], l2, l3; reflexivity.
  - destruct Ha as [->|Ha]; [rewrite mt_eqb_refl in Ea; discriminate|].
    destruct (mt_eqb b x) eqn:Eb; [lia|]. destruct Hb as [->|Hb]; [rewrite mt_eqb_refl in Eb; discriminate|].
    destruct (IH Hr Ha Hb ltac:(lia)) as (l1 & l2 & l3 & ->). exists (x :: l1), l2, l3; reflexivity.
Qed.
Lemma index_m_app l1 a l2 : (forall x, In x l1 -> mkey x <> mkey a) -> index_m a (l1 ++ a :: l2) = List.length l1.
Proof.
  induction l1 as [|x r IH]; cbn [app index_m List.length]; intros H; [rewrite mt_eqb_refl; reflexivity|].
  destruct (mt_eqb a x) eqn:E; [exfalso; apply (H x (or_introl eq_refl)); apply mt_eqb_eq in E; congruence|].
  f_equal; apply IH; intros y Hy; apply H; right; exact Hy.
Qed.
Lemma distinct_app_l l1 l2 : distinct (l1 ++ l2) -> distinct l1.
Proof. unfold distinct; rewrite map_app. intros H. induction l1 as [|x r IH]; cbn [map app] in *; [constructor|].
  inversion H as [|? ? Hx Hr]; subst. constructor; [|apply IH; exact Hr]. intros Hin; apply Hx, in_app_iff; left; exact Hin. Qed.
Lemma distinct_middle l1 a l2 : distinct (l1 ++ a :: l2) -> forall x, In x l1 \/ In x l2 -> mkey x <> mkey a.
Proof.
  unfold distinct; rewrite map_app; cbn [map]. intros H x Hx E. apply NoDup_remove_2 in H. apply H.
  rewrite <- E. apply in_app_iff. destruct Hx; [left|right]; apply in_map; assumption.
Qed.
Lemma before_index l a b : distinct l -> before l a b -> index_m a l < index_m b l.
Proof.
  intros H (l1 & l2 & l3 & ->).
  rewrite (index_m_app l1 a) by (intros x Hx; eapply distinct_middle; [exact H|left; exact Hx]).
  rewrite app_comm_cons, app_assoc in H |- *.
  rewrite (index_m_app (l1 ++ a :: l2) b) by (intros x Hx; eapply distinct_middle; [exact H|left; exact Hx]).
  rewrite app_length; cbn [List.length]; lia.
Qed.
Lemma index_inj l a b : In a l -> In b l -> distinct l -> index_m a l = index_m b l -> a = b.
Proof.
  induction l as [|x r IH]; cbn [In index_m]; [tauto|]. intros Ha Hb H E.
  destruct (mt_eqb a x) eqn:Ea, (mt_eqb b x) eqn:Eb; try discriminate.
  - eapply distinct_inj; [exact H|exact Ha|exact Hb|]. apply mt_eqb_eq in Ea, Eb; congruence.
  - destruct Ha as [->|Ha]; [rewrite mt_eqb_refl in Ea; discriminate|].
    destruct Hb as [->|Hb]; [rewrite mt_eqb_refl in Eb; discriminate|].
    inversion H; subst. apply IH; auto.
Qed.

Lemma range_found s ms p k m : inside s ms -> m_end k <= List.length s ->
  In m (range s ms (m_start k) (m_end k) p) <-> found ms p k m.
Proof. intros H Hk. rewrite range_In' by assumption. unfold found; tauto. Qed.
Lemma marker_weight_spec s ms p k : inside s ms -> m_end k <= List.length s -> weight ms p k (marker_weight s ms p k).
Proof.
  intros H Hk. exists (dedup (map m_name (range s ms (m_start k) (m_end k) p))).
  split; [apply dedup_NoDup|]. split; [reflexivity|]. intros x. rewrite dedup_In, in_map_iff.
  split; intros (m & A & B); exists m; rewrite ?range_found in * by assumption; auto.
Qed.
Lemma weight_unique ms p k a b : weight ms p k a -> weight ms p k b -> a = b.
Proof.
  intros (la & Na & <- & Ha) (lb & Nb & <- & Hb). apply Permutation_length, NoDup_Permutation; auto.
  intros x; rewrite Ha, Hb; reflexivity.
Qed.


Lemma StronglySorted_impl_in {A} (R S : A -> A -> Prop) l :
  (forall x y, before l x y -> R x y -> S x y) -> StronglySorted R l -> StronglySorted S l.
Proof.
  intros H Hs. induction Hs as [|x l Hs IH Hx]; constructor.
  - apply IH. intros a b (l1 & l2 & l3 & ->). apply H. exists (x :: l1), l2, l3; reflexivity.
  - rewrite Forall_forall in *. intros y Hy. apply H; [|apply Hx; exact Hy].
    apply in_split in Hy as (l2 & l3 & ->). exists [], l2, l3; reflexivity.
Qed.
Lemma marker_cmp_le s ms markers p a b : (marker_cmp s ms markers p a b <=? 0)%Z = true <->
  (marker_weight s ms p b < marker_weight s ms p a \/
   (marker_weight s ms p b = marker_weight s ms p a /\ index_m b markers <= index_m a markers)).
Proof. unfold marker_cmp. destruct (negb _) eqn:E; lia. Qed.
Lemma marker_sorted_spec s ms p markers : inside s ms -> inside s markers -> distinct markers ->
  Permutation (marker_sorted s ms p markers) markers /\ StronglySorted (better ms p markers) (marker_sorted s ms p markers).
Proof.
  intros Hm Hk Hd. pose proof (isort_perm (fun a b => (marker_cmp s ms markers p a b <=? 0)%Z) markers) as P.
  split; [exact P|].
  assert (HS := isort_sorted (fun a b => (marker_cmp s ms markers p a b <=? 0)%Z)
    ltac:(intros x y; rewrite <- Bool.not_true_iff_false, !marker_cmp_le; lia) ltac:(intros x y z; rewrite !marker_cmp_le; lia) markers).
  eapply StronglySorted_impl_in; [|exact HS].
  intros a b Hab Hle. unfold Le in Hle. apply marker_cmp_le in Hle.
  assert (HD : distinct (marker_sorted s ms p markers)).
  { unfold distinct. eapply Permutation_NoDup; [apply Permutation_map; symmetry; exact P|exact Hd]. }
  fold (marker_sorted s ms p markers) in Hab.
  assert (Hne : a <> b).
  { intros ->. destruct Hab as (l1 & l2 & l3 & E). rewrite E in HD.
    apply (distinct_middle l1 b _ HD b); [|reflexivity]. right. apply in_app_iff; right; left; reflexivity. }
  assert (Ha : In a markers /\ In b markers).
  { destruct Hab as (l1 & l2 & l3 & E). split; (eapply Permutation_in; [exact P|]); fold (marker_sorted s ms p markers); rewrite E;
      rewrite in_app_iff; right; [left; reflexivity|right; apply in_app_iff; right; left; reflexivity]. }
  destruct Ha as [Ha Hb].
  exists (marker_weight s ms p a), (marker_weight s ms p b).
  split; [apply marker_weight_spec; [exact Hm|apply Hk; exact Ha]|].
  split; [apply marker_weight_spec; [exact Hm|apply Hk; exact Hb]|].
  destruct (Nat.eq_dec (marker_weight s ms p a) (marker_weight s ms p b)) as [E|]; [right|left; lia].
  split; [exact E|]. apply index_before; auto.
  assert (index_m a markers <> index_m b markers) by (intros Ei; apply Hne; eapply index_inj; eauto). lia.
Qed.
Lemma better_irrefl s ms p markers a b : inside s ms -> inside s markers -> distinct markers ->
  better ms p markers a b -> better ms p markers b a -> False.
Proof.
  intros Hm Hk Hd (wa & wb & Wa & Wb & H) (wb' & wa' & Wb' & Wa' & H').
  pose proof (weight_unique _ _ _ _ _ Wa Wa'). pose proof (weight_unique _ _ _ _ _ Wb Wb'). subst wa' wb'.
  destruct H as [H|[E H]], H' as [H'|[E' H']]; try lia.
  apply before_index in H, H'; auto. lia.
Qed.

(** ** RemoveAmbiguous *)
Lemma vmem_iff n v l : vmem n v l = true <-> In (n, v) l.
Proof.
  unfold vmem. rewrite existsb_exists. split.
  - intros ([n' v'] & H & E). apply andb_prop in E as [E1 E2]. apply str_eqb_eq in E1. apply mval_eqb_eq in E2. cbn in *; subst; exact H.
  - intros H; exists (n, v); split; [exact H|]. cbn. apply andb_true_intro; split; [apply str_eqb_refl|apply mval_eqb_eq; reflexivity].
Qed.

Lemma amb_fold prev ms_found : forall values to_remove,
  let st := fold_left (amb_match prev) ms_found (values, to_remove) in
  (forall n v, In (n, v) (fst st) <-> In (n, v) values \/ (~ In n prev /\ exists m, In m ms_found /\ m_name m = n /\ m_value m = v)) /\
  (forall x, In x (snd st) <-> In x to_remove \/ (In x ms_found /\ In (m_name x) prev /\ ~ In (m_name x, m_value x) values)).
Proof.
  induction ms_found as [|m r IH]; intros values to_remove; cbn [fold_left].
  - cbn. split; [intros n v|intros x]; split; auto; intros [H|H]; auto; [destruct H as [_ (m & [] & _)]|destruct H as [[] _]].
  - cbn zeta in *. unfold amb_match at 2 4.
    destruct (smem (m_name m) prev) eqn:Ep.
    + apply smem_In in Ep. destruct (vmem (m_name m) (m_value m) values) eqn:Ev.
      * apply vmem_iff in Ev. destruct (IH values to_remove) as [A B]. split.
        -- intros n v; rewrite A. split; intros [H|[H (x & Hx & E1 & E2)]]; auto; right; (split; [exact H|]).
           ++ exists x; split; [right; exact Hx|auto].
           ++ destruct Hx as [->|Hx]; [subst n; contradiction|exists x; auto].
        -- intros x; rewrite B. split; intros [H|(H & H0 & H1)]; auto; right.
           ++ repeat split; auto; right; exact H.
           ++ destruct H as [->|H]; [contradiction|auto].
      * assert (Ev' : ~ In (m_name m, m_value m) values) by (rewrite <- vmem_iff; congruence).
        destruct (IH values (to_remove ++ [m])) as [A B]. split.
        -- intros n v; rewrite A. split; intros [H|[H (x & Hx & E1 & E2)]]; auto; right; (split; [exact H|]).
           ++ exists x; split; [right; exact Hx|auto].
           ++ destruct Hx as [->|Hx]; [subst n; contradiction|exists x; auto].
        -- intros x; rewrite B, in_app_iff. cbn [In]. split; intros H.
           ++ destruct H as [[H|[->|[]]]|(H & H0 & H1)]; auto.
           ++ destruct H as [H|([->|H] & H0 & H1)]; auto.
    + assert (Ep' : ~ In (m_name m) prev) by (rewrite <- smem_In; congruence).
      destruct (vmem (m_name m) (m_value m) values) eqn:Ev.
      * apply vmem_iff in Ev. destruct (IH values to_remove) as [A B]. split.
        -- intros n v; rewrite A. split; intros [H|[H (x & Hx & E1 & E2)]]; auto.
           ++ right; split; [exact H|]. exists x; split; [right; exact Hx|auto].
           ++ destruct Hx as [->|Hx]; [subst n v; auto|right; split; [exact H|exists x; auto]].
        -- intros x; rewrite B. split; intros [H|(H & H0 & H1)]; auto; right.
           ++ repeat split; auto; right; exact H.
           ++ destruct H as [->|H]; [contradiction|auto].
      * destruct (IH (values ++ [(m_name m, m_value m)]) to_remove) as [A B]. split.
        -- intros n v; rewrite A, in_app_iff. cbn [In]. split; intros H.
           ++ destruct H as [[H|[H|[]]]|[H (x & Hx & E1 & E2)]]; auto.
              ** injection H as <- <-. right; split; [exact Ep'|]. exists m; auto.
              ** right; split; [exact H|]. exists x; split; [right; exact Hx|auto].
           ++ destruct H as [H|[H (x & [->|Hx] & E1 & E2)]]; auto.
              ** subst n v; auto.
              ** right; split; [exact H|]. exists x; auto.
        -- intros x; rewrite B, in_app_iff. cbn [In]. split; intros [H|(H & H0 & H1)]; auto; right.
           ++ repeat split; auto.
           ++ destruct H as [->|H]; [contradiction|]. repeat split; auto.
              intros [H2|[H2|[]]]; [contradiction|]. injection H2 as E1 E2. apply Ep'; rewrite E1; exact H0.
Qed.

Lemma part_value_has ms p k n v : part_value ms p k n v -> has_prop ms p k n.
Proof. intros (m & H & E & _); exists m; auto. Qed.
Lemma snoc_split {A} (l : list A) k l1 x l2 : l ++ [k] = l1 ++ x :: l2 -> (l2 = [] /\ l = l1 /\ x = k) \/ (exists l2', l2 = l2' ++ [k] /\ l = l1 ++ x :: l2').
Proof.
  intros E. destruct (exists_last (l := x :: l2)) as (r & y & Er); [discriminate|].
  destruct l2 as [|z l2] using rev_ind.
  - apply app_inj_tail in E as [-> ->]. left; auto.
  - clear IHl2. right. rewrite app_comm_cons, app_assoc in E. apply app_inj_tail in E as [-> ->]. exists l2; auto.
Qed.
Lemma wins_snoc ms p done k n v :
  wins ms p (done ++ [k]) n v <->
  wins ms p done n v \/ ((forall k', In k' done -> ~ has_prop ms p k' n) /\ part_value ms p k n v).
Proof.
  split.
  - intros (w & (l1 & l2 & E & Hp & Hn) & Hv). apply snoc_split in E as [(-> & -> & ->)|(l2' & -> & ->)].
    + right; auto.
    + left. exists w; split; [|exact Hv]. exists l1, l2'; auto.
  - intros [(w & (l1 & l2 & E & Hp & Hn) & Hv)|[Hn Hv]].
    + exists w; split; [|exact Hv]. exists l1, (l2 ++ [k]). rewrite E, <- app_assoc; auto.
    + exists k; split; [|exact Hv]. exists done, []. split; [reflexivity|]. split; [eapply part_value_has; exact Hv|exact Hn].
Qed.
Lemma amb_parts_spec s ms p : inside s ms -> forall parts, inside s parts -> forall done prev st,
  (forall n, In n prev <-> exists k, In k done /\ has_prop ms p k n) ->
  (forall n v, In (n, v) (fst st) <-> wins ms p done n v) ->
  (forall x, In x (snd st) <-> (exists k, In k done /\ found ms p k x) /\ ~ wins ms p done (m_name x) (m_value x)) ->
  forall x, In x (amb_parts s ms p parts prev st) <->
    (exists k, In k (done ++ parts) /\ found ms p k x) /\ ~ wins ms p (done ++ parts) (m_name x) (m_value x).
Proof.
  intros Hin. induction parts as [|k r IH]; intros Hk done prev [values to_remove] HP HV HR x; cbn [amb_parts].
  - rewrite app_nil_r. apply HR.
  - set (fnd := range s ms (m_start k) (m_end k) p).
    assert (HF : forall m, In m fnd <-> found ms p k m) by (intros m; apply range_found; [exact Hin|apply Hk; left; reflexivity]).
    destruct (amb_fold prev fnd values to_remove) as [A B]. cbn [fst snd] in HV, HR.
    replace (done ++ k :: r) with ((done ++ [k]) ++ r) by (rewrite <- app_assoc; reflexivity).
    apply IH.
    + intros y Hy; apply Hk; right; exact Hy.
    + intros n. rewrite in_app_iff, HP, in_map_iff. split.
      * intros [(k' & H & H0)|(m & E & H)]; [exists k'; split; [apply in_app_iff; left; exact H|exact H0]|].
        exists k; split; [apply in_app_iff; right; left; reflexivity|]. exists m; split; [apply HF; exact H|exact E].
      * intros (k' & H & H0). apply in_app_iff in H as [H|[->|[]]]; [left; exists k'; auto|right].
        destruct H0 as (m & H & E). exists m; split; [exact E|apply HF; exact H].
    + intros n v. rewrite A, HV, wins_snoc. split; (intros [H|[H H0]]; [left; exact H|right]).
      * split; [intros k' Hk' Hh; apply H, HP; exists k'; auto|]. destruct H0 as (m & H1 & E1 & E2). exists m; split; [apply HF; exact H1|auto].
      * split; [rewrite HP; intros (k' & Hk' & Hh); exact (H k' Hk' Hh)|]. destruct H0 as (m & H1 & E1 & E2). exists m; split; [apply HF; exact H1|auto].
    + intros y. rewrite B, HR, wins_snoc. split.
      * intros [[(k' & H & H0) Hn]|(H & H0 & Hn)].
        -- split; [exists k'; split; [apply in_app_iff; left; exact H|exact H0]|].
           intros [Hw|[Hw _]]; [contradiction|]. apply (Hw k' H). exists y; auto.
        -- split; [exists k; split; [apply in_app_iff; right; left; reflexivity|apply HF; exact H]|].
           rewrite HV in Hn. intros [Hw|[Hw _]]; [contradiction|]. apply HP in H0 as (k' & Hk' & Hh). exact (Hw k' Hk' Hh).
      * intros [(k' & H & H0) Hn]. apply in_app_iff in H as [H|[->|[]]].
        -- left; split; [exists k'; auto|]. intros Hw; apply Hn; left; exact Hw.
        -- right. split; [apply HF; exact H0|].
           destruct (in_dec (list_eq_dec N.eq_dec) (m_name y) prev) as [Hy|Hy].
           ++ split; [exact Hy|]. rewrite HV. intros Hw; apply Hn; left; exact Hw.
           ++ exfalso; apply Hn; right. split; [intros k2 Hk2 Hh; apply Hy, HP; exists k2; auto|]. exists y; auto.
Qed.
Lemma remove_ambiguous_spec s ms p parts x : inside s ms -> inside s parts ->
  In x (remove_ambiguous s ms p parts) <->
  (exists k, In k parts /\ found ms p k x) /\ ~ wins ms p parts (m_name x) (m_value x).
Proof.
  intros H Hk. unfold remove_ambiguous. rewrite (amb_parts_spec s ms p H parts Hk [] [] ([], [])); [reflexivity| | |].
  - intros n; split; [intros []|intros (k & [] & _)].
  - intros n v; split; [intros []|intros (k & (l1 & l2 & E & _) & _)]; destruct l1; discriminate.
  - intros y; split; [intros []|intros [(k & [] & _) _]].
Qed.

(** ** RemoveLessSpecificSeasonEpisode *)
Lemma sxx_name n m : sxxexx n m = true <-> m_name m = n /\ has_tag (lit "SxxExx") m = true.
Proof. unfold sxxexx. rewrite Bool.andb_true_iff, has_name_iff. reflexivity. Qed.
Lemma sxx_weight ms n k w : weight ms (sxxexx n) k w -> (w = 1 /\ (exists m, found ms (sxxexx n) k m)) \/ (w = 0 /\ ~ exists m, found ms (sxxexx n) k m).
Proof.
  intros (names & Nd & <- & H).
  assert (G : forall x, In x names -> x = n).
  { intros x Hx. apply H in Hx as (m & (_ & Hp & _) & <-). apply sxx_name in Hp as [-> _]; reflexivity. }
  destruct names as [|a [|b r]]; cbn [List.length].
  - right; split; [reflexivity|]. intros (m & Hm). destruct (proj2 (H (m_name m))); exists m; auto.
  - left; split; [reflexivity|]. destruct (proj1 (H a) (or_introl eq_refl)) as (m & Hm & _); exists m; exact Hm.
  - exfalso. inversion Nd as [|? ? Ha _]; subst. apply Ha. rewrite (G a), (G b); cbn; auto.
Qed.
Lemma before_rev {A} (l : list A) a b : before (rev l) a b -> before l b a.
Proof.
  intros (l1 & l2 & l3 & E). exists (rev l3), (rev l2), (rev l1).
  rewrite <- (rev_involutive l), E. rewrite !rev_app_distr; cbn [rev]. rewrite rev_app_distr; cbn [rev]. rewrite <- !app_assoc; reflexivity.
Qed.
Lemma distinct_rev l : distinct l -> distinct (rev l).
Proof. unfold distinct. rewrite map_rev. apply NoDup_rev. Qed.
Lemma inside_rev s l : inside s l -> inside s (rev l).
Proof. intros H m Hm; apply H. apply in_rev; exact Hm. Qed.
Lemma specific_order_spec s ms n markers : inside s ms -> inside s markers -> distinct markers ->
  Permutation (specific_order s ms n markers) markers /\
  StronglySorted (fun a b => ((exists m, found ms (sxxexx n) a m) /\ ~ (exists m, found ms (sxxexx n) b m)) \/
                             (((exists m, found ms (sxxexx n) a m) <-> (exists m, found ms (sxxexx n) b m)) /\ before markers a b))
    (specific_order s ms n markers).
Proof.
  intros Hm Hk Hd. unfold specific_order.
  destruct (marker_sorted_spec s ms (sxxexx n) (rev markers)) as [P S]; [exact Hm|apply inside_rev; exact Hk|apply distinct_rev; exact Hd|].
  split; [rewrite P; symmetry; apply Permutation_rev|].
  eapply StronglySorted_impl_in; [|exact S]. intros a b _ (wa & wb & Wa & Wb & H).
  apply sxx_weight in Wa, Wb. destruct Wa as [[-> Ha]|[-> Ha]], Wb as [[-> Hb]|[-> Hb]]; destruct H as [H|[E H]]; try lia; auto.
  - right; split; [tauto|]. apply before_rev; exact H.
  - right; split; [tauto|]. apply before_rev; exact H.
Qed.


Lemma has_form_prop ms n k : has_form ms n k -> has_prop ms (has_name n) k n.
Proof.
  intros (m & Hi & Hp & Ho). apply sxx_name in Hp as [E _]. exists m; split; [|exact E]. unfold found. rewrite has_name_iff. tauto.
Qed.
Lemma leftmost_exists parts (Q : mt -> Prop) : (forall k, In k parts -> Q k \/ ~ Q k) -> (exists k, In k parts /\ Q k) -> exists k, leftmost parts Q k.
Proof.
  induction parts as [|x r IH]; intros D (k & Hk & HQ); [destruct Hk|].
  destruct (D x (or_introl eq_refl)) as [Hx|Hx].
  - exists x, [], r. split; [reflexivity|]. split; [exact Hx|intros k' []].
  - destruct Hk as [->|Hk]; [contradiction|].
    destruct IH as (k' & l1 & l2 & -> & H1 & H2); [intros y Hy; apply D; right; exact Hy|exists k; auto|].
    exists k', (x :: l1), l2. split; [reflexivity|]. split; [exact H1|]. intros y [<-|Hy]; auto.
Qed.
Lemma leftmost_unique parts Q a b : leftmost parts Q a -> leftmost parts Q b -> a = b.
Proof.
  intros (l1 & l2 & E & Ha & Hna) (l3 & l4 & E' & Hb & Hnb). rewrite E in E'. clear E parts.
  revert l3 E' Hnb. induction l1 as [|x l1 IH]; intros [|y l3] E' Hnb; cbn [app] in E'.
  - injection E' as -> _; reflexivity.
  - injection E' as <- _. exfalso; apply (Hnb a); [left; reflexivity|exact Ha].
  - injection E' as -> _. exfalso; apply (Hna b); [left; reflexivity|exact Hb].
  - injection E' as -> E'. apply (IH (fun k' H => Hna k' (or_intror H)) l3 E'). intros k' H; apply Hnb; right; exact H.
Qed.
Lemma before_In {A} (l : list A) a b : before l a b -> In a l /\ In b l.
Proof. intros (l1 & l2 & l3 & ->). split; apply in_app_iff; right; [left; reflexivity|right; apply in_app_iff; right; left; reflexivity]. Qed.
Lemma before_total (l : list mt) a b : In a l -> In b l -> a <> b -> before l a b \/ before l b a.
Proof.
  intros Ha Hb Hne. apply in_split in Ha as (l1 & l2 & ->). apply in_app_iff in Hb as [Hb|[Hb|Hb]].
  - right. apply in_split in Hb as (l3 & l4 & ->). exists l3, l4, l2. rewrite <- app_assoc; reflexivity.
  - congruence.
  - left. apply in_split in Hb as (l3 & l4 & ->). exists l1, l3, l4; reflexivity.
Qed.
Lemma before_asym l a b : distinct l -> before l a b -> before l b a -> False.
Proof. intros H A B. apply before_index in A, B; auto. lia. Qed.
Lemma sorted_before {A} (R : A -> A -> Prop) l a b : StronglySorted R l -> before l a b -> R a b.
Proof.
  intros H (l1 & l2 & l3 & ->). induction l1 as [|x l1 IH]; cbn [app] in H; inversion H as [|? ? Hs Hx]; subst.
  - rewrite Forall_forall in Hx. apply Hx. apply in_app_iff; right; left; reflexivity.
  - apply IH; exact Hs.
Qed.
Lemma winner_deciding s ms n markers k : inside s ms -> inside s markers -> distinct markers ->
  winner ms (has_name n) (specific_order s ms n markers) n k <-> deciding ms n markers k.
Proof.
  intros Hm Hk Hd. destruct (specific_order_spec s ms n markers Hm Hk Hd) as [P S].
  set (order := specific_order s ms n markers) in *. fold (has_form ms n) in S.
  assert (HD : distinct order) by (unfold distinct; eapply Permutation_NoDup; [apply Permutation_map; symmetry; exact P|exact Hd]).
  assert (Dec : forall q, In q markers -> has_form ms n q \/ ~ has_form ms n q).
  { intros q Hq. pose proof (marker_weight_spec s ms (sxxexx n) q Hm (proj2 (Hk q Hq))) as W.
    apply sxx_weight in W as [[_ W]|[_ W]]; auto. }
  assert (W1 : forall k, winner ms (has_name n) order n k -> deciding ms n markers k).
  { clear k; intros k (l1 & l2 & E & Hp & Hn).
    assert (Hin : In k markers) by (eapply Permutation_in; [exact P|]; rewrite E; apply in_app_iff; right; left; reflexivity).
    assert (Later : forall q, In q markers -> has_prop ms (has_name n) q n -> q <> k -> before order k q).
    { intros q Hq Hqp Hne. assert (Hq' : In q order) by (eapply Permutation_in; [symmetry; exact P|exact Hq]).
      rewrite E in Hq'. apply in_app_iff in Hq' as [Hq'|[Hq'|Hq']]; [exfalso; exact (Hn q Hq' Hqp)|congruence|].
      apply in_split in Hq' as (l3 & l4 & ->). exists l1, l3, l4; exact E. }
    assert (Left : forall Q : mt -> Prop, Q k -> (forall q, Q q -> has_prop ms (has_name n) q n) ->
              (forall q, In q markers -> Q q -> q <> k -> before markers k q) -> leftmost markers Q k).
    { intros Q Hk' HQ HB. apply in_split in Hin as (m1 & m2 & Em). exists m1, m2. split; [exact Em|]. split; [exact Hk'|].
      intros q Hq Hqq. assert (q <> k).
      { intros ->. rewrite Em in Hd. exact (distinct_middle m1 k m2 Hd k (or_introl Hq) eq_refl). }
      assert (before markers q k) by (apply in_split in Hq as (a & b & ->); exists a, b, m2; rewrite Em, <- app_assoc; reflexivity).
      apply (before_asym markers k q Hd); [|assumption]. apply HB; auto. rewrite Em; apply in_app_iff; left; exact Hq. }
    destruct (Dec k Hin) as [Hf|Hf].
    - left. apply Left; [exact Hf|intros q; apply has_form_prop|].
      intros q Hq Hqf Hne. pose proof (sorted_before _ _ _ _ S (Later q Hq (has_form_prop _ _ _ Hqf) Hne)) as [[_ H]|[_ H]]; [contradiction|exact H].
    - right. split.
      + intros q Hq Hqf. assert (q <> k) by (intros ->; contradiction).
        pose proof (sorted_before _ _ _ _ S (Later q Hq (has_form_prop _ _ _ Hqf) H)) as [[H0 _]|[H0 _]]; [contradiction|tauto].
      + apply Left; [exact Hp|auto|]. intros q Hq Hqp Hne.
        pose proof (sorted_before _ _ _ _ S (Later q Hq Hqp Hne)) as [[H0 _]|[_ H]]; [contradiction|exact H]. }
  split; [apply W1|]. intros Hdec.
  assert (Hkp : has_prop ms (has_name n) k n /\ In k markers).
  { destruct Hdec as [(l1 & l2 & -> & H & _)|[_ (l1 & l2 & -> & H & _)]]; (split; [auto using has_form_prop|apply in_app_iff; right; left; reflexivity]). }
  destruct Hkp as [Hkp Hin].
  assert (Wex : exists w, winner ms (has_name n) order n w).
  { destruct (leftmost_exists order (fun k => has_prop ms (has_name n) k n)) as (w & l1 & l2 & E & H1 & H2).
    - intros q Hq. assert (Hq' : In q markers) by (eapply Permutation_in; [exact P|exact Hq]).
      destruct (range s ms (m_start q) (m_end q) (has_name n)) as [|m r] eqn:Er.
      + right. intros (m & Hf & _). apply (range_found s) in Hf; [rewrite Er in Hf; destruct Hf|exact Hm|apply Hk; exact Hq'].
      + left. exists m. assert (Hf : found ms (has_name n) q m) by (apply (range_found s); [exact Hm|apply Hk; exact Hq'|rewrite Er; left; reflexivity]).
        split; [exact Hf|]. apply has_name_iff, Hf.
    - exists k; split; [eapply Permutation_in; [symmetry; exact P|exact Hin]|exact Hkp].
    - exists w, l1, l2; auto. }
  destruct Wex as (w & Hw). pose proof (W1 w Hw) as Hdw.
  assert (w = k); [|subst; exact Hw].
  destruct Hdec as [Hl|[Hno Hl]], Hdw as [Hl'|[Hno' Hl']].
  - eapply leftmost_unique; eauto.
  - exfalso. destruct Hl as (l1 & l2 & E & H & _). apply (Hno' k); [rewrite E; apply in_app_iff; right; left; reflexivity|exact H].
  - exfalso. destruct Hl' as (l1 & l2 & E & H & _). apply (Hno w); [rewrite E; apply in_app_iff; right; left; reflexivity|exact H].
  - eapply leftmost_unique; eauto.
Qed.

(** ** StripSeparators: one side, on the text from that side *)
Definition trim1 (l : str) : option str :=
  match l with
  | [] => None
  | c :: r => Some (if no_group c && match nth_error l 2 with None => true | Some d => negb (no_group d) end then r else l)
  end.
Ltac split_pre p := exists p; split; [reflexivity|]; split; [cbn; lia|]; split;
  [cbn [forallb]; repeat match goal with H : no_group _ = true |- _ => rewrite H end; reflexivity|].
Lemma trim2_spec l l1 l2 : trim1 l = Some l1 -> trim1 l1 = Some l2 ->
  exists pre, l = pre ++ l2 /\ List.length pre <= 2 /\ forallb no_group pre = true /\ trimmed l2.
Proof.
  intros H1 H2. destruct l as [|a [|b [|c t]]]; cbn [trim1 nth_error] in H1; [discriminate| | |];
    destruct (no_group a) eqn:Ea; cbn [andb] in H1; injection H1 as <-; cbn [trim1 nth_error] in H2.
  - discriminate.
  - rewrite Ea in H2; cbn [andb] in H2. injection H2 as <-. split_pre ([] : str). intros x Ex; cbn in Ex; injection Ex as <-; congruence.
  - destruct (no_group b) eqn:Eb; cbn [andb] in H2; injection H2 as <-.
    + split_pre ([a; b] : str). intros x Ex; discriminate.
    + split_pre ([a] : str). intros x Ex; cbn in Ex; injection Ex as <-; congruence.
  - rewrite Ea in H2; cbn [andb] in H2. injection H2 as <-. split_pre ([] : str). intros x Ex; cbn in Ex; injection Ex as <-; congruence.
  - destruct (no_group c) eqn:Ec; cbn [negb] in H2.
    + cbn [trim1 nth_error] in H2. rewrite Ea, Ec in H2; cbn in H2. injection H2 as <-. split_pre ([] : str).
      intros x Ex Hx; cbn in Ex; injection Ex as <-. exists c; auto.
    + cbn [trim1 nth_error] in H2. destruct (no_group b) eqn:Eb; cbn [andb] in H2.
      * destruct t as [|d t]; cbn [nth_error] in H2; swap 1 2.
        -- destruct (no_group d) eqn:Edd; cbn [negb] in H2; injection H2 as <-.
           ++ split_pre ([a] : str). intros x Ex Hx; cbn in Ex; injection Ex as <-. exists d; cbn; auto.
           ++ split_pre ([a; b] : str). intros x Ex Hx; cbn in Ex; injection Ex as <-. congruence.
        -- injection H2 as <-. split_pre ([a; b] : str). intros x Ex Hx; cbn in Ex; injection Ex as <-. congruence.
      * injection H2 as <-. split_pre ([a] : str). intros x Ex Hx; cbn in Ex; injection Ex as <-. congruence.
  - rewrite Ea in H2; cbn [andb] in H2. injection H2 as <-. split_pre ([] : str). intros x Ex; cbn in Ex; injection Ex as <-; congruence.
Qed.
Lemma trim1_keeps l l' : trimmed (rev l) -> trim1 l = Some l' -> trimmed (rev l').
Proof.
  intros H E. destruct l as [|x r]; cbn [trim1] in E; [discriminate|].
  destruct (no_group x) eqn:Ex; cbn [andb] in E; [|injection E as <-; exact H].
  destruct (match nth_error (x :: r) 2 with Some d => negb (no_group d) | None => true end) eqn:E2; injection E as <-; [|exact H].
  cbn [rev] in H. revert E2 H. rewrite <- (rev_involutive r). generalize (rev r); clear r; intros t. rewrite rev_involutive.
  destruct t as [|a [|b [|c t]]]; cbn [app rev nth_error]; intros E2 H.
  - intros y Ey; discriminate.
  - intros y Ey Hy; cbn in Ey; injection Ey as <-. destruct (H a eq_refl Hy) as (d & Ed & _); discriminate.
  - intros y Ey Hy; cbn in Ey; injection Ey as <-. rewrite Hy in E2; discriminate.
  - intros y Ey Hy; cbn in Ey; injection Ey as <-. exact (H a eq_refl Hy).
Qed.
Lemma trim1_nil l : trim1 l = None <-> l = [].
Proof. destruct l; cbn; split; congruence. Qed.

Lemma slice_length {A} a b (l : list A) : b <= List.length l -> List.length (slice a b l) = b - a.
Proof. intros H. unfold slice. rewrite firstn_length, skipn_length. lia. Qed.
Lemma slice_app2 {A} a m b (l : list A) : a <= m <= b -> slice a b l = slice a m l ++ slice m b l.
Proof.
  intros H. unfold slice. replace (b - a) with ((m - a) + (b - m)) by lia.
  rewrite <- (firstn_skipn (m - a) (firstn (m - a + (b - m)) (skipn a l))). f_equal.
  - rewrite firstn_firstn. f_equal; lia.
  - rewrite skipn_firstn_comm. f_equal; [lia|]. rewrite TextFacts.skipn_skipn'. f_equal; lia.
Qed.
Lemma slice1 {A} a (l : list A) : a < List.length l -> exists c, nth_error l a = Some c /\ slice a (S a) l = [c].
Proof.
  intros H. destruct (nth_error l a) as [c|] eqn:E; [|apply nth_error_None in E; lia]. exists c; split; [reflexivity|].
  unfold slice. replace (S a - a) with 1 by lia. rewrite <- (Nat.add_0_r a), <- nth_skipn in E.
  destruct (skipn a l); cbn in *; [discriminate|]. congruence.
Qed.
Lemma strip_front_spec s a b : a <= b -> b <= List.length s ->
  (strip_front s (a, b) = Err IndexError /\ a = b) \/
  exists a', strip_front s (a, b) = Ok (a', b) /\ a <= a' <= b /\ trim1 (slice a b s) = Some (slice a' b s).
Proof.
  intros Ha Hb. destruct (Nat.eq_dec a b) as [->|Hne].
  - left. split; [|reflexivity]. unfold strip_front; cbn [fst snd]. unfold slice. rewrite Nat.sub_diag. reflexivity.
  - right. destruct (slice1 a s ltac:(lia)) as (c & _ & Ec).
    assert (Es : slice a b s = c :: slice (S a) b s) by (rewrite (slice_app2 a (S a) b) by lia; rewrite Ec; reflexivity).
    unfold strip_front; cbn [fst snd]. rewrite Es. cbn [trim1].
    destruct (no_group c && _); [exists (S a)|exists a]; (split; [reflexivity|]); (split; [lia|congruence]).
Qed.
Lemma strip_back_spec s a b : a <= b -> b <= List.length s ->
  (strip_back s (a, b) = Err IndexError /\ a = b) \/
  exists b', strip_back s (a, b) = Ok (a, b') /\ a <= b' <= b /\ trim1 (rev (slice a b s)) = Some (rev (slice a b' s)).
Proof.
  intros Ha Hb. destruct (Nat.eq_dec a b) as [->|Hne].
  - left. split; [|reflexivity]. unfold strip_back; cbn [fst snd]. unfold slice. rewrite Nat.sub_diag. reflexivity.
  - right. destruct (slice1 (b - 1) s ltac:(lia)) as (c & _ & Ec). replace (S (b - 1)) with b in Ec by lia.
    assert (Es : rev (slice a b s) = c :: rev (slice a (b - 1) s)) by (rewrite (slice_app2 a (b - 1) b) by lia; rewrite Ec, rev_app_distr; reflexivity).
    unfold strip_back; cbn [fst snd]. rewrite Es. cbn [trim1].
    destruct (no_group c && _); [exists (b - 1)|exists b]; (split; [reflexivity|]); (split; [lia|congruence]).
Qed.
Lemma strip_raw_spec s a b : a <= b -> b <= List.length s ->
  (strip_raw s (a, b) = Err IndexError /\ b - a <= 2 /\ forallb no_group (slice a b s) = true) \/
  exists a' b', strip_raw s (a, b) = Ok (a', b') /\ a <= a' /\ a' < b' /\ b' <= b /\ a' <= a + 2 /\ b <= b' + 2 /\
    forallb no_group (slice a a' s) = true /\ forallb no_group (slice b' b s) = true /\
    trimmed (slice a' b' s) /\ trimmed (rev (slice a' b' s)).
Proof.
  intros Ha Hb. unfold strip_raw.
  destruct (strip_front_spec s a b Ha Hb) as [[-> ->]|(a1 & -> & L1 & T1)]; cbn [bind].
  { left. split; [reflexivity|]. split; [lia|]. unfold slice; rewrite Nat.sub_diag; reflexivity. }
  destruct (strip_front_spec s a1 b ltac:(lia) Hb) as [[-> ->]|(a2 & -> & L2 & T2)]; cbn [bind].
  { left. split; [reflexivity|]. destruct (slice a b s) as [|x [|y [|z t]]] eqn:E; cbn [trim1 nth_error] in T1; try discriminate;
      assert (Hl := slice_length a b s Hb); rewrite E in Hl; cbn [List.length] in Hl.
    - split; [lia|]. cbn [forallb]. destruct (no_group x) eqn:Ex; [reflexivity|]. cbn [andb] in T1. unfold slice in T1; rewrite Nat.sub_diag in T1; discriminate.
    - unfold slice in T1; rewrite Nat.sub_diag in T1. cbn [firstn] in T1. destruct (no_group x); discriminate.
    - unfold slice in T1; rewrite Nat.sub_diag in T1. cbn [firstn] in T1. destruct (no_group x && _); discriminate. }
  destruct (trim2_spec _ _ _ T1 T2) as (pre & Ep & Lp & Fp & Tp).
  assert (Epre : pre = slice a a2 s).
  { rewrite (slice_app2 a a2 b) in Ep by lia. symmetry in Ep. apply app_inv_tail in Ep. exact Ep. }
  assert (La : List.length pre = a2 - a) by (rewrite Epre; apply slice_length; lia).
  destruct (strip_back_spec s a2 b ltac:(lia) Hb) as [[-> ->]|(b1 & -> & L3 & T3)]; cbn [bind].
  { left. split; [reflexivity|]. split; [lia|]. rewrite <- Epre; exact Fp. }
  assert (Tb1 : trimmed (slice a2 b1 s)).
  { rewrite <- (rev_involutive (slice a2 b1 s)). eapply trim1_keeps; [|exact T3]. rewrite rev_involutive; exact Tp. }
  assert (Hab1 : a2 < b1).
  { destruct (Nat.eq_dec a2 b1) as [E|]; [|lia]. exfalso.
    assert (Hl := slice_length a2 b s Hb). destruct (slice a2 b s) as [|x [|y t]] eqn:E2.
    - cbn in T3; discriminate.
    - cbn [rev app trim1 nth_error] in T3. subst b1. unfold slice in T3; rewrite Nat.sub_diag in T3. cbn [firstn rev] in T3.
      destruct (no_group x) eqn:Ex; [|discriminate]. destruct (Tp x eq_refl Ex) as (d & Ed & _); discriminate.
    - subst b1. replace (slice a2 a2 s) with (@nil N) in T3 by (unfold slice; rewrite Nat.sub_diag; reflexivity).
      apply (f_equal (fun o => match o with Some l => List.length l | None => 0 end)) in T3.
      assert (G : forall l l', trim1 l = Some l' -> S (List.length l') >= List.length l).
      { intros [|u l] l' H; cbn in H; [discriminate|]. destruct (_ && _); injection H as <-; cbn; lia. }
      destruct (trim1 (rev (x :: y :: t))) as [l'|] eqn:E3; [|destruct (rev (x :: y :: t)) eqn:E4; cbn in E3; [|discriminate]].
      + apply G in E3. rewrite rev_length in E3; cbn [List.length rev] in *. lia.
      + apply (f_equal (@List.length N)) in E4. rewrite rev_length in E4; discriminate. }
  destruct (strip_back_spec s a2 b1 ltac:(lia) ltac:(lia)) as [[_ E]|(b2 & -> & L4 & T4)]; [lia|].
  right. exists a2, b2. destruct (trim2_spec _ _ _ T3 T4) as (pre' & Ep' & Lp' & Fp' & Tp').
  assert (Epre' : rev pre' = slice b2 b s).
  { apply (f_equal (@rev N)) in Ep'. rewrite rev_involutive, rev_app_distr, rev_involutive in Ep'.
    rewrite (slice_app2 a2 b2 b) in Ep' by lia. apply app_inv_head in Ep'. congruence. }
  assert (Lb : List.length pre' = b - b2) by (rewrite <- rev_length, Epre'; apply slice_length; lia).
  assert (Tb2 : trimmed (slice a2 b2 s)).
  { rewrite <- (rev_involutive (slice a2 b2 s)). eapply trim1_keeps; [|exact T4]. rewrite rev_involutive; exact Tb1. }
  assert (Hab2 : a2 < b2).
  { destruct (Nat.eq_dec a2 b2) as [E|]; [|lia]. exfalso. subst b2.
    assert (Hl := slice_length a2 b1 s ltac:(lia)). replace (slice a2 a2 s) with (@nil N) in T4 by (unfold slice; rewrite Nat.sub_diag; reflexivity).
    destruct (slice a2 b1 s) as [|x [|y t]] eqn:E2; [cbn in T4; discriminate| |].
    - cbn [rev app trim1 nth_error] in T4. destruct (no_group x) eqn:Ex; [|discriminate]. destruct (Tb1 x eq_refl Ex) as (d & Ed & _); discriminate.
    - assert (G : forall l l', trim1 l = Some l' -> S (List.length l') >= List.length l).
      { intros [|u l] l' H; cbn in H; [discriminate|]. destruct (_ && _); injection H as <-; cbn; lia. }
      apply G in T4. rewrite !rev_length in T4; cbn [List.length rev] in T4. lia. }
  split; [reflexivity|]. repeat split; try lia; auto.
  - rewrite <- Epre; exact Fp.
  - rewrite <- Epre'. clear -Fp'. rewrite forallb_forall in *. intros x Hx; apply Fp'. apply in_rev; exact Hx.
Qed.

Lemma lower_cons c s : lower (c :: s) = to_lower c :: lower s.
Proof. reflexivity. Qed.
Lemma cased_lower c d : to_lower c = to_lower d -> is_cased c = is_cased d.
Proof. unfold to_lower, is_cased, is_upper, is_lower. intros H. destruct ((65 <=? c)%N && (c <=? 90)%N) eqn:E1, ((65 <=? d)%N && (d <=? 90)%N) eqn:E2; lia. Qed.
Lemma uncased_same c d : to_lower c = to_lower d -> is_cased c = false -> c = d.
Proof. unfold to_lower, is_cased, is_upper, is_lower. intros H. destruct ((65 <=? c)%N && (c <=? 90)%N) eqn:E1, ((65 <=? d)%N && (d <=? 90)%N) eqn:E2; lia. Qed.
Lemma sep_uncased c : word_sep c = true -> is_cased c = false.
Proof.
  unfold word_sep. intros H. apply andb_prop in H as [_ H]. apply cmem_In in H.
  assert (G : forallb (fun c => negb (is_cased c)) seps = true) by reflexivity.
  rewrite forallb_forall in G. specialize (G c H). destruct (is_cased c); [discriminate|reflexivity].
Qed.
Lemma word_sep_case c d : to_lower c = to_lower d -> word_sep c = word_sep d.
Proof.
  intros H. destruct (word_sep c) eqn:Ec.
  - rewrite <- (uncased_same c d H (sep_uncased c Ec)). auto.
  - destruct (word_sep d) eqn:Ed; [|reflexivity]. rewrite <- (uncased_same d c (eq_sym H) (sep_uncased d Ed)) in Ec. congruence.
Qed.
Definition wspan (w : word) : nat * nat := (w_start w, w_end w).
Lemma iter_case s1 s2 : forall p q st1 st2, lower p = lower q ->
  ws_i st1 = ws_i st2 -> ws_last st1 = ws_last st2 -> ws_in st1 = ws_in st2 -> map wspan (ws_out st1) = map wspan (ws_out st2) ->
  let r1 := fold_left (iter_char s1) p st1 in let r2 := fold_left (iter_char s2) q st2 in
  ws_i r1 = ws_i r2 /\ ws_last r1 = ws_last r2 /\ ws_in r1 = ws_in r2 /\ map wspan (ws_out r1) = map wspan (ws_out r2).
Proof.
  induction p as [|c p IH]; intros [|d q] st1 st2 H A B C D; try discriminate; cbn [fold_left]; [auto|].
  rewrite !lower_cons in H. injection H as Hc H. apply IH; [exact H| | | |]; unfold iter_char; rewrite (word_sep_case c d Hc);
    destruct (word_sep d); cbn [ws_i ws_last ws_in ws_out]; try congruence.
  rewrite C. destruct (ws_in st2); [|exact D]. rewrite !map_app, D. unfold the_word, wspan; cbn. rewrite A, B. reflexivity.
Qed.
Lemma iter_words_case s1 s2 : same_but_case s1 s2 -> map wspan (iter_words s1) = map wspan (iter_words s2).
Proof.
  intros H. unfold iter_words.
  destruct (iter_case s1 s2 s1 s2 (mk_ws 0 (-1) false []) (mk_ws 0 (-1) false []) H eq_refl eq_refl eq_refl eq_refl) as (A & B & C & D).
  cbn zeta in *. revert A B C D. set (r1 := fold_left (iter_char s1) _ _). set (r2 := fold_left (iter_char s2) _ _).
  intros A B C D. rewrite C. destruct (ws_in r2); [|exact D]. rewrite !map_app, D. unfold the_word, wspan; cbn. rewrite A, B. reflexivity.
Qed.
Lemma title_mono c : forall s seen, istitle_from c seen s = true -> istitle_from c true s = true.
Proof.
  intros s; revert c. induction s as [|x s IH]; intros c seen H; cbn [istitle_from] in *; [reflexivity|].
  destruct (is_upper x); [destruct c; [discriminate|exact H]|]. destruct (is_lower x); [destruct c; [exact H|discriminate]|]. eapply IH; exact H.
Qed.
Lemma title_prefix : forall x c seen y, istitle_from c seen (x ++ y) = true -> istitle_from c true x = true.
Proof.
  induction x as [|a x IH]; intros c seen y H; cbn [istitle_from app] in *; [reflexivity|].
  destruct (is_upper a); [destruct c; [discriminate|eapply IH; exact H]|].
  destruct (is_lower a); [destruct c; [eapply IH; exact H|discriminate]|]. eapply IH; exact H.
Qed.
Lemma title_after : forall u c seen d y, is_cased d = false -> istitle_from c seen (u ++ d :: y) = true -> istitle_from false true y = true.
Proof.
  induction u as [|a u IH]; intros c seen d y Hd H; cbn [istitle_from app] in *.
  - unfold is_cased in Hd. apply Bool.orb_false_iff in Hd as [Hu Hl]. rewrite Hu, Hl in H. eapply title_mono; exact H.
  - destruct (is_upper a); [destruct c; [discriminate|eapply IH; eauto]|].
    destruct (is_lower a); [destruct c; [eapply IH; eauto|discriminate]|]. eapply IH; eauto.
Qed.
Lemma title_seen : forall s c, istitle_from c true s = true -> existsb is_cased s = true -> istitle_from c false s = true.
Proof.
  induction s as [|a s IH]; intros c H E; cbn [istitle_from existsb] in *; [discriminate|]. unfold is_cased in E at 1.
  destruct (is_upper a); [exact H|]. destruct (is_lower a); [exact H|]. apply IH; auto.
Qed.
Lemma title_cased : forall s c, istitle_from c false s = true -> existsb is_cased s = true.
Proof.
  induction s as [|a s IH]; intros c H; cbn [istitle_from existsb] in *; [discriminate|]. unfold is_cased at 1.
  destruct (is_upper a); [reflexivity|]. destruct (is_lower a); [reflexivity|]. eapply IH; exact H.
Qed.
Lemma existsb_cased_lower a b : lower a = lower b -> existsb is_cased a = existsb is_cased b.
Proof.
  revert b; induction a as [|c a IH]; intros [|d b] H; try discriminate; [reflexivity|]. rewrite !lower_cons in H. injection H as Hc H.
  cbn [existsb]. rewrite (cased_lower c d Hc), (IH b H). reflexivity.
Qed.
Lemma lower_slice a b s : lower (slice a b s) = slice a b (lower s).
Proof. unfold lower, slice. rewrite skipn_map, firstn_map. reflexivity. Qed.
Lemma word_title v w : In w (iter_words v) -> istitle v = true -> existsb is_cased (w_value w) = true -> istitle (w_value w) = true.
Proof.
  intros Hw Ht Hc. unfold istitle. apply title_seen; [|exact Hc].
  destruct (WordsProofs.iter_words_spec v) as (Hsp & _ & Hr). rewrite Forall_forall in Hsp. specialize (Hsp w Hw).
  unfold WordsProofs.spanned in Hsp.
  assert (Hm : WordsProofs.maximal_run WordsProofs.is_word_sep v (w_start w) (w_end w)) by (apply Hr; exists w; auto).
  destruct Hm as (Hab & _ & Hst & _). rewrite Hsp. unfold slice.
  destruct Hst as [E|(c & Ec & Hs)].
  - rewrite E. eapply title_prefix with (seen := false). rewrite firstn_skipn. exact Ht.
  - destruct (w_start w) as [|a'] eqn:Ea; [|].
    + eapply title_prefix with (seen := false). rewrite firstn_skipn. exact Ht.
    + replace (S a' - 1) with a' in Ec by lia.
      eapply title_prefix with (seen := true). rewrite firstn_skipn.
      apply nth_error_split in Ec as (l1 & l2 & Ev & Hl). subst a'.
      assert (Es : skipn (S (List.length l1)) v = l2).
      { rewrite Ev. replace (S (List.length l1)) with (List.length (l1 ++ [c])) by (rewrite app_length; cbn; lia).
        replace (l1 ++ c :: l2) with ((l1 ++ [c]) ++ l2) by (rewrite <- app_assoc; reflexivity). rewrite skipn_app, skipn_all, Nat.sub_diag. reflexivity. }
      rewrite Es. unfold istitle in Ht. rewrite Ev in Ht. eapply title_after; [|exact Ht].
      apply sep_uncased, WordsProofs.word_sep_iff; exact Hs.
Qed.
Lemma count_title v1 v2 : same_but_case v1 v2 -> istitle v2 = true -> count_title_words v1 <= count_title_words v2.
Proof.
  intros H Ht. unfold count_title_words.
  pose proof (iter_words_case v1 v2 H) as E.
  assert (G1 : forall w, In w (iter_words v1) -> w_value w = slice (w_start w) (w_end w) v1).
  { destruct (WordsProofs.iter_words_spec v1) as (Hsp & _). rewrite Forall_forall in Hsp. exact Hsp. }
  assert (G2 : forall w, In w (iter_words v2) -> w_value w = slice (w_start w) (w_end w) v2 /\ (existsb is_cased (w_value w) = true -> istitle (w_value w) = true)).
  { destruct (WordsProofs.iter_words_spec v2) as (Hsp & _). rewrite Forall_forall in Hsp. intros w Hw; split; [exact (Hsp w Hw)|].
    intros Hc. eapply word_title; eauto. }
  revert E G1 G2. generalize (iter_words v1) (iter_words v2). induction l as [|a l IH]; intros [|b l'] E G1 G2; try discriminate; [reflexivity|].
  cbn [map] in E. injection E as E1 E2 E. cbn [filter].
  assert (IHl : List.length (filter (fun w => istitle (w_value w)) l) <= List.length (filter (fun w => istitle (w_value w)) l')).
  { apply IH; auto; intros w Hw; [apply G1|apply G2]; right; exact Hw. }
  destruct (istitle (w_value a)) eqn:Ea; [|destruct (istitle (w_value b)); cbn [List.length]; lia].
  destruct (G2 b (or_introl eq_refl)) as [Eb Hb].
  rewrite Hb; [cbn [List.length]; lia|]. apply title_cased in Ea.
  rewrite <- Ea. apply existsb_cased_lower. rewrite Eb, (G1 a (or_introl eq_refl)), !lower_slice, E1, E2. unfold same_but_case in H. rewrite H. reflexivity.
Qed.

(** ** [EnlargeGroupMatches] *)
Lemma remove1_app m a b : mmem m a = true -> remove1 m (a ++ b) = remove1 m a ++ b.
Proof.
  induction a as [|x r IH]; [discriminate|]. unfold mmem; cbn [existsb app remove1]. fold (mmem m r).
  destruct (mt_eqb m x); [reflexivity|]. cbn [orb]. intros H; rewrite IH by exact H. reflexivity.
Qed.
Lemma mt_eqb_sym a b : mt_eqb a b = mt_eqb b a.
Proof. apply Bool.eq_iff_eq_true. rewrite !mt_eqb_eq. split; auto. Qed.
Lemma replace_each_spec f l : forall ms, distinct ms -> distinct l -> (forall m, In m l -> In m ms) -> forall done,
  replace_each f l (ms ++ done) = filter (fun x => negb (mmem x l)) ms ++ done ++ map f l.
Proof.
  unfold replace_each. induction l as [|m l IH]; intros ms Hm Hl Hin done; cbn [fold_left map].
  - rewrite app_nil_r, filter_id; [reflexivity|auto].
  - rewrite remove1_app by (apply mmem_In, Hin; left; reflexivity). rewrite remove1_filter, <- app_assoc by exact Hm.
    inversion Hl as [|? ? Hx Hl']; subst. rewrite IH.
    + rewrite <- app_assoc. cbn [app]. f_equal. rewrite filter_filter. apply filter_ext_In. intros x Hx'.
      unfold mmem; cbn [existsb]. rewrite Bool.negb_orb. f_equal. rewrite mt_eqb_sym. reflexivity.
    + apply distinct_filter; exact Hm.
    + exact Hl'.
    + intros x Hx'. apply filter_In. split; [apply Hin; right; exact Hx'|]. destruct (mt_eqb m x) eqn:E; [|reflexivity].
      exfalso; apply Hx. apply mt_eqb_eq in E. rewrite E. apply in_map; exact Hx'.
Qed.
Lemma replace_each_perm f l ms : distinct ms -> distinct l -> (forall m, In m l -> In m ms) ->
  Permutation (replace_each f l ms) (map (fun m => if mmem m l then f m else m) ms).
Proof.
  intros Hm Hl Hin. replace ms with (ms ++ []) at 1 by apply app_nil_r. rewrite replace_each_spec by assumption. cbn [app].
  assert (P : Permutation l (filter (fun x => mmem x l) ms)).
  { apply NoDup_Permutation; [apply distinct_NoDup; exact Hl|apply distinct_NoDup, distinct_filter; exact Hm|].
    intros x. rewrite filter_In. split; [intros H; split; [auto|apply mmem_In; exact H]|].
    intros [H E]. apply mmem_iff in E as (y & Hy & E). replace x with y; [exact Hy|]. apply (distinct_inj ms); auto. }
  transitivity (filter (fun x => negb (mmem x l)) ms ++ map f (filter (fun x => mmem x l) ms)); [apply Permutation_app_head, Permutation_map; exact P|].
  clear P Hm Hl Hin. induction ms as [|x r IH]; cbn [filter map]; [reflexivity|].
  destruct (mmem x l) eqn:E; cbn [negb map app]; rewrite ?E.
  - rewrite <- Permutation_middle. constructor. exact IH.
  - constructor. exact IH.
Qed.
Lemma flat_filter_distinct {A} (gs : list A) (f : mt -> nat) (pos : A -> nat) ms : distinct ms -> NoDup (map pos gs) ->
  distinct (flat_map (fun g => filter (fun m => f m =? pos g) ms) gs).
Proof.
  intros Hm. induction gs as [|g r IH]; cbn [map flat_map]; intros H; [constructor|].
  inversion H as [|? ? Hg Hr]; subst. specialize (IH Hr). unfold distinct in *. rewrite map_app.
  assert (D := distinct_filter (fun m => f m =? pos g) ms Hm). unfold distinct in D.
  assert (G : forall l1 l2 : list (nat * nat * str * mval * option pinfo), NoDup l1 -> NoDup l2 -> (forall x, In x l1 -> ~ In x l2) -> NoDup (l1 ++ l2)).
  { clear. induction l1 as [|x l1 IHl]; cbn; intros l2 H1 H2 H; [exact H2|]. inversion H1; subst.
    constructor; [rewrite in_app_iff; intros [A|A]; [contradiction|apply (H x); auto]|]. apply IHl; auto. }
  apply G; [exact D|exact IH|]. intros k Hk Hk'. apply in_map_iff in Hk as (x & <- & Hx). apply in_map_iff in Hk' as (y & Ey & Hy).
  apply filter_In in Hx as [Hx Ex]. apply in_flat_map in Hy as (g' & Hg' & Hy). apply filter_In in Hy as [Hy Ey'].
  assert (x = y) by (apply (distinct_inj ms); auto). subst y. apply Nat.eqb_eq in Ex, Ey'. apply Hg. apply in_map_iff. exists g'. split; [congruence|exact Hg'].
Qed.
