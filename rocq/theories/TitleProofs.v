(** Facts about the model of title.py *)
From Verif Require Import Py PyFacts Text TextFacts Sort Formatters FormattersProofs FormattersProps Rebulk RebulkFacts RuleSpec Processors Title.
From Coq Require Import Arith ZifyBool Sorted Permutation.

(** ** holes with ignored matches *)
Definition taken (ign : mt -> bool) (ms : list mt) : list mt := filter (fun m => negb (ign m)) ms.
Lemma taken_inside s ign ms : inside s ms -> inside s (taken ign ms).
Proof. intros H m Hm. apply filter_In in Hm as [Hm _]. exact (H m Hm). Qed.
Lemma taken_nonempty ign ms : nonempty ms -> nonempty (taken ign ms).
Proof. intros H m Hm. apply filter_In in Hm as [Hm _]. exact (H m Hm). Qed.
Lemma forallb_filter {A} (p q : A -> bool) l : forallb p (filter q l) = forallb (fun x => negb (q x) || p x) l.
Proof. induction l as [|x l IH]; cbn [filter forallb]; [reflexivity|]. destruct (q x); cbn [forallb negb orb andb]; rewrite IH; reflexivity. Qed.
Lemma existsb_filter {A} (p q : A -> bool) l : existsb p (filter q l) = existsb (fun x => q x && p x) l.
Proof. induction l as [|x l IH]; cbn [filter existsb]; [reflexivity|]. destruct (q x); cbn [existsb andb orb]; rewrite IH; reflexivity. Qed.
Lemma find_ext {A} (p q : A -> bool) l : (forall x, p x = q x) -> find p l = find q l.
Proof. intros H. induction l as [|x l IH]; cbn [find]; [reflexivity|]. rewrite H, IH. reflexivity. Qed.
Lemma existsb_ext' {A} (p q : A -> bool) l : (forall x, p x = q x) -> existsb p l = existsb q l.
Proof. intros H. induction l as [|x l IH]; cbn [existsb]; [reflexivity|]. rewrite H, IH. reflexivity. Qed.
Lemma forallb_ext' {A} (p q : A -> bool) l : (forall x, p x = q x) -> forallb p l = forallb q l.
Proof. intros H. induction l as [|x l IH]; cbn [forallb]; [reflexivity|]. rewrite H, IH. reflexivity. Qed.

Lemma holes_ignore s ms a b ign hseps : inside s ms -> holes s ms a b ign hseps = holes s (taken ign ms) a b never hseps.
Proof.
  intros Hi. unfold holes. rewrite !max_end_inside by (auto using taken_inside).
  assert (HS : forall i, existsb (fun m => negb (ign m)) (starting i ms) = existsb (fun m => negb (never m)) (starting i (taken ign ms))).
  { intros i. unfold starting, taken. rewrite !existsb_filter. apply existsb_ext'. intros x. unfold never. destruct (ign x), (m_start x =? i); reflexivity. }
  assert (HF : forall i, forallb ign (at_index i ms) = forallb never (at_index i (taken ign ms))).
  { intros i. unfold at_index, taken. rewrite !forallb_filter. apply forallb_ext'. intros x. unfold never. destruct (ign x), (covers i x); reflexivity. }
  assert (E1 : hole_start a ms ign = hole_start a (taken ign ms) never).
  { unfold hole_start. rewrite (find_ext _ _ _ HS). reflexivity. }
  assert (E2 : forall i n, hole_end i n ms ign = hole_end i n (taken ign ms) never).
  { intros i n. unfold hole_end. rewrite (find_ext _ _ _ HS). reflexivity. }
  assert (E3 : forall l st, fold_left (hole_step s ms ign hseps a) l st = fold_left (hole_step s (taken ign ms) never hseps a) l st).
  { induction l as [|i l IH]; intros st; cbn [fold_left]; [reflexivity|]. rewrite IH. f_equal. unfold hole_step. rewrite HF. reflexivity. }
  rewrite E1, E3. destruct (h_open _); [rewrite E2|]; reflexivity.
Qed.

(** a position is in a hole iff no match covers it but ignored ones *)
Lemma holes_cover_ignore s ms a b ign : nonempty ms -> inside s ms -> forall j,
  (exists h, In h (holes s ms a b ign None) /\ fst h <= j < snd h) <->
  (a <= j < Nat.min (List.length s) b /\ forall m, In m ms -> m_start m <= j < m_end m -> ign m = true).
Proof.
  intros Hn Hi j. rewrite holes_ignore by exact Hi. rewrite holes_cover by (apply taken_nonempty; exact Hn).
  rewrite max_end_inside by (apply taken_inside; exact Hi). apply and_iff_compat_l. split.
  - intros H m Hm Hj. destruct (ign m) eqn:E; [reflexivity|]. exfalso; apply H. exists m. split; [|exact Hj]. apply filter_In. rewrite E; auto.
  - intros H (m & Hm & Hj). apply filter_In in Hm as [Hm E]. rewrite (H m Hm Hj) in E. discriminate.
Qed.

(** ** crop *)
Definition insp (j : nat) (h : span) : Prop := fst h <= j < snd h.
Lemma crop1_cover c cur : fst c <= snd c -> forall j,
  (exists h, (fst (crop1 c cur) = Some h \/ snd (crop1 c cur) = Some h) /\ insp j h) <-> insp j cur /\ ~ insp j c.
Proof.
  destruct c as [gs ge], cur as [cs ce]. cbn [fst snd]. intros Hg j. unfold crop1, insp; cbn [fst snd].
  assert (S2 : forall (o1 o2 : option span) (P : span -> Prop), (exists h, (o1 = Some h \/ o2 = Some h) /\ P h) <->
     (match o1 with Some h => P h | None => False end \/ match o2 with Some h => P h | None => False end)).
  { intros o1 o2 P. split.
    - intros (h & [->| ->] & H); auto.
    - intros [H|H]; [destruct o1 as [h|]|destruct o2 as [h|]]; try contradiction; exists h; auto. }
  destruct (Nat.ltb_spec gs cs), (Nat.ltb_spec ce ge); cbn [andb fst snd].
  - rewrite S2. lia.
  - destruct (Nat.leb_spec cs gs); [lia|]. cbn [andb]. destruct (Nat.leb_spec ge ce); [|lia]. cbn [andb].
    destruct (Nat.ltb_spec cs ge); cbn [fst snd]; rewrite S2; cbn [fst snd]; lia.
  - destruct (Nat.leb_spec cs gs); [|lia]. cbn [andb]. destruct (Nat.leb_spec ge ce); [lia|]. cbn [andb].
    destruct (Nat.ltb_spec gs ce); cbn [fst snd]; rewrite S2; cbn [fst snd]; lia.
  - destruct (Nat.leb_spec cs gs); [|lia]. destruct (Nat.leb_spec ge ce); [|lia]. cbn [andb fst snd]. rewrite S2.
    destruct (Nat.ltb_spec cs gs), (Nat.ltb_spec ge ce); cbn [fst snd]; lia.
Qed.
Lemma olist_In {A} (o : option A) x : In x (olist o) <-> o = Some x.
Proof. destruct o as [y|]; cbn; [|split; [intros []|discriminate]]. split; [intros [->|[]]; reflexivity|intros E; injection E as ->; auto]. Qed.
Lemma crop_step_In ret c h : In h (crop_step ret c) <-> exists cur, In cur ret /\ (fst (crop1 c cur) = Some h \/ snd (crop1 c cur) = Some h).
Proof.
  unfold crop_step. rewrite in_app_iff, !in_flat_map. split.
  - intros [(cur & Hc & H)|(cur & Hc & H)]; apply olist_In in H; exists cur; auto.
  - intros (cur & Hc & [H|H]); [left|right]; exists cur; rewrite olist_In; auto.
Qed.
Lemma crop_fold_cover j : forall crops ret, (forall c, In c crops -> fst c <= snd c) ->
  (exists h, In h (fold_left crop_step crops ret) /\ insp j h) <->
  (exists h, In h ret /\ insp j h) /\ forall c, In c crops -> ~ insp j c.
Proof.
  induction crops as [|c crops IH]; intros ret Hc; cbn [fold_left].
  - split; [intros H; split; [exact H|intros c []]|intros [H _]; exact H].
  - rewrite IH by (intros d Hd; apply Hc; right; exact Hd).
    assert (E : (exists h, In h (crop_step ret c) /\ insp j h) <-> (exists h, In h ret /\ insp j h) /\ ~ insp j c).
    { pose proof (fun cur => crop1_cover c cur (Hc c (or_introl eq_refl)) j) as C. split.
      - intros (h & H & Hj). apply crop_step_In in H as (cur & Hcur & H).
        destruct (proj1 (C cur)) as [Ha Hb]; [exists h; auto|]. split; [exists cur; auto|exact Hb].
      - intros ((cur & Hcur & Hj) & Hb). destruct (proj2 (C cur) (conj Hj Hb)) as (h & H & Hh). exists h. split; [|exact Hh].
        apply crop_step_In. exists cur; auto. }
    rewrite E. split.
    + intros [[H1 H2] H3]. split; [exact H1|]. intros d [<-|Hd]; auto.
    + intros [H1 H2]. split; [split; [exact H1|apply H2; left; reflexivity]|]. intros d Hd; apply H2; right; exact Hd.
Qed.
Lemma crop_cover crops h j : (forall c, In c crops -> fst c <= snd c) ->
  (exists p, In p (crop crops h) /\ insp j p) <-> insp j h /\ forall c, In c crops -> ~ insp j c.
Proof.
  intros Hc. unfold crop. rewrite crop_fold_cover by exact Hc. apply and_iff_compat_r. split.
  - intros (x & [->|[]] & H); exact H.
  - intros H; exists h; cbn; auto.
Qed.
(** every character of a piece is a character of the hole *)
Lemma crop_sub crops h p j : (forall c, In c crops -> fst c <= snd c) -> In p (crop crops h) -> insp j p ->
  insp j h /\ forall c, In c crops -> ~ insp j c.
Proof. intros Hc Hp Hj. apply (crop_cover crops h j Hc). exists p; auto. Qed.

(** ** the value of a hole *)
Lemma title_text_nonnil t : nonnil (title_text t) = true <-> exists c, In c t /\ is_sep c = false.
Proof.
  unfold title_text. destruct (cleanup_touches t) as (u & E & Ht & _ & Hh & _). rewrite E.
  assert (L := ot_letters t u Ht).
  assert (R : nonnil (reorder_title u [lit "the"] [lit ","; lit ", "]) = nonnil u).
  { destruct (C19_reorder u [lit "the"] [lit ","; lit ", "]) as [H|[-> _]]; [repeat constructor; discriminate| |reflexivity].
    destruct H as (la & art & ra & ls & sep & rs & rest & sepT & artT & Ea & _ & Eu & _ & El & -> & _).
    assert (artT <> []).
    { intros ->. cbn in El. subst art. destruct la as [|x [|y la]]; [discriminate Ea|discriminate Ea|]. destruct la; discriminate Ea. }
    rewrite Eu. destruct artT as [|c artT]; [contradiction|]. cbn [app]. destruct rest; [|reflexivity]. destruct sepT; reflexivity. }
  rewrite R. clear R. split.
  - intros H. destruct u as [|c u]; [discriminate|]. specialize (Hh c eq_refl).
    destruct (forallb is_sep t) eqn:F.
    + exfalso. rewrite forallb_forall in F.
      assert (Ec : is_sep c = true).
      { destruct (is_sep c) eqn:Ec; [reflexivity|]. assert (In c (filter (fun c => negb (is_sep c)) t)).
        { rewrite <- L. apply filter_In. rewrite Ec. split; [left; reflexivity|reflexivity]. }
        apply filter_In in H0 as [H0 H1]. rewrite (F c H0) in H1. discriminate. }
      apply Hh. split; [apply cmem_In; exact Ec|]. intros (i & (Hs & _) & _).
      unfold single_sep in Hs. destruct Hs as (_ & x & _ & _ & _ & (a & Ha & Na) & _). apply Na. apply cmem_In. apply F.
      eapply nth_error_In; exact Ha.
    + clear -F. induction t as [|c t IH]; cbn [forallb] in F; [discriminate|]. destruct (is_sep c) eqn:E.
      * destruct (IH F) as (d & Hd & Ed). exists d; split; [right; exact Hd|exact Ed].
      * exists c; split; [left; reflexivity|exact E].
  - intros (c & Hc & Ec). destruct u as [|d u]; [|reflexivity]. exfalso.
    assert (In c (filter (fun c => negb (is_sep c)) t)) by (apply filter_In; rewrite Ec; auto). rewrite <- L in H. destruct H.
Qed.
Lemma hole_value_nonnil s h : nonnil (hole_value s h) = true <-> exists j c, insp j h /\ nth_error s j = Some c /\ is_sep c = false.
Proof.
  unfold hole_value. rewrite title_text_nonnil. unfold raw, insp. split.
  - intros (c & Hc & Ec). apply In_nth_error in Hc as [i Hi]. rewrite slice_nth in Hi. destruct (Nat.ltb_spec i (snd h - fst h)); [|discriminate].
    exists (fst h + i), c. repeat split; auto; lia.
  - intros (j & c & Hj & Hc & Ec). exists c. split; [|exact Ec]. apply (nth_error_In _ (j - fst h)). rewrite slice_nth.
    destruct (Nat.ltb_spec (j - fst h) (snd h - fst h)); [|lia]. replace (fst h + (j - fst h)) with j by lia. exact Hc.
Qed.
Lemma nonnil_iff {A} (l : list A) : nonnil l = true <-> l <> [].
Proof. destruct l; cbn; split; congruence. Qed.

(** ** chains *)
Lemma filter_mt_eqb m l : filter (mt_eqb m) l <> [] <-> exists x, In x l /\ mkey x = mkey m.
Proof.
  split.
  - intros H. destruct (filter (mt_eqb m) l) as [|x r] eqn:E; [congruence|]. assert (Hx : In x (filter (mt_eqb m) l)) by (rewrite E; left; reflexivity).
    apply filter_In in Hx as [Hx Hk]. apply mt_eqb_eq in Hk. exists x; auto.
  - intros (x & Hx & Hk) E. assert (In x (filter (mt_eqb m) l)) by (apply filter_In; split; [exact Hx|apply mt_eqb_eq; congruence]).
    rewrite E in H. destruct H.
Qed.
Lemma merge_new_nonnil a b : a <> [] -> merge_new a b <> [].
Proof.
  unfold merge_new. revert a. induction b as [|m b IH]; intros a H; cbn [fold_left]; [exact H|]. apply IH.
  destruct (mmem m a); [exact H|]. destruct a; discriminate.
Qed.
Lemma chain_down_acc s ms p : forall i acc, acc <> [] -> chain_down s ms p i acc <> [].
Proof.
  induction i as [|i IH]; intros acc H; cbn [chain_down]; [exact H|]. destruct (filter p (at_index i ms)).
  - destruct (sep_at s i); auto.
  - apply IH. apply merge_new_nonnil; exact H.
Qed.
Lemma merge_new_nil_l x l : merge_new [] (x :: l) <> [].
Proof. unfold merge_new. cbn [fold_left mmem existsb]. apply (merge_new_nonnil [x] l). discriminate. Qed.
(** the match is reached going down through separators *)
Lemma chain_down_iff s ms m : In m ms -> forall i,
  chain_down s ms (mt_eqb m) i [] <> [] <->
  exists k, k < i /\ m_start m <= k < m_end m /\ forall l, k < l < i -> sep_at s l = true.
Proof.
  intros Hm. assert (A : forall i, filter (mt_eqb m) (at_index i ms) <> [] <-> m_start m <= i < m_end m).
  { intros i. rewrite filter_mt_eqb. unfold at_index. split.
    - intros (x & Hx & E). apply filter_In in Hx as [_ C]. unfold covers in C. unfold mkey in E. injection E as E1 E2 _ _ _. lia.
    - intros H. exists m. split; [apply filter_In; split; [exact Hm|unfold covers; lia]|reflexivity]. }
  induction i as [|i IH]; cbn [chain_down].
  - split; [congruence|]. intros (k & H & _); lia.
  - destruct (filter (mt_eqb m) (at_index i ms)) as [|x l] eqn:E.
    + assert (N : ~ (m_start m <= i < m_end m)) by (intros H; apply A in H; congruence).
      destruct (sep_at s i) eqn:Es.
      * rewrite IH. split; intros (k & H1 & H2 & H3); exists k.
        -- split; [lia|]. split; [exact H2|]. intros l Hl. destruct (Nat.eq_dec l i) as [->|]; [exact Es|apply H3; lia].
        -- assert (k <> i) by (intros ->; lia). split; [lia|]. split; [exact H2|]. intros l Hl; apply H3; lia.
      * split; [congruence|]. intros (k & H1 & H2 & H3). exfalso. destruct (Nat.eq_dec k i) as [->|]; [lia|]. rewrite H3 in Es by lia. discriminate.
    + assert (m_start m <= i < m_end m) by (apply A; rewrite E; discriminate). split; intros _.
      * exists i. split; [lia|]. split; [exact H|]. intros l' Hl; lia.
      * apply chain_down_acc. apply merge_new_nil_l.
Qed.
Lemma chain_up_acc s ms p : forall n i acc, acc <> [] -> chain_up s ms p n i acc <> [].
Proof.
  induction n as [|n IH]; intros i acc H; cbn [chain_up]; [exact H|]. destruct (filter p (at_index i ms)).
  - destruct (sep_at s i); auto.
  - apply IH. apply merge_new_nonnil; exact H.
Qed.
Lemma chain_up_iff s ms m : In m ms -> forall n i,
  chain_up s ms (mt_eqb m) n i [] <> [] <->
  exists k, i <= k < i + n /\ m_start m <= k < m_end m /\ forall l, i <= l < k -> sep_at s l = true.
Proof.
  intros Hm. assert (A : forall i, filter (mt_eqb m) (at_index i ms) <> [] <-> m_start m <= i < m_end m).
  { intros i. rewrite filter_mt_eqb. unfold at_index. split.
    - intros (x & Hx & E). apply filter_In in Hx as [_ C]. unfold covers in C. unfold mkey in E. injection E as E1 E2 _ _ _. lia.
    - intros H. exists m. split; [apply filter_In; split; [exact Hm|unfold covers; lia]|reflexivity]. }
  induction n as [|n IH]; intros i; cbn [chain_up].
  - split; [congruence|]. intros (k & H & _); lia.
  - destruct (filter (mt_eqb m) (at_index i ms)) as [|x l] eqn:E.
    + assert (N : ~ (m_start m <= i < m_end m)) by (intros H; apply A in H; congruence).
      destruct (sep_at s i) eqn:Es.
      * rewrite IH. split; intros (k & H1 & H2 & H3); exists k.
        -- split; [lia|]. split; [exact H2|]. intros l Hl. destruct (Nat.eq_dec l i) as [->|]; [exact Es|apply H3; lia].
        -- assert (k <> i) by (intros ->; lia). split; [lia|]. split; [exact H2|]. intros l Hl; apply H3; lia.
      * split; [congruence|]. intros (k & H1 & H2 & H3). exfalso. destruct (Nat.eq_dec k i) as [->|]; [lia|]. rewrite H3 in Es by lia. discriminate.
    + assert (m_start m <= i < m_end m) by (apply A; rewrite E; discriminate). split; intros _.
      * exists i. split; [lia|]. split; [exact H|]. intros l' Hl; lia.
      * apply chain_up_acc. apply merge_new_nil_l.
Qed.
(** between two positions, with the match [m] in between: [m] is reached from [pos] going back over separators *)
Lemma chain_before_iff s ms m pos : In m ms -> inside s ms -> pos <= List.length s ->
  nonnil (chain_before s ms pos (mt_eqb m)) = true <->
  exists k, k < pos /\ m_start m <= k < m_end m /\ forall l, k < l < pos -> sep_at s l = true.
Proof. intros Hm Hi Hp. rewrite nonnil_iff. unfold chain_before. rewrite max_end_inside, Nat.min_r by assumption. apply chain_down_iff; exact Hm. Qed.
Lemma chain_after_iff s ms m pos : In m ms -> inside s ms ->
  nonnil (chain_after s ms pos (mt_eqb m)) = true <->
  exists k, pos <= k /\ m_start m <= k < m_end m /\ forall l, pos <= l < k -> sep_at s l = true.
Proof.
  intros Hm Hi. rewrite nonnil_iff. unfold chain_after. rewrite max_end_inside by exact Hi. rewrite chain_up_iff by exact Hm.
  destruct (Hi m Hm). split; intros (k & H1 & H2 & H3); exists k; (split; [lia|]); split; auto.
Qed.

(** ** trimming *)
(** what is cut off a hole: separators and characters of the kept matches; the kept matches are ignored ones and
    are not in the hole any more *)
Record trimmed (s : str) (ignored : list mt) (hole : span) (st : span * list mt) : Prop := {
  tm_sub : forall j, insp j (fst st) -> insp j hole;
  tm_lo : fst hole <= fst (fst st);
  tm_hi : snd (fst st) <= snd hole;
  tm_kept : forall m, In m (snd st) -> In m ignored;
  tm_out : forall m j, In m (snd st) -> insp j (fst st) -> ~ (m_start m <= j < m_end m);
  tm_cut : forall j, insp j hole -> ~ insp j (fst st) -> sep_at s j = true \/ exists m, In m (snd st) /\ m_start m <= j < m_end m
}.
Lemma trail_trimmed s ms part ignored hole st m : inside s ms -> In m ms -> In m ignored -> snd hole <= List.length s ->
  trimmed s ignored hole st -> trimmed s ignored hole (trail_step s ms part st m).
Proof.
  intros Hi Hm Hg Hl T. destruct st as [h k]. unfold trail_step.
  destruct (nonnil (chain_before s ms (snd h) (mt_eqb m)) && should_keep s ms k part h false m) eqn:E; [|exact T].
  apply Bool.andb_true_iff in E as [E _]. destruct T as [T1 T2 T3 T4 T5 T6]. cbn [fst snd] in *.
  apply chain_before_iff in E as (q & Q1 & Q2 & Q3); [|assumption..|lia].
  split; cbn [fst snd]; unfold insp in *; cbn [fst snd] in *.
  - intros j Hj. apply T1. lia.
  - exact T2.
  - lia.
  - intros x Hx. apply in_app_iff in Hx as [Hx|[<-|[]]]; auto.
  - intros x j Hx Hj. apply in_app_iff in Hx as [Hx|[<-|[]]]; [apply T5; [exact Hx|lia]|lia].
  - intros j Hj Hn. destruct (Nat.lt_ge_cases j (snd h)) as [Hlt|Hge].
    + destruct (Nat.lt_ge_cases j (fst h)) as [H1|H1].
      * destruct (T6 j Hj) as [H|(x & Hx & Hc)]; [lia|left; exact H|right; exists x; split; [apply in_app_iff; auto|exact Hc]].
      * destruct (Nat.le_gt_cases j q) as [H2|H2].
        -- right. exists m. split; [apply in_app_iff; right; left; reflexivity|lia].
        -- left. apply Q3; lia.
    + destruct (T6 j Hj) as [H|(x & Hx & Hc)]; [lia|left; exact H|right; exists x; split; [apply in_app_iff; auto|exact Hc]].
Qed.
Lemma lead_trimmed s ms part ignored hole st m : inside s ms -> In m ms -> In m ignored ->
  trimmed s ignored hole st -> trimmed s ignored hole (lead_step s ms part st m).
Proof.
  intros Hi Hm Hg T. destruct st as [h k]. unfold lead_step. destruct (mmem m k); [exact T|].
  destruct (nonnil (chain_after s ms (fst h) (mt_eqb m)) && should_keep s ms k part h true m) eqn:E; [|exact T].
  apply Bool.andb_true_iff in E as [E _]. destruct T as [T1 T2 T3 T4 T5 T6]. cbn [fst snd] in *.
  apply chain_after_iff in E as (q & Q1 & Q2 & Q3); [|assumption..].
  split; cbn [fst snd]; unfold insp in *; cbn [fst snd] in *.
  - intros j Hj. apply T1. lia.
  - lia.
  - exact T3.
  - intros x Hx. apply in_app_iff in Hx as [Hx|[<-|[]]]; auto.
  - intros x j Hx Hj. apply in_app_iff in Hx as [Hx|[<-|[]]]; [apply T5; [exact Hx|lia]|lia].
  - intros j Hj Hn. destruct (Nat.lt_ge_cases j (fst h)) as [Hlt|Hge].
    + destruct (T6 j Hj) as [H|(x & Hx & Hc)]; [lia|left; exact H|right; exists x; split; [apply in_app_iff; auto|exact Hc]].
    + destruct (Nat.lt_ge_cases j (snd h)) as [H1|H1].
      * destruct (Nat.lt_ge_cases j q) as [H2|H2]; [left; apply Q3; lia|]. right. exists m. split; [apply in_app_iff; right; left; reflexivity|lia].
      * destruct (T6 j Hj) as [H|(x & Hx & Hc)]; [lia|left; exact H|right; exists x; split; [apply in_app_iff; auto|exact Hc]].
Qed.
Lemma trim_trimmed s ms part hole ignored : inside s ms -> (forall m, In m ignored -> In m ms) -> snd hole <= List.length s ->
  trimmed s ignored hole (trim s ms part hole ignored).
Proof.
  intros Hi Hg Hl. unfold trim.
  assert (G1 : forall l st, (forall m, In m l -> In m ignored) -> trimmed s ignored hole st -> trimmed s ignored hole (fold_left (trail_step s ms part) l st)).
  { induction l as [|m l IH]; intros st Hs T; cbn [fold_left]; [exact T|]. apply IH; [intros x Hx; apply Hs; right; exact Hx|].
    apply trail_trimmed; auto; [apply Hg|]; apply Hs; left; reflexivity. }
  assert (G2 : forall l st, (forall m, In m l -> In m ignored) -> trimmed s ignored hole st -> trimmed s ignored hole (fold_left (lead_step s ms part) l st)).
  { induction l as [|m l IH]; intros st Hs T; cbn [fold_left]; [exact T|]. apply IH; [intros x Hx; apply Hs; right; exact Hx|].
    apply lead_trimmed; auto; [apply Hg|]; apply Hs; left; reflexivity. }
  apply G2; [auto|]. apply G1; [intros m Hm; apply in_rev; exact Hm|].
  split; cbn [fst snd]; auto; try lia; try (intros m []); try (intros m j []).
Qed.

(** ** splitting *)
Lemma runs_spec p : forall t i cur, (forall a, cur = Some a -> a < i) ->
  (forall h, In h (runs p t i cur) -> (match cur with Some a => a | None => i end) <= fst h < snd h /\ snd h <= i + List.length t) /\
  (forall h j c, In h (runs p t i cur) -> insp j h -> i <= j -> nth_error t (j - i) = Some c -> p c = false) /\
  (forall j c, i <= j -> nth_error t (j - i) = Some c -> p c = false -> exists h, In h (runs p t i cur) /\ insp j h) /\
  StronglySorted (fun x y => snd x < fst y) (runs p t i cur) /\
  (forall a, cur = Some a -> exists b l, runs p t i cur = (a, b) :: l /\ i <= b).
Proof.
  induction t as [|c t IH]; intros i cur Hcur; cbn [runs].
  - destruct cur as [a|].
    + specialize (Hcur a eq_refl). repeat apply conj.
      * intros h [<-|[]]. cbn. lia.
      * intros h j c _ _ _ E. destruct (j - i); discriminate.
      * intros j c _ E. destruct (j - i); discriminate.
      * repeat constructor.
      * intros b E; injection E as <-. exists i, []. auto.
    + repeat apply conj; try (intros; contradiction); try (intros; discriminate).
      * intros j c _ E. destruct (j - i); discriminate.
      * constructor.
  - cbn [List.length]. destruct (p c) eqn:Pc.
    + destruct (IH (S i) None ltac:(discriminate)) as (I1 & I2 & I3 & I4 & _).
      assert (Shift : forall j d, S i <= j -> nth_error (c :: t) (j - i) = Some d -> nth_error t (j - S i) = Some d).
      { intros j d Hj E. replace (j - i) with (S (j - S i)) in E by lia. exact E. }
      destruct cur as [a|].
      * specialize (Hcur a eq_refl). repeat apply conj.
        -- intros h [<-|H]; [cbn; lia|]. specialize (I1 h H). lia.
        -- intros h j d [<-|H] Hj Hij E; [unfold insp in Hj; cbn in Hj; lia|].
           specialize (I1 h H). unfold insp in Hj. apply (I2 h j d H Hj); [lia|apply Shift; [lia|exact E]].
        -- intros j d Hij E Pd. destruct (Nat.eq_dec j i) as [->|]; [rewrite Nat.sub_diag in E; cbn in E; congruence|].
           destruct (I3 j d ltac:(lia) (Shift j d ltac:(lia) E) Pd) as (h & H & Hj). exists h. split; [right; exact H|exact Hj].
        -- constructor; [exact I4|]. apply Forall_forall. intros h H. specialize (I1 h H). cbn. lia.
        -- intros b E; injection E as <-. eexists i, _. split; [reflexivity|lia].
      * repeat apply conj.
        -- intros h H. specialize (I1 h H). lia.
        -- intros h j d H Hj Hij E. specialize (I1 h H). unfold insp in Hj. apply (I2 h j d H Hj); [lia|apply Shift; [lia|exact E]].
        -- intros j d Hij E Pd. destruct (Nat.eq_dec j i) as [->|]; [rewrite Nat.sub_diag in E; cbn in E; congruence|].
           apply (I3 j d); [lia|apply Shift; [lia|exact E]|exact Pd].
        -- exact I4.
        -- discriminate.
    + set (a := match cur with Some a => a | None => i end).
      assert (Ha : a <= i) by (unfold a; destruct cur as [x|]; [specialize (Hcur x eq_refl)|]; lia).
      destruct (IH (S i) (Some a)) as (I1 & I2 & I3 & I4 & I5); [intros x E; injection E as <-; lia|].
      assert (Shift : forall j d, S i <= j -> nth_error (c :: t) (j - i) = Some d -> nth_error t (j - S i) = Some d).
      { intros j d Hj E. replace (j - i) with (S (j - S i)) in E by lia. exact E. }
      destruct (I5 a eq_refl) as (b & l & El & Hb). repeat apply conj.
      * intros h H. specialize (I1 h H). cbv iota beta in I1. fold a. lia.
      * intros h j d H Hj Hij E. destruct (Nat.eq_dec j i) as [->|]; [rewrite Nat.sub_diag in E; cbn in E; congruence|].
        apply (I2 h j d H Hj); [lia|apply Shift; [lia|exact E]].
      * intros j d Hij E Pd. destruct (Nat.eq_dec j i) as [->|]; [|apply (I3 j d); [lia|apply Shift; [lia|exact E]|exact Pd]].
        exists (a, b). rewrite El. split; [left; reflexivity|]. unfold insp; cbn; lia.
      * exact I4.
      * intros x E. exists b, l. split; [|lia]. rewrite El. unfold a. rewrite E. reflexivity.
Qed.

(** A dash between two characters that are no separators does not split a title *)
Definition glued (s : str) (i : nat) : Prop :=
  nth_error s i = Some 45%N /\ 0 < i /\
  (exists c, nth_error s (i - 1) = Some c /\ is_sep c = false) /\ (exists c, nth_error s (i + 1) = Some c /\ is_sep c = false).
Definition splits (s : str) (i : nat) : Prop := exists c, nth_error s i = Some c /\ cmem c title_seps = true.

Lemma title_sep_sep c : cmem c title_seps = true -> is_sep c = true.
Proof.
  intros H. apply cmem_In in H. apply cmem_In. unfold title_seps in H. revert c H.
  assert (G : forallb (fun c => cmem c seps) (lit "-+/\|") = true) by reflexivity.
  intros c H. rewrite forallb_forall in G. apply cmem_In. apply G. exact H.
Qed.
Lemma slice_one_iff (s : str) a b c : slice a b s = [c] -> a < b -> nth_error s a = Some c /\ (b = a + 1 \/ List.length s <= a + 1).
Proof.
  intros E Hab. pose proof (slice_nth a b s 0) as H0. pose proof (slice_nth a b s 1) as H1. rewrite E in H0, H1. cbn [nth_error] in H0, H1.
  destruct (Nat.ltb_spec 0 (b - a)); [|lia]. rewrite Nat.add_0_r in H0. split; [auto|].
  destruct (Nat.ltb_spec 1 (b - a)); [|lia]. right. apply nth_error_None. auto.
Qed.
Lemma last_o_nth {A} (l : list A) : last_o l = nth_error l (List.length l - 1).
Proof.
  induction l as [|x l IH]; [reflexivity|]. destruct l as [|y l]; [reflexivity|]. cbn [last_o] in *. rewrite IH. cbn [List.length].
  replace (S (S (List.length l)) - 1) with (S (S (List.length l) - 1)) by lia. reflexivity.
Qed.
Lemma slice_length {A} (a b : nat) (l : list A) : b <= List.length l -> List.length (slice a b l) = b - a.
Proof. intros H. unfold slice. rewrite firstn_length, skipn_length. lia. Qed.
Lemma last_sep_iff s h : fst h < snd h -> snd h <= List.length s ->
  last_sep (raw s h) = false <-> exists c, nth_error s (snd h - 1) = Some c /\ is_sep c = false.
Proof.
  intros H1 H2. unfold last_sep, raw. rewrite last_o_nth, slice_length, slice_nth by exact H2.
  destruct (Nat.ltb_spec (snd h - fst h - 1) (snd h - fst h)); [|lia].
  replace (fst h + (snd h - fst h - 1)) with (snd h - 1) by lia. destruct (nth_error s (snd h - 1)) as [c|] eqn:E.
  - split; [intros; exists c; auto|]. intros (d & Ed & Hd). congruence.
  - apply nth_error_None in E. lia.
Qed.
Lemma first_sep_iff s h : fst h < snd h -> snd h <= List.length s ->
  first_sep (raw s h) = false <-> exists c, nth_error s (fst h) = Some c /\ is_sep c = false.
Proof.
  intros H1 H2. unfold first_sep, raw. pose proof (slice_nth (fst h) (snd h) s 0) as E.
  destruct (Nat.ltb_spec 0 (snd h - fst h)); [|lia]. rewrite Nat.add_0_r in E.
  destruct (slice (fst h) (snd h) s) as [|c r]; cbn [nth_error] in E.
  - symmetry in E. apply nth_error_None in E. lia.
  - split; [intros; exists c; auto|]. intros (d & Ed & Hd). congruence.
Qed.

Section Split.
  Variables (s name alternative : str) (a b : nat).
  Hypothesis Hb : b <= List.length s.
  (** invariant: [acc] has the last title first, [r] are the pieces to come *)
  Record split_inv (r : list span) (acc : list (str * span)) : Prop := {
    si_name : exists l x, acc = l ++ [x] /\ fst x = name /\ forall y, In y l -> fst y = alternative;
    si_in : forall x, In x acc -> a <= fst (snd x) < snd (snd x) /\ snd (snd x) <= b /\ nonnil (hole_value s (snd x)) = true;
    si_order : StronglySorted (fun y x => snd (snd x) < fst (snd y)) acc;
    si_next : forall x h, In x acc -> In h r -> snd (snd x) < fst h;
    si_dash : forall x j, In x acc -> insp j (snd x) -> splits s j -> glued s j;
    si_apart : forall l y x l', acc = l ++ y :: x :: l' -> ~ (fst (snd y) = snd (snd x) + 1 /\ glued s (snd (snd x)))
  }.
  Lemma sorted_cons_In {A} (R : A -> A -> Prop) x l : StronglySorted R (x :: l) -> forall y, In y l -> R x y.
  Proof. intros H. inversion H as [|? ? _ F]; subst. rewrite Forall_forall in F. exact F. Qed.
  Lemma split_step h r acc : StronglySorted (fun x y => snd x < fst y) (h :: r) ->
    a <= fst h < snd h -> snd h <= b -> nonnil (hole_value s h) = true -> (forall j, insp j h -> ~ splits s j) ->
    split_inv (h :: r) acc -> split_inv r (merge_title s alternative acc h) /\
    forall j, (exists x, In x acc /\ insp j (snd x)) \/ insp j h -> exists x, In x (merge_title s alternative acc h) /\ insp j (snd x).
  Proof.
    intros Hs Hh1 Hh2 Hv Hns [I1 I2 I3 I4 I5 I6]. destruct acc as [|[n p] acc].
    - destruct I1 as (l & x & E & _). destruct l; discriminate.
    - cbn [merge_title]. assert (Hp := I2 (n, p) (or_introl eq_refl)). cbn [fst snd] in Hp.
      assert (Hph := I4 (n, p) h (or_introl eq_refl) (or_introl eq_refl)). cbn [snd] in Hph.
      destruct (str_eqb (slice (snd p) (fst h) s) (lit "-") && negb (last_sep (raw s p)) && negb (first_sep (raw s h))) eqn:E.
      + rewrite !Bool.andb_true_iff, !Bool.negb_true_iff, str_eqb_eq in E. destruct E as [[E1 E2] E3].
        apply last_sep_iff in E2; [|lia..]. apply first_sep_iff in E3; [|lia..].
        apply slice_one_iff in E1 as [E1 E1']; [|lia]. assert (Ef : fst h = snd p + 1) by lia. clear E1'.
        assert (G : glued s (snd p)). { split; [exact E1|]. split; [lia|]. rewrite <- Ef. auto. }
        split.
        * split.
          -- destruct I1 as (l & x & El & En & Ea). destruct l as [|y l]; cbn in El; injection El as <- ->; [exists [], (n, (fst p, snd h))|exists ((n, (fst p, snd h)) :: l), x].
             ++ repeat split; auto.
             ++ repeat split; auto. intros y [<-|Hy]; [apply (Ea (n, p)); left; reflexivity|apply Ea; right; exact Hy].
          -- intros x [<-|Hx]; [|apply I2; right; exact Hx]. cbn [fst snd]. split; [lia|]. split; [lia|].
             apply hole_value_nonnil in Hv as (j & c & Hj & Hc & Ec). apply hole_value_nonnil. exists j, c. unfold insp in *; cbn [fst snd]. repeat split; auto; lia.
          -- inversion I3 as [|? ? I3' F]; subst. constructor; [exact I3'|]. exact F.
          -- intros x k [<-|Hx] Hk; [cbn [fst snd]; apply (sorted_cons_In _ h r Hs k Hk)|]. apply I4; right; assumption.
          -- intros x j [<-|Hx] Hj Hsp; [|apply (I5 x j); auto; right; exact Hx]. unfold insp in Hj; cbn [fst snd] in Hj.
             destruct (Nat.lt_ge_cases j (snd p)) as [H|H]; [apply (I5 (n, p) j (or_introl eq_refl)); [unfold insp; cbn; lia|exact Hsp]|].
             destruct (Nat.eq_dec j (snd p)) as [->|]; [exact G|]. exfalso. apply (Hns j); [unfold insp; lia|exact Hsp].
          -- intros l y x l' El. destruct l as [|z l]; cbn in El; injection El as <- ->.
             ++ cbn [fst snd]. apply (I6 [] (n, p) x l' eq_refl).
             ++ apply (I6 ((n, p) :: l) y x l' eq_refl).
        * intros j [(x & [<-|Hx] & Hj)|Hj].
          -- exists (n, (fst p, snd h)). split; [left; reflexivity|]. unfold insp in *; cbn in *; lia.
          -- exists x. split; [right; exact Hx|exact Hj].
          -- exists (n, (fst p, snd h)). split; [left; reflexivity|]. unfold insp in *; cbn in *; lia.
      + split.
        * split.
          -- destruct I1 as (l & x & El & En & Ea). exists ((alternative, h) :: l), x. rewrite El. repeat split; auto.
             intros y [<-|Hy]; [reflexivity|apply Ea; exact Hy].
          -- intros x [<-|Hx]; [cbn [fst snd]; auto|apply I2; exact Hx].
          -- constructor; [exact I3|]. apply Forall_forall. intros x Hx. cbn [snd]. apply I4; [exact Hx|left; reflexivity].
          -- intros x k [<-|Hx] Hk; [cbn [snd]; apply (sorted_cons_In _ h r Hs k Hk)|]. apply I4; [exact Hx|right; exact Hk].
          -- intros x j [<-|Hx] Hj Hsp; [exfalso; exact (Hns j Hj Hsp)|apply (I5 x j); auto].
          -- intros l y x l' El. destruct l as [|z l]; cbn in El.
             ++ injection El as <- Ex _. subst x. cbn [fst snd]. intros [Ef G]. apply Bool.not_true_iff_false in E. apply E.
                destruct G as (G1 & G2 & G3 & G4). rewrite !Bool.andb_true_iff, !Bool.negb_true_iff, str_eqb_eq. split; [split|].
                ** rewrite Ef. unfold slice. replace (snd p + 1 - snd p) with 1 by lia. destruct (skipn (snd p) s) as [|c w] eqn:Ew.
                   --- pose proof (nth_skipn (snd p) s 0) as Hw. rewrite Ew, Nat.add_0_r, G1 in Hw. discriminate.
                   --- pose proof (nth_skipn (snd p) s 0) as Hw. rewrite Ew, Nat.add_0_r, G1 in Hw. cbn in Hw. injection Hw as ->. reflexivity.
                ** apply last_sep_iff; [lia..|exact G3].
                ** apply first_sep_iff; [lia..|]. rewrite Ef. exact G4.
             ++ injection El as <- El. apply (I6 l y x l' El).
        * intros j [(x & Hx & Hj)|Hj]; [exists x; split; [right; exact Hx|exact Hj]|]. exists (alternative, h). split; [left; reflexivity|exact Hj].
  Qed.
  Lemma split_fold : forall r acc, StronglySorted (fun x y => snd x < fst y) r ->
    (forall h, In h r -> a <= fst h < snd h /\ snd h <= b /\ nonnil (hole_value s h) = true /\ forall j, insp j h -> ~ splits s j) ->
    split_inv r acc -> split_inv [] (fold_left (merge_title s alternative) r acc) /\
    forall j, (exists x, In x acc /\ insp j (snd x)) \/ (exists h, In h r /\ insp j h) -> exists x, In x (fold_left (merge_title s alternative) r acc) /\ insp j (snd x).
  Proof.
    induction r as [|h r IH]; intros acc Hs Hr I; cbn [fold_left].
    - split; [exact I|]. intros j [H|(h & [] & _)]. exact H.
    - destruct (Hr h (or_introl eq_refl)) as (H1 & H2 & H3 & H4).
      destruct (split_step h r acc Hs H1 H2 H3 H4 I) as [I' C'].
      destruct (IH (merge_title s alternative acc h)) as [I'' C'']; [inversion Hs; assumption|intros k Hk; apply Hr; right; exact Hk|exact I'|].
      split; [exact I''|]. intros j [H|(k & [<-|Hk] & Hj)]; apply C''; [left; apply C'; left; exact H|left; apply C'; right; exact Hj|right; exists k; auto].
  Qed.
End Split.
Lemma StronglySorted_rev {A} (R : A -> A -> Prop) l : StronglySorted R l -> StronglySorted (fun x y => R y x) (rev l).
Proof.
  induction 1 as [|x l Hs IH Hx]; cbn [rev]; [constructor|].
  rewrite Forall_forall in Hx. assert (G : forall y, In y (rev l) -> R x y) by (intros y Hy; apply Hx; apply in_rev; exact Hy).
  clear Hx Hs. induction (rev l) as [|y r IHr]; cbn [app]; [repeat constructor|]. inversion IH as [|? ? IH' F]; subst.
  constructor; [apply IHr; [exact IH'|intros z Hz; apply G; right; exact Hz]|]. rewrite Forall_forall in *.
  intros z Hz. apply in_app_iff in Hz as [Hz|[<-|[]]]; [apply F; exact Hz|apply G; left; reflexivity].
Qed.
(** The titles of a hole *)
Record split_spec (s name alternative : str) (hole : span) (l : list (str * span)) : Prop := {
  sp_name : exists x r, l = x :: r /\ fst x = name /\ forall y, In y r -> fst y = alternative;
  sp_in : forall x, In x l -> fst hole <= fst (snd x) < snd (snd x) /\ snd (snd x) <= snd hole /\ nonnil (hole_value s (snd x)) = true;
  sp_order : StronglySorted (fun x y => snd (snd x) < fst (snd y)) l;
  sp_all : forall j c, insp j hole -> nth_error s j = Some c -> is_sep c = false -> exists x, In x l /\ insp j (snd x);
  sp_dash : forall x j, In x l -> insp j (snd x) -> splits s j -> glued s j;
  sp_apart : forall l1 x y l2, l = l1 ++ x :: y :: l2 -> ~ (fst (snd y) = snd (snd x) + 1 /\ glued s (snd (snd x)))
}.
Lemma split_titles_spec s name alternative hole : snd hole <= List.length s -> nonnil (hole_value s hole) = true ->
  split_spec s name alternative hole (split_titles s name alternative hole).
Proof.
  intros Hl Hv. unfold split_titles. set (p := fun c => cmem c title_seps).
  destruct (runs_spec p (raw s hole) (fst hole) None ltac:(discriminate)) as (R1 & R2 & R3 & R4 & _).
  assert (EL : fst hole < snd hole) by (apply hole_value_nonnil in Hv as (j & c & Hj & _); unfold insp in Hj; lia).
  assert (Len : List.length (raw s hole) = snd hole - fst hole) by (apply slice_length; exact Hl).
  set (rs := runs p (raw s hole) (fst hole) None) in *.
  set (good := filter (fun h => nonnil (hole_value s h)) rs).
  assert (Hr : forall h, In h good -> fst hole <= fst h < snd h /\ snd h <= snd hole /\ nonnil (hole_value s h) = true /\ forall j, insp j h -> ~ splits s j).
  { intros h Hh. apply filter_In in Hh as [Hh Hn]. specialize (R1 h Hh). cbv iota beta in R1. repeat split; auto; try lia.
    intros j Hj (c & Hc & Ec). specialize (R2 h j c Hh Hj). unfold insp in Hj. assert (p c = false); [|unfold p in *; congruence].
    apply R2; [lia|]. unfold raw. rewrite slice_nth. destruct (Nat.ltb_spec (j - fst hole) (snd hole - fst hole)); [|lia].
    replace (fst hole + (j - fst hole)) with j by lia. exact Hc. }
  assert (Hall : forall j c, insp j hole -> nth_error s j = Some c -> is_sep c = false -> exists h, In h good /\ insp j h).
  { intros j c Hj Hc Ec. unfold insp in Hj. destruct (R3 j c) as (h & Hh & Hjh).
    - lia.
    - unfold raw. rewrite slice_nth. destruct (Nat.ltb_spec (j - fst hole) (snd hole - fst hole)); [|lia].
      replace (fst hole + (j - fst hole)) with j by lia. exact Hc.
    - unfold p. destruct (cmem c title_seps) eqn:E; [|reflexivity]. apply title_sep_sep in E. congruence.
    - exists h. split; [|exact Hjh]. apply filter_In. split; [exact Hh|]. apply hole_value_nonnil. exists j, c. auto. }
  assert (Hsort : StronglySorted (fun x y => snd x < fst y) good) by (apply filter_sorted; exact R4).
  clearbody good. clear R1 R2 R3 R4. clear rs.
  destruct good as [|h good].
  { exfalso. apply hole_value_nonnil in Hv as (j & c & Hj & Hc & Ec). destruct (Hall j c Hj Hc Ec) as (h & [] & _). }
  assert (I0 : split_inv s name alternative (fst hole) (snd hole) good [(name, h)]).
  { destruct (Hr h (or_introl eq_refl)) as (H1 & H2 & H3 & H4). split.
    - exists [], (name, h). repeat split; auto. intros y [].
    - intros x [<-|[]]. cbn [snd]. auto.
    - repeat constructor.
    - intros x k [<-|[]] Hk. cbn [snd]. exact (sorted_cons_In _ h good Hsort k Hk).
    - intros x j [<-|[]] Hj Hsp. exfalso. exact (H4 j Hj Hsp).
    - intros l y x l' E. destruct l as [|? [|? ?]]; discriminate. }
  destruct (split_fold s name alternative (fst hole) (snd hole) Hl good [(name, h)]) as [I C].
  - inversion Hsort; assumption.
  - intros k Hk; apply Hr; right; exact Hk.
  - exact I0.
  - destruct I as [I1 I2 I3 _ I5 I6]. set (acc := fold_left _ _ _) in *. split.
    + destruct I1 as (l & x & -> & En & Ea). exists x, (rev l). rewrite rev_app_distr. cbn. repeat split; auto. intros y Hy. apply Ea. apply in_rev; exact Hy.
    + intros x Hx. apply I2. apply in_rev; exact Hx.
    + apply StronglySorted_rev in I3. exact I3.
    + intros j c Hj Hc Ec. destruct (Hall j c Hj Hc Ec) as (k & Hk & Hjk). destruct (C j) as (x & Hx & Hjx).
      * destruct Hk as [<-|Hk]; [left; exists (name, h); split; [left; reflexivity|exact Hjk]|right; exists k; auto].
      * exists x. split; [apply in_rev; rewrite rev_involutive; exact Hx|exact Hjx].
    + intros x j Hx. apply I5. apply in_rev; exact Hx.
    + intros l1 x y l2 E. apply (I6 (rev l2) y x (rev l1)). rewrite <- (rev_involutive acc), E, rev_app_distr. cbn [rev]. rewrite <- !app_assoc. reflexivity.
Qed.

(** ** the titles of a file part *)
Definition ends_ok (markers : list mt) : Prop := forall g, In g markers -> m_start g <= m_end g.
Lemma kept_groups_In markers : forall n l, List.length l <= n -> forall g, In g (kept_groups markers l) -> In g l.
Proof.
  induction n as [|n IH]; intros [|x l] Hn g; cbn [kept_groups List.length] in *; try lia; try tauto.
  destruct (whole_part markers x).
  - destruct l as [|h l]; [intros []|]. intros [->|H]; [right; left; reflexivity|]. right; right. apply IH; [cbn in Hn; lia|exact H].
  - intros [->|H]; [left; reflexivity|right]. apply IH; [lia|exact H].
Qed.
Lemma kept_groups_all markers : forall n l, List.length l <= n -> forall g, In g l -> whole_part markers g = false -> In g (kept_groups markers l).
Proof.
  induction n as [|n IH]; intros [|x l] Hn g; cbn [kept_groups List.length] in *; try lia; try tauto.
  destruct (whole_part markers x) eqn:E.
  - destruct l as [|h l]; [intros [->|[]]; congruence|]. intros [->|[->|H]] W; [congruence|left; reflexivity|right]. apply IH; auto. cbn in Hn; lia.
  - intros [->|H] W; [left; reflexivity|right]. apply IH; auto. lia.
Qed.
Lemma crop_groups_In markers c : In c (crop_groups markers) -> exists g, In g markers /\ m_name g = lit "group" /\ c = m_span g.
Proof.
  unfold crop_groups. intros H. apply in_map_iff in H as (g & <- & Hg). apply (kept_groups_In markers _ _ (le_n _)) in Hg. apply named_In in Hg. exists g; tauto.
Qed.
Lemma crop_groups_all markers g : In g markers -> m_name g = lit "group" -> whole_part markers g = false -> In (m_span g) (crop_groups markers).
Proof. intros H N W. apply in_map. apply (kept_groups_all markers _ _ (le_n _)); [apply named_In; auto|exact W]. Qed.
Lemma crop_groups_ok markers : ends_ok markers -> forall c, In c (crop_groups markers) -> fst c <= snd c.
Proof. intros He c Hc. apply crop_groups_In in Hc as (g & Hg & _ & ->). cbn. apply He; exact Hg. Qed.

Record zone_titles (r : title_rule) (s : str) (context : dict) (markers ms : list mt) (extra : mt -> bool) (part : mt)
  (h : span) (titles rm : list mt) : Prop := {
  zt_part : m_start part <= fst h < snd h /\ snd h <= m_end part + 1 /\ snd h <= List.length s;
  zt_free : forall j m, insp j h -> In m ms -> m_start m <= j < m_end m -> is_ignored s m = true \/ extra m = true;
  zt_group : forall j c, insp j h -> In c (crop_groups markers) -> ~ insp j c;
  zt_value : nonnil (hole_value s h) = true;
  zt_titles : exists l, titles = map (to_match s (tr_tags r)) l /\
    match tr_alternative r with Some alt => split_spec s (tr_name r) alt h l | None => l = [(tr_name r, h)] end;
  zt_removed : forall m, In m rm -> In m ms /\ is_ignored s m = true /\ m_start m < m_end part + 1 /\ m_start part < m_end m /\ tr_should_remove r context h m = true;
  zt_remove : forall m j, In m ms -> is_ignored s m = true -> insp j h -> m_start m <= j < m_end m -> tr_should_remove r context h m = true -> In m rm;
  zt_hole : exists p, fst p <= fst h /\ snd h <= snd p /\ tr_hole_filter r ms p = true /\
    forall j m, insp j p -> In m ms -> m_start m <= j < m_end m -> is_ignored s m = true \/ extra m = true
}.
Lemma hole_titles_spec r s context markers ms extra part hole titles rm : distinct ms -> inside s ms ->
  m_start part <= fst hole -> snd hole <= m_end part + 1 -> snd hole <= List.length s ->
  (forall j m, insp j hole -> In m ms -> m_start m <= j < m_end m -> is_ignored s m = true \/ extra m = true) ->
  (forall j c, insp j hole -> In c (crop_groups markers) -> ~ insp j c) ->
  hole_titles r s context ms part hole = Ok (Some (titles, rm)) -> exists h, zone_titles r s context markers ms extra part h titles rm.
Proof.
  intros Hd Hi Hlo Hhi Hlen Hfree Hgrp. unfold hole_titles.
  destruct (negb (fst hole <? snd hole) || negb (tr_hole_filter r ms hole)) eqn:E0; [discriminate|].
  set (ignored := range s ms (fst hole) (snd hole) (is_ignored s)).
  assert (Hig : forall m, In m ignored <-> In m ms /\ m_start m < snd hole /\ fst hole < m_end m /\ is_ignored s m = true).
  { intros m. unfold ignored. apply range_In'; assumption. }
  pose proof (trim_trimmed s ms part hole ignored Hi (fun m Hm => proj1 (proj1 (Hig m) Hm)) Hlen) as T.
  destruct (trim s ms part hole ignored) as [h keep]. destruct T as [T1 T2 T3 T4 T5 T6]; cbn [fst snd] in *.
  destruct (snd h <? fst h) eqn:E1; [discriminate|]. destruct ((fst h <? snd h) && nonnil (hole_value s h)) eqn:E2; [|discriminate].
  apply Bool.andb_true_iff in E2 as [E2 Ev]. intros E. injection E as <- <-. exists h.
  assert (Dr : distinct (filter (tr_should_remove r context h) ignored)).
  { apply distinct_filter. unfold ignored, range. apply distinct_filter, distinct_filter, distinct_msorted; exact Hd. }
  split.
  - lia.
  - intros j m Hj. apply Hfree. apply T1; exact Hj.
  - intros j c Hj. apply Hgrp. apply T1; exact Hj.
  - exact Ev.
  - destruct (tr_alternative r) as [alt|].
    + eexists. split; [reflexivity|]. apply split_titles_spec; [lia|exact Ev].
    + eexists; split; reflexivity.
  - intros m Hm. rewrite remove_all_filter in Hm by exact Dr. apply filter_In in Hm as [Hm _]. apply filter_In in Hm as [Hm Hs].
    apply Hig in Hm as (H1 & H2 & H3 & H4). repeat split; auto; lia.
  - intros m j Hm Hg Hj Hc Hs. rewrite remove_all_filter by exact Dr. apply filter_In. split.
    + apply filter_In. split; [|exact Hs]. apply Hig. unfold insp in Hj. repeat split; auto; lia.
    + apply Bool.negb_true_iff. apply mmem_false. intros x Hx Ek. unfold mkey in Ek. injection Ek as E3 E4 _ _ _.
      apply (T5 x j Hx Hj). lia.
  - exists hole. split; [lia|]. split; [lia|]. split; [|exact Hfree]. apply Bool.orb_false_iff in E0 as [_ E0]. apply Bool.negb_false_iff. exact E0.
Qed.
Lemma first_titles_some r s context ms part : forall hs x, first_titles r s context ms part hs = Ok (Some x) ->
  exists h, In h hs /\ hole_titles r s context ms part h = Ok (Some x).
Proof.
  induction hs as [|h hs IH]; intros x; cbn [first_titles]; [discriminate|].
  destruct (hole_titles r s context ms part h) as [[y|]|] eqn:E; cbn [bind]; try discriminate.
  - intros H; injection H as <-. exists h. split; [left; reflexivity|exact E].
  - intros H. destruct (IH x H) as (k & Hk & Ek). exists k. split; [right; exact Hk|exact Ek].
Qed.
Lemma first_titles_none r s context ms part : forall hs, first_titles r s context ms part hs = Ok None ->
  forall h, In h hs -> hole_titles r s context ms part h = Ok None.
Proof.
  induction hs as [|h hs IH]; cbn [first_titles]; [intros _ h []|].
  destruct (hole_titles r s context ms part h) as [[y|]|] eqn:E; cbn [bind]; try discriminate.
  intros H k [<-|Hk]; [exact E|apply IH; assumption].
Qed.
Lemma check_titles_some r s context markers ms extra part titles rm : distinct ms -> inside s ms -> nonempty ms -> ends_ok markers ->
  check_titles r s context markers ms extra part = Ok (Some (titles, rm)) -> exists h, zone_titles r s context markers ms extra part h titles rm.
Proof.
  intros Hd Hi Hn He H. unfold check_titles in H. apply first_titles_some in H as (p & Hp & H).
  unfold holes_process in Hp. apply in_flat_map in Hp as (h & Hh & Hp). apply filter_In in Hh as [Hh _].
  assert (P : forall j, insp j p -> insp j h /\ forall c, In c (crop_groups markers) -> ~ insp j c).
  { intros j Hj. apply (crop_sub _ _ p j (crop_groups_ok markers He) Hp Hj). }
  assert (Q : forall j, insp j p -> m_start part <= j < Nat.min (List.length s) (m_end part + 1) /\ forall m, In m ms -> m_start m <= j < m_end m -> is_ignored s m || extra m = true).
  { intros j Hj. apply (holes_cover_ignore s ms (m_start part) (m_end part + 1) _ Hn Hi j). exists h. split; [exact Hh|]. apply P; exact Hj. }
  destruct (Nat.lt_ge_cases (fst p) (snd p)) as [Hlt|Hge].
  - destruct (Q (fst p)) as [Q1 _]; [unfold insp; lia|]. destruct (Q (snd p - 1)) as [Q2 _]; [unfold insp; lia|].
    apply (hole_titles_spec r s context markers ms extra part p titles rm); auto; try lia.
    + intros j m Hj Hm Hc. apply Bool.orb_true_iff. apply (proj2 (Q j Hj)); assumption.
    + intros j c Hj Hc. apply (proj2 (P j Hj)); exact Hc.
  - unfold hole_titles in H. destruct (Nat.ltb_spec (fst p) (snd p)); [lia|]. discriminate.
Qed.
(** no text is left without a title *)
Lemma check_titles_none r s context markers ms extra part : inside s ms -> nonempty ms -> ends_ok markers ->
  (forall h, tr_hole_filter r ms h = true) ->
  check_titles r s context markers ms extra part = Ok None ->
  forall j c, m_start part <= j <= m_end part -> nth_error s j = Some c -> is_sep c = false ->
  covered ms j \/ exists g, In g (crop_groups markers) /\ insp j g.
Proof.
  intros Hi Hn He Hf H j c Hj Hc Ec. destruct (covered_dec ms j) as [|Hu]; [left; assumption|right].
  unfold check_titles in H. assert (Hls : j < List.length s) by (apply nth_error_Some; congruence).
  destruct (existsb (fun g => (fst g <=? j) && (j <? snd g)) (crop_groups markers)) eqn:E.
  { apply existsb_exists in E as (g & Hg & E). exists g. split; [exact Hg|unfold insp; lia]. }
  exfalso. assert (Ng : forall g, In g (crop_groups markers) -> ~ insp j g).
  { intros g Hg Hj'. enough (existsb (fun g => (fst g <=? j) && (j <? snd g)) (crop_groups markers) = true) by congruence.
    apply existsb_exists. exists g. split; [exact Hg|unfold insp in Hj'; lia]. }
  destruct (proj2 (holes_cover_ignore s ms (m_start part) (m_end part + 1) (fun m => is_ignored s m || extra m) Hn Hi j)) as (h & Hh & Hjh).
  { split; [lia|]. intros m Hm Hcm. exfalso; apply Hu; exists m; auto. }
  destruct (proj2 (crop_cover (crop_groups markers) h j (crop_groups_ok markers He)) (conj Hjh Ng)) as (p & Hp & Hjp).
  assert (Hin : In p (holes_process markers (filter (fun h => nonnil (hole_value s h)) (holes s ms (m_start part) (m_end part + 1) (fun m => is_ignored s m || extra m) None)))).
  { unfold holes_process. apply in_flat_map. exists h. split; [|exact Hp]. apply filter_In. split; [exact Hh|]. apply hole_value_nonnil. exists j, c. auto. }
  assert (Hpl : snd p <= List.length s).
  { unfold insp in Hjp. destruct (proj1 (holes_cover_ignore s ms (m_start part) (m_end part + 1) (fun m => is_ignored s m || extra m) Hn Hi (snd p - 1))) as [H1 _]; [|lia].
    exists h. split; [exact Hh|]. apply (crop_sub _ _ p (snd p - 1) (crop_groups_ok markers He) Hp). unfold insp; lia. }
  pose proof (first_titles_none r s context ms part _ H p Hin) as N. unfold hole_titles in N. rewrite Hf in N.
  assert (Elt : (fst p <? snd p) = true) by (unfold insp in Hjp; lia). rewrite Elt in N. cbn [negb orb] in N.
  set (ignored := range s ms (fst p) (snd p) (is_ignored s)) in N.
  assert (Hig : forall m, In m ignored -> In m ms) by (intros m Hm; apply range_In in Hm; tauto).
  pose proof (trim_trimmed s ms part p ignored Hi Hig Hpl) as T. destruct (trim s ms part p ignored) as [h' keep].
  destruct T as [T1 T2 T3 T4 T5 T6]; cbn [fst snd] in *.
  assert (Hjh' : insp j h').
  { destruct (Nat.le_gt_cases (fst h') j) as [H1|H1], (Nat.lt_ge_cases j (snd h')) as [H2|H2]; try (split; assumption); exfalso.
    all: destruct (T6 j Hjp) as [Hs|(m & Hm & Hcm)]; [unfold insp; lia|unfold sep_at in Hs; rewrite Hc in Hs; congruence|].
    all: apply Hu; exists m; split; [apply Hig, T4; exact Hm|exact Hcm]. }
  assert (Hv : nonnil (hole_value s h') = true) by (apply hole_value_nonnil; exists j, c; auto).
  rewrite Hv in N. unfold insp in Hjh'. destruct (Nat.ltb_spec (snd h') (fst h')); [discriminate|]. destruct (Nat.ltb_spec (fst h') (snd h')); [discriminate|lia].
Qed.

(** ** holes are maximal *)
Record hmax (ms : list mt) (a l i : nat) (st : hstate) : Prop := {
  hm_done : forall h, In h (h_done st) -> (fst h = a \/ covered ms (fst h - 1)) /\ covered ms (snd h);
  hm_open : forall x, h_open st = Some x -> (x = a \/ covered ms (x - 1)) /\ (l < i -> ~ covered ms (i - 1));
  hm_shut : h_open st = None -> i = l \/ covered ms (i - 1)
}.
Lemma hmax_step s ms a l i st : l <= i -> l <= a -> hmax ms a l i st -> hmax ms a l (S i) (hole_step s ms never None a st i).
Proof.
  intros Hl Ha [D O C]. unfold hole_step. destruct (forallb never (at_index i ms)) eqn:F.
  - apply free_iff in F. destruct (h_open st) as [x|] eqn:E.
    + split; auto.
      * intros y Ey. rewrite E in Ey. injection Ey as <-. split; [apply (O x eq_refl)|]. intros _. rewrite Nat.sub_succ, Nat.sub_0_r. exact F.
      * rewrite E. discriminate.
    + split; cbn [h_open h_done]; auto.
      * intros y Ey. injection Ey as <-. split; [|intros _; rewrite Nat.sub_succ, Nat.sub_0_r; exact F].
        destruct (Nat.le_gt_cases i a); [left; lia|]. right. destruct (C eq_refl) as [->|H1]; [lia|]. replace (Nat.max i a) with i by lia. exact H1.
      * discriminate.
  - assert (Cv : covered ms i). { destruct (covered_dec ms i) as [|N]; [assumption|]. apply free_iff in N. congruence. }
    destruct (h_open st) as [x|] eqn:E.
    + split; cbn [h_open h_done].
      * intros h [<-|H]; [cbn [fst snd]; split; [apply (O x eq_refl)|exact Cv]|apply D; exact H].
      * discriminate.
      * intros _. right. rewrite Nat.sub_succ, Nat.sub_0_r. exact Cv.
    + split; auto.
      * intros y Ey. rewrite E in Ey; discriminate.
      * intros _. right. rewrite Nat.sub_succ, Nat.sub_0_r. exact Cv.
Qed.
Lemma holes_max s ms a b : nonempty ms -> a < Nat.min (max_end s ms) b -> forall h, In h (holes s ms a b never None) ->
  (fst h = a \/ covered ms (fst h - 1)) /\ (snd h = Nat.min (max_end s ms) b \/ covered ms (snd h)).
Proof.
  intros NE Hab h. unfold holes. set (e := Nat.min (max_end s ms) b) in *. set (l := hole_start a ms never).
  pose proof (hole_start_spec a ms) as [Hla _]. fold l in Hla.
  assert (G : forall n i st, l <= i -> hmax ms a l i st -> hmax ms a l (i + n) (fold_left (hole_step s ms never None a) (seq i n) st)).
  { induction n as [|n IH]; intros i st Hl H; cbn [seq fold_left]; [rewrite Nat.add_0_r; exact H|].
    rewrite <- Nat.add_succ_comm. apply IH; [lia|]. apply hmax_step; assumption. }
  assert (I : hmax ms a l (l + (e - l)) (fold_left (hole_step s ms never None a) (seq l (e - l)) (mk_h None []))).
  { apply G; [lia|]. split; cbn [h_open h_done]; [intros x []|discriminate|auto]. }
  replace (l + (e - l)) with e in I by lia. destruct I as [D O C].
  destruct (h_open _) as [x|] eqn:E.
  - intros H. apply in_rev in H. destruct H as [<-|H].
    + cbn [fst snd]. destruct (O x eq_refl) as [O1 O2]. split; [exact O1|left].
      unfold hole_end. destruct (find _ _) as [k|] eqn:Ef; [|lia].
      apply find_some in Ef as [Hin Hk]. apply in_seq in Hin. apply starting_any in Hk as (m & Hm & Em).
      destruct (Nat.eq_dec k (e - 1)) as [->|]; [|lia]. exfalso. apply O2; [lia|]. exists m. split; [exact Hm|]. specialize (NE m Hm). lia.
    + destruct (D h H) as [D1 D2]; auto.
  - intros H. apply in_rev in H. destruct (D h H) as [D1 D2]; auto.
Qed.

(** pieces of a maximal zone are maximal *)
Definition edge (free : nat -> Prop) (a e : nat) (p : span) : Prop :=
  (fst p = a \/ ~ free (fst p - 1)) /\ (snd p = e \/ ~ free (snd p)).
Lemma crop1_edge (free : nat -> Prop) a e c cur h : fst c < snd c -> (forall j, insp j c -> ~ free j) ->
  (fst (crop1 c cur) = Some h \/ snd (crop1 c cur) = Some h) -> fst h < snd h -> edge free a e cur -> edge free a e h.
Proof.
  destruct c as [gs ge], cur as [cs ce], h as [hs he]. unfold crop1, edge, insp; cbn [fst snd]. intros Hg Hf H Hh [E1 E2].
  assert (F1 : ~ free gs) by (apply Hf; lia). assert (F2 : ~ free (ge - 1)) by (apply Hf; lia).
  destruct ((gs <? cs) && (ce <? ge)); [cbn in H; destruct H; discriminate|].
  destruct ((cs <=? gs) && (ge <=? ce)) eqn:B1; [cbn [fst snd] in H; destruct H as [H|H]; [destruct (cs <? gs)|destruct (ge <? ce)]; try discriminate; injection H as <- <-; auto|].
  destruct ((ge <=? ce) && (cs <? ge)) eqn:B2; [cbn [fst snd] in H; destruct H as [H|H]; [|discriminate]; injection H as <- <-; auto|].
  destruct ((cs <=? gs) && (gs <? ce)) eqn:B3; cbn [fst snd] in H; (destruct H as [H|H]; [|discriminate]); injection H as <- <-; auto.
Qed.
Lemma crop_edge (free : nat -> Prop) a e crops : (forall c, In c crops -> fst c < snd c) -> (forall c j, In c crops -> insp j c -> ~ free j) ->
  forall h p, edge free a e h -> In p (crop crops h) -> fst p < snd p -> edge free a e p.
Proof.
  intros Hc Hf h p He. unfold crop.
  assert (G : forall ret, (forall q, In q ret -> fst q < snd q -> edge free a e q) -> In p (fold_left crop_step crops ret) -> fst p < snd p -> edge free a e p).
  { induction crops as [|c crops IH]; intros ret Hr; cbn [fold_left]; [apply Hr|].
    apply IH; [intros d Hd; apply Hc; right; exact Hd|intros d j Hd; apply Hf; right; exact Hd|].
    intros q Hq Hlt. apply crop_step_In in Hq as (cur & Hcur & H).
    assert (fst cur < snd cur).
    { destruct (proj1 (crop1_cover c cur ltac:(specialize (Hc c (or_introl eq_refl)); lia) (fst q))) as [Hx _]; [exists q; split; [exact H|unfold insp; lia]|unfold insp in Hx; lia]. }
    apply (crop1_edge free a e c cur); auto; [apply Hc; left; reflexivity|intros j; apply Hf; left; reflexivity]. }
  apply G. intros q [<-|[]] _. exact He.
Qed.

(** ** tidy matches *)
(** no two matches overlap; a match is in a marker or outside of it, and does not contain the slash after a path part;
    a match is not made of separators *)
Record tidy (s : str) (markers ms : list mt) : Prop := {
  td_apart : forall x y, In x ms -> In y ms -> overlapping x y -> x = y;
  td_nested : forall m k, In m ms -> In k markers -> overlapping m k -> m_start k <= m_start m /\ m_end m <= m_end k;
  td_slash : forall m k, In m ms -> In k markers -> m_name k = lit "path" -> ~ (m_start m <= m_end k < m_end m);
  td_text : forall m, In m ms -> exists j c, m_start m <= j < m_end m /\ nth_error s j = Some c /\ is_sep c = false
}.
Section Tidy.
  Variables (s : str) (ms : list mt) (part : mt) (p : span) (ignored : list mt).
  Hypothesis Hi : inside s ms.
  Hypothesis Hp : fst p <= snd p.
  Hypothesis Hps : snd p <= List.length s.
  Hypothesis Hin : forall m, In m ignored -> In m ms /\ fst p <= m_start m /\ m_end m <= snd p.
  Hypothesis Htext : forall m, In m ignored -> exists j c, m_start m <= j < m_end m /\ nth_error s j = Some c /\ is_sep c = false.

  Lemma trail_fold : forall l done st, StronglySorted (fun x y => m_end y <= m_start x) l ->
    (forall x, In x l -> In x ignored) -> (forall x, In x done -> In x ignored /\ forall y, In y l -> m_end y <= m_start x) ->
    fst (fst st) = fst p -> fst p <= snd (fst st) <= snd p -> (forall x, In x done -> In x (snd st) \/ m_end x <= snd (fst st)) ->
    (forall y, In y l -> m_end y <= snd (fst st)) ->
    let st' := fold_left (trail_step s ms part) l st in
    fst (fst st') = fst p /\ fst p <= snd (fst st') <= snd p /\ forall x, In x done \/ In x l -> In x (snd st') \/ m_end x <= snd (fst st').
  Proof.
    induction l as [|m l IH]; intros done [h k] Hs Hl Hd E1 E2 E3 E4; cbn [fold_left fst snd] in *.
    - split; [exact E1|]. split; [exact E2|]. intros x [Hx|[]]. apply E3; exact Hx.
    - assert (Hm := Hl m (or_introl eq_refl)). destruct (Hin m Hm) as (Hm1 & Hm2 & Hm3). destruct (Hi m Hm1) as [Hm4 Hm5].
      assert (Hs' : StronglySorted (fun x y => m_end y <= m_start x) l) by (inversion Hs; assumption).
      assert (Hd' : forall x, In x (m :: done) -> In x ignored /\ forall y, In y l -> m_end y <= m_start x).
      { intros x [<-|Hx]; [split; [exact Hm|]; exact (sorted_cons_In _ m l Hs)|]. destruct (Hd x Hx) as [H1 H2]. split; [exact H1|]. intros y Hy. apply H2. right; exact Hy. }
      assert (Hl' : forall x, In x l -> In x ignored) by (intros x Hx; apply Hl; right; exact Hx).
      assert (Hm6 := E4 m (or_introl eq_refl)).
      assert (G : fst (fst (trail_step s ms part (h, k) m)) = fst p /\ fst p <= snd (fst (trail_step s ms part (h, k) m)) <= snd p /\
        (forall x, In x (m :: done) -> In x (snd (trail_step s ms part (h, k) m)) \/ m_end x <= snd (fst (trail_step s ms part (h, k) m))) /\
        (forall y, In y l -> m_end y <= snd (fst (trail_step s ms part (h, k) m)))).
      { unfold trail_step. destruct (nonnil (chain_before s ms (snd h) (mt_eqb m)) && should_keep s ms k part h false m) eqn:E; cbn [fst snd].
        - apply Bool.andb_true_iff in E as [E _]. apply chain_before_iff in E as (q & Q1 & Q2 & Q3); [|auto; lia..].
          split; [exact E1|]. split; [lia|]. split; [|exact (sorted_cons_In _ m l Hs)].
          intros x [<-|Hx]; [left; apply in_app_iff; right; left; reflexivity|]. destruct (E3 x Hx) as [H|H]; [left; apply in_app_iff; auto|].
          exfalso. destruct (Hd x Hx) as [Hx1 Hx2]. specialize (Hx2 m (or_introl eq_refl)). destruct (Htext x Hx1) as (j & c & Hj & Hc & Ec).
          assert (Hsp : sep_at s j = true) by (apply Q3; lia). unfold sep_at in Hsp. rewrite Hc in Hsp. congruence.
        - split; [exact E1|]. split; [exact E2|]. split; [|intros y Hy; apply E4; right; exact Hy]. intros x [<-|Hx]; auto. }
      destruct G as (G1 & G2 & G3 & G4).
      destruct (IH (m :: done) (trail_step s ms part (h, k) m) Hs' Hl' Hd' G1 G2 G3 G4) as (A & B & C).
      split; [exact A|]. split; [exact B|]. intros x [Hx|[<-|Hx]]; apply C; [left; right; exact Hx|left; left; reflexivity|right; exact Hx].
  Qed.
  Lemma lead_fold : forall l st, (forall x, In x l -> In x ignored /\ (In x (snd st) \/ m_end x <= snd (fst st))) -> fst (fst st) <= snd (fst st) ->
    fst (fst (fold_left (lead_step s ms part) l st)) <= snd (fst (fold_left (lead_step s ms part) l st)).
  Proof.
    induction l as [|m l IH]; intros [h k] Hl E; cbn [fold_left]; [exact E|]. apply IH.
    - intros x Hx. destruct (Hl x (or_intror Hx)) as [H1 H2]. split; [exact H1|]. unfold lead_step. destruct (mmem m k); [exact H2|].
      destruct (_ && _); cbn [fst snd] in *; [|exact H2]. destruct H2 as [H2|H2]; [left; apply in_app_iff; auto|right; exact H2].
    - unfold lead_step. destruct (mmem m k) eqn:Em; [exact E|]. destruct (_ && _); cbn [fst snd] in *; [|exact E].
      destruct (Hl m (or_introl eq_refl)) as [_ [H|H]]; [|exact H]. apply mmem_In in H. congruence.
  Qed.
  Lemma trim_ok : StronglySorted (fun x y => m_end x <= m_start y) ignored ->
    fst (fst (trim s ms part p ignored)) <= snd (fst (trim s ms part p ignored)).
  Proof.
    intros Hs. unfold trim. apply StronglySorted_rev in Hs.
    destruct (trail_fold (rev ignored) [] (p, [])) as (A & B & C); cbn [fst snd]; auto; try lia.
    - intros x Hx. apply in_rev; exact Hx.
    - intros x Hx. destruct Hx.
    - intros y Hy. apply in_rev in Hy. apply Hin; exact Hy.
    - apply lead_fold; [|exact (Nat.le_trans _ _ _ (Nat.eq_le_incl _ _ A) (proj1 B))]. intros x Hx. split; [exact Hx|]. apply C. right. apply in_rev in Hx. exact Hx.
  Qed.
End Tidy.
Lemma sorted_apart l : StronglySorted (fun a b => mt_le a b = true) l -> NoDup l -> nonempty l ->
  (forall x y, In x l -> In y l -> overlapping x y -> x = y) -> StronglySorted (fun x y => m_end x <= m_start y) l.
Proof.
  induction 1 as [|x l Hs IH Hx]; intros Nd Ne Ha; [constructor|]. inversion Nd as [|? ? Nx Nd']; subst. constructor.
  - apply IH; [exact Nd'|intros y Hy; apply Ne; right; exact Hy|intros y z Hy Hz; apply Ha; right; assumption].
  - rewrite Forall_forall in *. intros y Hy. specialize (Hx y Hy). unfold mt_le in Hx.
    destruct (Nat.le_gt_cases (m_end x) (m_start y)) as [|Hgt]; [assumption|exfalso]. apply Nx. replace x with y; [exact Hy|].
    symmetry. apply Ha; [left; reflexivity|right; exact Hy|]. exists (m_start y). pose proof (Ne y (or_intror Hy)). lia.
Qed.

(** the holes of a file part hold the ignored matches entirely *)
Lemma tidy_hole s markers ms extra part h p m : inside s ms -> nonempty ms -> ends_ok markers -> (forall g, In g markers -> m_name g = lit "group" -> m_start g < m_end g) -> tidy s markers ms ->
  In part markers -> m_name part = lit "path" ->
  In h (holes s ms (m_start part) (m_end part + 1) (fun m => is_ignored s m || extra m) None) -> In p (crop (crop_groups markers) h) -> fst p < snd p ->
  In m ms -> is_ignored s m = true -> m_start m < snd p -> fst p < m_end m -> fst p <= m_start m /\ m_end m <= snd p.
Proof.
  intros Hi Hn Hg' Hg T Hpart Hname Hh Hp Hlt Hm Hig H1 H2.
  set (ign := fun m => is_ignored s m || extra m) in *. set (e := Nat.min (List.length s) (m_end part + 1)).
  set (free := fun j => ~ covered (taken ign ms) j /\ forall c, In c (crop_groups markers) -> ~ insp j c).
  assert (Cg : forall c, In c (crop_groups markers) -> fst c < snd c).
  { intros c Hc. apply crop_groups_In in Hc as (g & Hgm & Ng & ->). cbn. apply Hg; assumption. }
  pose proof Hh as Hh'. unfold ign in Hh'. rewrite holes_ignore in Hh by exact Hi.
  assert (Lp : forall j, insp j p -> insp j h /\ forall c, In c (crop_groups markers) -> ~ insp j c).
  { intros j Hj. apply (crop_sub _ _ p j (crop_groups_ok markers Hg') Hp Hj). }
  assert (Q : forall j, insp j p -> m_start part <= j < e /\ forall x, In x ms -> m_start x <= j < m_end x -> ign x = true).
  { intros j Hj. apply (holes_cover_ignore s ms (m_start part) (m_end part + 1) ign Hn Hi j). exists h. split; [exact Hh'|]. apply Lp; exact Hj. }
  assert (Hae : m_start part < e) by (destruct (Q (fst p)) as [Q1 _]; [unfold insp|]; lia).
  assert (Ed : edge free (m_start part) e p).
  { apply (crop_edge free (m_start part) e (crop_groups markers)) with (h := h); auto.
    - intros c j Hc Hj [_ F]. exact (F c Hc Hj).
    - pose proof (holes_max s (taken ign ms) (m_start part) (m_end part + 1) (taken_nonempty ign ms Hn)) as M.
      rewrite max_end_inside in M by (apply taken_inside; exact Hi). destruct (M Hae h Hh) as [M1 M2]. fold e in M2.
      split; [destruct M1 as [M1|M1]; [left; exact M1|right]|destruct M2 as [M2|M2]; [left; exact M2|right]]; intros [F _]; contradiction. }
  (* all the characters of the match are free *)
  assert (Hov : exists k, insp k p /\ m_start m <= k < m_end m).
  { exists (Nat.max (fst p) (m_start m)). pose proof (Hn m Hm). unfold insp. lia. }
  destruct Hov as (k & Hk & Hkm). destruct (Q k Hk) as [Qk _]. destruct (Lp k Hk) as [_ Gk].
  assert (F : forall j, m_start m <= j < m_end m -> free j).
  { intros j Hj. split.
    - intros (x & Hx & Hjx). apply filter_In in Hx as [Hx Ex]. assert (x = m) as ->.
      { apply (td_apart _ _ _ T); auto. exists j. auto. }
      unfold ign in Ex. rewrite Hig in Ex. discriminate.
    - intros c Hc Hjc. assert (Hc2 := Hc). apply crop_groups_In in Hc2 as (g & Hgm & Eg & Ec).
      destruct (td_nested _ _ _ T m g Hm Hgm) as [N1 N2]; [exists j; subst c; unfold insp, m_span in Hjc; cbn in Hjc; auto|].
      apply (Gk c Hc). subst c. unfold insp, m_span; cbn. lia. }
  (* the match is in the part, or starts at its end *)
  assert (Hpm : m_start part <= m_start m /\ m_end m <= e).
  { destruct (Nat.lt_ge_cases k (m_end part)) as [Hkp|Hkp].
    - destruct (td_nested _ _ _ T m part Hm Hpart) as [N1 N2]; [exists k; lia|]. pose proof (Hi m Hm). unfold e. lia.
    - assert (k = m_end part) by (unfold e in Qk; lia). subst k.
      exfalso. apply (td_slash _ _ _ T m part Hm Hpart Hname). lia. }
  destruct Ed as [E1 E2]. unfold insp in Hk. split.
  - destruct E1 as [E1|E1]; [lia|]. destruct (Nat.le_gt_cases (fst p) (m_start m)) as [|Hx]; [assumption|]. exfalso. apply E1. apply F. lia.
  - destruct E2 as [E2|E2]; [lia|]. destruct (Nat.le_gt_cases (m_end m) (snd p)) as [|Hx]; [assumption|]. exfalso. apply E2. apply F. lia.
Qed.
Section TidyCheck.
  Variables (r : title_rule) (s : str) (context : dict) (markers ms : list mt) (extra : mt -> bool) (part : mt).
  Hypothesis Hd : distinct ms.
  Hypothesis Hi : inside s ms.
  Hypothesis Hn : nonempty ms.
  Hypothesis Hg' : ends_ok markers.
  Hypothesis Hg : forall g, In g markers -> m_name g = lit "group" -> m_start g < m_end g.
  Hypothesis T : tidy s markers ms.
  Hypothesis Hpart : In part markers.
  Hypothesis Hname : m_name part = lit "path".
  (** one hole of the part *)
  Lemma tidy_hole_titles h p : In h (holes s ms (m_start part) (m_end part + 1) (fun m => is_ignored s m || extra m) None) ->
    In p (crop (crop_groups markers) h) -> exists o, hole_titles r s context ms part p = Ok o /\
      forall titles rm, o = Some (titles, rm) -> exists z, zone_titles r s context markers ms extra part z titles rm /\
        forall m j c, In m rm -> m_start m <= j < m_end m -> nth_error s j = Some c -> is_sep c = false -> insp j z.
  Proof.
    intros Hh Hp.
    assert (P : forall j, insp j p -> insp j h /\ forall c, In c (crop_groups markers) -> ~ insp j c).
    { intros j Hj. apply (crop_sub _ _ p j (crop_groups_ok markers Hg') Hp Hj). }
    assert (Q : forall j, insp j p -> m_start part <= j < Nat.min (List.length s) (m_end part + 1) /\ forall m, In m ms -> m_start m <= j < m_end m -> is_ignored s m || extra m = true).
    { intros j Hj. apply (holes_cover_ignore s ms (m_start part) (m_end part + 1) _ Hn Hi j). exists h. split; [exact Hh|]. apply P; exact Hj. }
    destruct (Nat.lt_ge_cases (fst p) (snd p)) as [Hlt|Hge].
    2:{ exists None. unfold hole_titles. destruct (Nat.ltb_spec (fst p) (snd p)); [lia|]. split; [reflexivity|discriminate]. }
    destruct (Q (fst p)) as [Q1 _]; [unfold insp; lia|]. destruct (Q (snd p - 1)) as [Q2 _]; [unfold insp; lia|].
    set (ignored := range s ms (fst p) (snd p) (is_ignored s)).
    assert (Hig : forall m, In m ignored <-> In m ms /\ m_start m < snd p /\ fst p < m_end m /\ is_ignored s m = true).
    { intros m. unfold ignored. apply range_In'; [assumption|lia]. }
    assert (Hin : forall m, In m ignored -> In m ms /\ fst p <= m_start m /\ m_end m <= snd p).
    { intros m Hm. apply Hig in Hm as (H1 & H2 & H3 & H4). split; [exact H1|].
      apply (tidy_hole s markers ms extra part h p m); auto. }
    assert (Hdi : distinct ignored) by (unfold ignored, range; apply distinct_filter, distinct_filter, distinct_msorted; exact Hd).
    assert (Hsort : StronglySorted (fun x y => m_end x <= m_start y) ignored).
    { apply sorted_apart.
      - unfold ignored, range. apply filter_sorted, filter_sorted, msorted_sorted.
      - apply distinct_NoDup; exact Hdi.
      - intros m Hm. apply Hn. apply Hin in Hm; tauto.
      - intros x y Hx Hy. apply (td_apart _ _ _ T); [apply Hin in Hx|apply Hin in Hy]; tauto. }
    pose proof (trim_ok s ms part p ignored Hi ltac:(lia) ltac:(lia) Hin (fun m Hm => td_text _ _ _ T m (proj1 (Hin m Hm))) Hsort) as Ok1.
    pose proof (trim_trimmed s ms part p ignored Hi (fun m Hm => proj1 (Hin m Hm)) ltac:(lia)) as Tr.
    destruct (hole_titles r s context ms part p) as [o|e] eqn:E.
    2:{ exfalso. unfold hole_titles in E. fold ignored in E. destruct (_ || _) in E; [discriminate|].
        destruct (trim s ms part p ignored) as [h' keep]. cbn [fst snd] in Ok1. destruct (Nat.ltb_spec (snd h') (fst h')); [lia|].
        destruct (_ && _) in E; discriminate. }
    exists o. split; [reflexivity|]. intros titles rm ->.
    destruct (hole_titles_spec r s context markers ms extra part p titles rm) as (z0 & Z0); auto; try lia.
    { intros j m Hj Hm Hc. apply Bool.orb_true_iff. apply (proj2 (Q j Hj)); assumption. }
    { intros j c Hj Hc. apply (proj2 (P j Hj)); exact Hc. }
    unfold hole_titles in E. fold ignored in E. destruct (_ || _) eqn:E0 in E; [discriminate|].
    destruct (trim s ms part p ignored) as [z keep] eqn:Et. cbn [fst snd] in Ok1. destruct (Nat.ltb_spec (snd z) (fst z)); [lia|].
    destruct ((fst z <? snd z) && nonnil (hole_value s z)) eqn:Ev; [|discriminate]. injection E as Et1 Er1.
    exists z. split.
    - (* the zone is the trimmed hole *)
      apply Bool.andb_true_iff in Ev as [Ev1 Ev2]. destruct Tr as [T1 T2 T3 T4 T5 T6]; cbn [fst snd] in *. subst titles rm.
      assert (Dr : distinct (filter (tr_should_remove r context z) ignored)) by (apply distinct_filter; exact Hdi).
      split.
      + lia.
      + intros j m Hj Hm Hc. apply Bool.orb_true_iff. apply (proj2 (Q j (T1 j Hj))); assumption.
      + intros j c Hj Hc. apply (proj2 (P j (T1 j Hj))); exact Hc.
      + exact Ev2.
      + destruct (tr_alternative r) as [alt|]; [|eexists; split; reflexivity]. eexists. split; [reflexivity|]. apply split_titles_spec; [lia|exact Ev2].
      + intros m Hm. rewrite remove_all_filter in Hm by exact Dr. apply filter_In in Hm as [Hm _]. apply filter_In in Hm as [Hm Hs].
        apply Hig in Hm as (H1 & H2 & H3 & H4). repeat split; auto; lia.
      + intros m j Hm Hgm Hj Hc Hs. rewrite remove_all_filter by exact Dr. apply filter_In. split.
        * apply filter_In. split; [|exact Hs]. apply Hig. specialize (T1 j Hj). unfold insp in T1. repeat split; auto; lia.
        * apply Bool.negb_true_iff. apply mmem_false. intros x Hx Ek. unfold mkey in Ek. injection Ek as E3 E4 _ _ _.
          apply (T5 x j Hx Hj). lia.
      + exists p. split; [lia|]. split; [lia|]. split; [|intros j m Hj Hm Hc; apply Bool.orb_true_iff; apply (proj2 (Q j Hj)); assumption].
        apply Bool.orb_false_iff in E0 as [_ E0]. apply Bool.negb_false_iff. exact E0.
    - intros m j c Hm Hj Hc Ec. subst rm. destruct Tr as [T1 T2 T3 T4 T5 T6]; cbn [fst snd] in *.
      rewrite remove_all_filter in Hm by (apply distinct_filter; exact Hdi). apply filter_In in Hm as [Hm Hk]. apply filter_In in Hm as [Hm _].
      destruct (Hin m Hm) as (Hm1 & Hm2 & Hm3). assert (Hjp : insp j p) by (unfold insp; lia).
      destruct (Nat.le_gt_cases (fst z) j) as [H1|H1], (Nat.lt_ge_cases j (snd z)) as [H2|H2]; try (split; assumption); exfalso.
      all: destruct (T6 j Hjp) as [Hs|(x & Hx & Hcx)]; [unfold insp; lia|unfold sep_at in Hs; rewrite Hc in Hs; congruence|].
      all: assert (x = m) as -> by (apply (td_apart _ _ _ T); [apply (Hin x), T4; exact Hx|exact Hm1|exists j; auto]).
      all: rewrite mmem_In in Hk by exact Hx; discriminate.
  Qed.
  Lemma tidy_check : exists o, check_titles r s context markers ms extra part = Ok o /\
    forall titles rm, o = Some (titles, rm) -> exists z, zone_titles r s context markers ms extra part z titles rm /\
        forall m j c, In m rm -> m_start m <= j < m_end m -> nth_error s j = Some c -> is_sep c = false -> insp j z.
  Proof.
    unfold check_titles. set (hs := holes_process _ _).
    assert (G : forall p, In p hs -> exists o, hole_titles r s context ms part p = Ok o /\
      forall titles rm, o = Some (titles, rm) -> exists z, zone_titles r s context markers ms extra part z titles rm /\
        forall m j c, In m rm -> m_start m <= j < m_end m -> nth_error s j = Some c -> is_sep c = false -> insp j z).
    { intros p Hp. unfold hs, holes_process in Hp. apply in_flat_map in Hp as (h & Hh & Hp). apply filter_In in Hh as [Hh _].
      apply (tidy_hole_titles h p Hh Hp). }
    clearbody hs. induction hs as [|p hs IH]; cbn [first_titles]; [exists None; split; [reflexivity|discriminate]|].
    destruct (G p (or_introl eq_refl)) as (o & E & Ho). rewrite E. cbn [bind]. destruct o as [x|].
    - exists (Some x). auto.
    - apply IH. intros q Hq; apply G; right; exact Hq.
  Qed.
End TidyCheck.
