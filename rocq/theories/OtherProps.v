(** C39 (proper count), C40 (neighbours), C55 (validation of the other values) *)
From Verif Require Import Py PyFacts Text Numeral NumeralProofs Formatters FormattersProps Common Sort Rebulk RebulkFacts RuleSpec Other.
From Coq Require Import Arith Lia Permutation Sorted ZifyBool.

(** ** C39 *)
Definition proper (m : mt) : Prop := m_name m = lit "other" /\ m_value m = MvStr (lit "Proper").
(** what one Proper counts for *)
Definition counts_for (s : str) (m : mt) (n : Z) : Prop :=
  (forall t, captured s m "proper_count" t -> t <> [] -> n = decimal t) /\
  ((not_captured m "proper_count" \/ captured s m "proper_count" []) ->
     (In (lit "real") (m_tags m) -> n = 2%Z) /\ (~ In (lit "real") (m_tags m) -> n = 1%Z)).
(** the text of the match, lower case and cleaned *)
Definition cleaned (s : str) (m : mt) (t : str) : Prop := raw_cleanup (slice (m_raw_start m) (m_raw_end m) s) = Ok t.
(** [m] is the last Proper having its cleaned text *)
Definition last_of_text (s : str) (ms : list mt) (m : mt) : Prop :=
  proper m /\ exists l1 l2, ms = l1 ++ m :: l2 /\ forall m' t, In m' l2 -> proper m' -> cleaned s m t -> ~ cleaned s m' t.
Lemma is_proper_iff m : is_proper m = true <-> proper m.
Proof. unfold is_proper, proper. rewrite Bool.andb_true_iff, has_name_iff, mval_eqb_eq. reflexivity. Qed.
Lemma weight_spec s m : NoDup (map c_name (m_children m)) -> counts_for s m (proper_weight s m).
Proof.
  intros ND. unfold counts_for, proper_weight. pose proof (child_text_spec s m "proper_count" ND) as C.
  assert (T : (In (lit "real") (m_tags m) -> (if has_tag (lit "real") m then 2 else 1)%Z = 2%Z) /\ (~ In (lit "real") (m_tags m) -> (if has_tag (lit "real") m then 2 else 1)%Z = 1%Z)).
  { rewrite <- has_tag_iff. destruct (has_tag (lit "real") m); split; try reflexivity; intuition congruence. }
  destruct (child_text s m (lit "proper_count")) as [[|c r]|].
  - destruct C as [C1 C2]. split; [intros t Ht Hne; apply C2 in Ht; congruence|auto].
  - destruct C as [C1 C2]. split; [intros t Ht _; apply C2 in Ht; subst; apply dec_decimal|]. intros [H|H]; [nb|apply C2 in H; discriminate].
  - split; [intros t Ht; nb|auto].
Qed.
Lemma raw_cleanup_total s : exists t, raw_cleanup s = Ok t.
Proof. unfold raw_cleanup. destruct (C18_only_separators (lower s)) as (t & -> & _). cbn [bind]. eexists; reflexivity. Qed.

Definition text_of (s : str) (m : mt) : str := match raw_cleanup (raw_of s m) with Ok t => t | Err _ => [] end.
Lemma cleaned_text s m t : cleaned s m t <-> t = text_of s m.
Proof. unfold cleaned, text_of, raw_of. destruct (raw_cleanup_total (slice (m_raw_start m) (m_raw_end m) s)) as (t' & ->). split; congruence. Qed.
Lemma raw_put_In k0 m0 d k m : NoDup (map fst d) -> In (k, m) (raw_put k0 m0 d) <-> (k = k0 /\ m = m0) \/ (k <> k0 /\ In (k, m) d).
Proof.
  induction d as [|[k' m'] r IH]; cbn [raw_put map fst In].
  - intros _. split; [intros [E|[]]; injection E as <- <-; auto|]. intros [[-> ->]|[_ []]]. auto.
  - intros ND. inversion ND as [|? ? N ND']; subst. destruct (str_eqb k0 k') eqn:E.
    + apply str_eqb_eq in E; subst k'. cbn [In]. split.
      * intros [E|H]; [injection E as <- <-; auto|]. right. split; [|auto]. intros ->. apply N. apply (in_map fst) in H. exact H.
      * intros [[-> ->]|[Hk [E|H]]]; [auto|injection E as <- <-; congruence|auto].
    + assert (k0 <> k') by (intros ->; rewrite str_eqb_refl in E; discriminate). cbn [In]. rewrite IH by exact ND'. split.
      * intros [E'|[H'|H']]; [injection E' as <- <-; right; split; [congruence|auto]|tauto|tauto].
      * intros [H'|[Hk [E'|H']]]; [auto|auto|auto].
Qed.
Lemma raw_put_keys k0 m0 d : NoDup (map fst d) -> NoDup (map fst (raw_put k0 m0 d)).
Proof.
  induction d as [|[k' m'] r IH]; cbn [raw_put map fst]; [repeat constructor; auto|]. intros ND. inversion ND as [|? ? N ND']; subst.
  destruct (str_eqb k0 k') eqn:E; cbn [map fst]; [constructor; auto|]. constructor; [|auto].
  intros H. apply in_map_iff in H as ([k m] & E1 & H). cbn in E1; subst k'. apply raw_put_In in H as [[-> ->]|[_ H]]; [rewrite str_eqb_refl in E; discriminate| |exact ND'].
  apply N. apply (in_map fst) in H. exact H.
Qed.
Lemma raws_spec s : forall l seen d, NoDup (map fst d) ->
  (forall k m, In (k, m) d <-> k = text_of s m /\ exists l1 l2, seen = l1 ++ m :: l2 /\ forall m', In m' l2 -> text_of s m' <> k) ->
  exists d', foldM (fun d m => k <- raw_cleanup (raw_of s m); Ok (raw_put k m d)) l d = Ok d' /\ NoDup (map fst d') /\
  (forall k m, In (k, m) d' <-> k = text_of s m /\ exists l1 l2, seen ++ l = l1 ++ m :: l2 /\ forall m', In m' l2 -> text_of s m' <> k).
Proof.
  induction l as [|x l IH]; intros seen d ND Inv; cbn [foldM].
  - exists d. rewrite app_nil_r. auto.
  - destruct (raw_cleanup_total (raw_of s x)) as (k0 & E0). rewrite E0. cbn [bind].
    assert (K0 : k0 = text_of s x) by (unfold text_of; rewrite E0; reflexivity). clear E0.
    destruct (IH (seen ++ [x]) (raw_put k0 x d)) as (d' & E & ND' & Inv'); [apply raw_put_keys; exact ND| |].
    + intros k m. rewrite raw_put_In by exact ND. rewrite Inv. split.
      * intros [[-> ->]|[Hk (Hm & l1 & l2 & -> & Hl)]].
        -- split; [exact K0|]. exists seen, []. split; [reflexivity|]. intros m' [].
        -- split; [exact Hm|]. exists l1, (l2 ++ [x]). rewrite <- app_assoc. split; [reflexivity|].
           intros m' H. apply in_app_iff in H as [H|[<-|[]]]; [auto|congruence].
      * intros (Hm & l1 & l2 & E1 & Hl). destruct l2 as [|y l2] using rev_ind.
        -- apply app_inj_tail in E1 as [_ E1]. subst m. left. split; [congruence|reflexivity].
        -- clear IHl2. replace (l1 ++ m :: l2 ++ [y]) with ((l1 ++ m :: l2) ++ [y]) in E1 by (rewrite <- app_assoc; reflexivity).
           apply app_inj_tail in E1 as [E1 <-]. right. split.
           ++ intros ->. apply (Hl x); [apply in_app_iff; right; left; reflexivity|congruence].
           ++ split; [exact Hm|]. exists l1, l2. split; [exact E1|]. intros m' H; apply Hl, in_app_iff; auto.
    + rewrite <- app_assoc in Inv'. exists d'. auto.
Qed.
Lemma filter_split {A} (p : A -> bool) (Q : A -> Prop) (m : A) : forall l,
  (exists l1 l2, filter p l = l1 ++ m :: l2 /\ forall x, In x l2 -> Q x) <->
  (p m = true /\ exists l1 l2, l = l1 ++ m :: l2 /\ forall x, In x l2 -> p x = true -> Q x).
Proof.
  induction l as [|a l IH]; cbn [filter].
  - split; [intros (l1 & l2 & E & _); destruct l1; discriminate|intros (_ & l1 & l2 & E & _); destruct l1; discriminate].
  - destruct (p a) eqn:Pa.
    + split.
      * intros (l1 & l2 & E & H). destruct l1 as [|b l1].
        -- injection E as <- <-. split; [exact Pa|]. exists [], l. split; [reflexivity|]. intros x Hx Px. apply H, filter_In; auto.
        -- injection E as <- E. destruct (proj1 IH) as (Pm & l3 & l4 & -> & H'); [exists l1, l2; auto|]. split; [exact Pm|]. exists (a :: l3), l4. auto.
      * intros (Pm & l1 & l2 & E & H). destruct l1 as [|b l1].
        -- injection E as <- <-. exists [], (filter p l). split; [reflexivity|]. intros x Hx. apply filter_In in Hx as [Hx Px]; auto.
        -- injection E as <- E. destruct (proj2 IH) as (l3 & l4 & -> & H'); [split; [exact Pm|exists l1, l2; auto]|]. exists (a :: l3), l4. auto.
    + rewrite IH. split.
      * intros (Pm & l1 & l2 & -> & H). split; [exact Pm|]. exists (a :: l1), l2. auto.
      * intros (Pm & l1 & l2 & E & H). destruct l1 as [|b l1]; [injection E as <- <-; congruence|]. injection E as <- E. split; [exact Pm|]. exists l1, l2. auto.
Qed.
Lemma sum_fold (f : mt -> Z) l : forall n, fold_left (fun n m => (n + f m)%Z) l n = (n + fold_right Z.add 0 (map f l))%Z.
Proof. induction l as [|m l IH]; intros n; cbn [fold_left map fold_right]; [lia|]. rewrite IH; lia. Qed.
Lemma start_fold l : (forall m, In m l -> 0 < m_start m) -> forall n, let r := fold_left (fun start m => if (start =? 0) || (m_start m <? start) then m_start m else start) l n in
  (n = 0 /\ l = [] /\ r = 0) \/ (((0 < n /\ r = n) \/ exists m, In m l /\ m_start m = r) /\ (0 < n -> r <= n) /\ forall m, In m l -> r <= m_start m).
Proof.
  induction l as [|m l IH]; intros Hl n; cbn [fold_left].
  - destruct n; [left; auto|]. right. split; [left; lia|]. split; [lia|intros m []].
  - assert (Hm : 0 < m_start m) by (apply Hl; left; reflexivity).
    specialize (IH (fun x Hx => Hl x (or_intror Hx)) (if (n =? 0) || (m_start m <? n) then m_start m else n)). cbn zeta in *.
    set (n' := if (n =? 0) || (m_start m <? n) then m_start m else n) in *.
    assert (Hn' : 0 < n') by (subst n'; destruct (Nat.eqb_spec n 0), (Nat.ltb_spec (m_start m) n); cbn; lia).
    assert (N1 : n' <= m_start m /\ (0 < n -> n' <= n) /\ (n' = m_start m \/ (0 < n /\ n' = n))) by (subst n'; destruct (Nat.eqb_spec n 0), (Nat.ltb_spec (m_start m) n); cbn; lia).
    destruct IH as [(H & _)|(A & B & C)]; [lia|]. right. split; [|split].
    + destruct A as [[_ A]|(x & Hx & Ex)]; [|right; exists x; auto with datatypes]. destruct N1 as (_ & _ & [E|[E1 E2]]); [right; exists m; split; [left; reflexivity|congruence]|left; split; [auto|congruence]].
    + intros H. specialize (B Hn'). lia.
    + intros x [->|Hx]; [specialize (B Hn'); lia|auto].
Qed.
Lemma end_fold l : forall n, let r := fold_left (fun e m => if (e =? 0) || (e <? m_end m) then m_end m else e) l n in
  (r = n \/ exists m, In m l /\ m_end m = r) /\ n <= r /\ forall m, In m l -> m_end m <= r.
Proof.
  induction l as [|m l IH]; intros n; cbn [fold_left].
  - split; [auto|]. split; [lia|intros m []].
  - specialize (IH (if (n =? 0) || (n <? m_end m) then m_end m else n)). cbn zeta in *.
    set (n' := if (n =? 0) || (n <? m_end m) then m_end m else n) in *.
    assert (N1 : m_end m <= n' /\ n <= n' /\ (n' = m_end m \/ n' = n)) by (subst n'; destruct (Nat.eqb_spec n 0), (Nat.ltb_spec n (m_end m)); cbn; lia).
    destruct IH as (A & B & C). split; [|split; [lia|]].
    + destruct A as [A|(x & Hx & Ex)]; [|right; exists x; auto with datatypes]. destruct N1 as (_ & _ & [E|E]); [right; exists m; split; [left; reflexivity|congruence]|left; congruence].
    + intros x [->|Hx]; [lia|auto].
Qed.
(** [reps] are the last Propers of each text; the count is the sum over them *)
Theorem C39_count s ms : NoDup ms -> (forall m, In m ms -> NoDup (map c_name (m_children m))) ->
  (forall m, In m ms -> m_name m <> lit "proper_count") ->
  ((forall m, In m ms -> ~ proper m) -> ProperCount s ms = Ok ms) /\
  ((exists m, In m ms /\ proper m) ->
   exists reps ns c, ProperCount s ms = Ok (ms ++ [c]) /\
     NoDup reps /\ (forall m, In m reps <-> last_of_text s ms m) /\ Forall2 (counts_for s) reps ns /\
     m_name c = lit "proper_count" /\ m_value c = MvInt (fold_right Z.add 0%Z ns) /\
     (exists m, In m reps /\ m_end m = m_end c) /\ (forall m, In m reps -> m_end m <= m_end c) /\
     ((forall m, In m ms -> proper m -> 0 < m_start m) ->
        (exists m, In m reps /\ m_start m = m_start c) /\ forall m, In m reps -> m_start c <= m_start m)).
Proof.
  intros ND Un No. unfold ProperCount. split.
  - intros H. replace (filter is_proper ms) with (@nil mt); [reflexivity|]. symmetry. apply filter_nil. intros x Hx.
    destruct (is_proper x) eqn:E; [|reflexivity]. apply is_proper_iff in E. exfalso; exact (H x Hx E).
  - intros (m0 & Hm0 & P0).
    destruct (raws_spec s (filter is_proper ms) [] []) as (d & Ed & Nk & Inv); [constructor|intros k m; split; [intros []|intros (_ & l1 & l2 & E & _); destruct l1; discriminate]|].
    cbn [app] in Inv.
    assert (Hin0 : In m0 (filter is_proper ms)) by (apply filter_In; rewrite is_proper_iff; auto).
    destruct (filter is_proper ms) as [|f fs] eqn:Ef; [destruct Hin0|]. unfold raws. rewrite Ed. cbn [bind]. rewrite <- Ef in *. clear f fs Ef.
    set (reps := map snd d).
    assert (R : forall m, In m reps <-> last_of_text s ms m).
    { intros m. unfold reps. rewrite in_map_iff. unfold last_of_text. split.
      - intros ([k m'] & <- & H). cbn [snd]. apply Inv in H as (-> & l1 & l2 & E & H).
        destruct (proj1 (filter_split is_proper (fun x => text_of s x <> text_of s m') m' ms)) as (Pm & l3 & l4 & El & H'); [exists l1, l2; auto|].
        split; [apply is_proper_iff; exact Pm|]. exists l3, l4. split; [exact El|]. intros x t Hx Px C1 C2. apply cleaned_text in C1, C2. apply (H' x Hx); [apply is_proper_iff; exact Px|congruence].
      - intros (Pm & l1 & l2 & E & H). exists (text_of s m, m). split; [reflexivity|]. apply Inv. split; [reflexivity|].
        apply filter_split. split; [apply is_proper_iff; exact Pm|]. exists l1, l2. split; [exact E|]. intros x Hx Px Ex. apply is_proper_iff in Px.
        apply (H x (text_of s m) Hx Px); apply cleaned_text; congruence. }
    assert (NR : NoDup reps).
    { unfold reps. assert (G : forall k m, In (k, m) d -> k = text_of s m) by (intros k m H; apply Inv in H; tauto).
      revert Nk G. clear. induction d as [|[k m] d IH]; cbn [map fst snd]; [constructor|]. intros ND G. inversion ND as [|? ? N ND']; subst. constructor; [|apply IH; auto with datatypes].
      intros H. apply in_map_iff in H as ([k' m'] & E & H). cbn in E; subst m'. apply N. replace k with k'; [apply (in_map fst) in H; exact H|].
      rewrite (G k m (or_introl eq_refl)), (G k' m (or_intror H)). reflexivity. }
    assert (Sub : forall m, In m reps -> In m ms) by (intros m Hm; apply R in Hm as (_ & l1 & l2 & -> & _); apply in_app_iff; right; left; reflexivity).
    assert (Ne : reps <> []).
    { assert (E : exists m, last_of_text s ms m) by (clear - Hm0 P0 Inv Hin0;
        assert (G : forall l, In m0 l -> exists m l1 l2, l = l1 ++ m :: l2 /\ text_of s m = text_of s m0 /\ forall m', In m' l2 -> text_of s m' <> text_of s m0);
        [induction l as [|x l IH] using rev_ind; [intros []|]; intros H; destruct (str_eqb (text_of s x) (text_of s m0)) eqn:E;
          [apply str_eqb_eq in E; exists x, l, []; split; [reflexivity|split; [exact E|intros m' []]]|];
          apply in_app_iff in H as [H|[<-|[]]]; [|rewrite str_eqb_refl in E; discriminate];
          destruct (IH H) as (m & l1 & l2 & -> & E1 & E2); exists m, l1, (l2 ++ [x]); rewrite <- app_assoc; split; [reflexivity|]; split; [exact E1|];
          intros m' H'; apply in_app_iff in H' as [H'|[<-|[]]]; [auto|]; intros E3; rewrite E3, str_eqb_refl in E; discriminate|];
        destruct (G _ Hin0) as (m & l1 & l2 & E & E1 & E2);
        destruct (proj1 (filter_split is_proper (fun x => text_of s x <> text_of s m0) m ms)) as (Pm & l3 & l4 & El & H'); [exists l1, l2; auto|];
        exists m; split; [apply is_proper_iff; exact Pm|]; exists l3, l4; split; [exact El|]; intros x t Hx Px C1 C2; apply cleaned_text in C1, C2;
        apply (H' x Hx); [apply is_proper_iff; exact Px|congruence]).
      destruct E as (m & Hm). apply R in Hm. intros E. rewrite E in Hm. destruct Hm. }
    exists reps, (map (proper_weight s) reps). eexists. split.
    { unfold append_all. cbn [fold_left]. match goal with |- context [mmem ?c ms] => assert (mmem c ms = false) as -> end; [|reflexivity].
      apply mmem_false. intros x Hx E. apply (No x Hx). unfold mkey in E. injection E as _ _ E _ _. exact E. }
    split; [exact NR|]. split; [exact R|]. split.
    { assert (G : forall m, In m reps -> NoDup (map c_name (m_children m))) by auto. revert G. generalize reps. clear. induction reps as [|m l IH]; intros G; cbn [map]; constructor; [apply weight_spec, G; left; reflexivity|apply IH; auto with datatypes]. }
    cbn [simple m_name m_value m_start m_end]. split; [reflexivity|]. split; [rewrite sum_fold; reflexivity|].
    pose proof (end_fold reps 0) as (A & _ & B). fold (proper_end reps) in A, B. split; [|split; [exact B|]].
    + destruct A as [A|A]; [|exact A]. destruct reps as [|m l]; [congruence|]. exists m. split; [left; reflexivity|]. specialize (B m (or_introl eq_refl)). lia.
    + intros Hpos. pose proof (start_fold reps (fun m Hm => Hpos m (Sub m Hm) (proj1 (proj1 (R m) Hm))) 0) as S. fold (proper_start reps) in S. cbn zeta in S.
      destruct S as [(_ & S & _)|([[S _]|S] & _ & S')]; [congruence|lia|]. auto.
Qed.
Print Assumptions C39_count.
Definition pr_s : str := lit "REPACK5 real.proper PROPER".
Definition pr (a b : nat) (tags : list str) (cs : list child) : mt := mk_mt a b (lit "other") (MvStr (lit "Proper")) tags false a b None cs.
Definition pr_ms : list mt := [pr 0 7 [] [mk_c 6 7 (lit "proper_count") (MvStr (lit "5"))]; pr 8 19 [lit "real"] []; pr 13 19 [] []; pr 20 26 [] []].
Example C39_example : ProperCount pr_s pr_ms = Ok (pr_ms ++ [simple 8 26 (lit "proper_count") (MvInt 8) []]).
Proof. reflexivity. Qed.
(** limit: a Proper at the beginning of the input is forgotten in the span of the count *)
Theorem C39_start_refuted : exists s ms c, ProperCount s ms = Ok (ms ++ [c]) /\
  exists m, In m ms /\ proper m /\ m_start m < m_start c /\ last_of_text s ms m.
Proof.
  exists pr_s, pr_ms, (simple 8 26 (lit "proper_count") (MvInt 8) []). split; [exact C39_example|]. exists (pr 0 7 [] [mk_c 6 7 (lit "proper_count") (MvStr (lit "5"))]).
  split; [left; reflexivity|]. split; [split; reflexivity|]. split; [cbn; lia|]. split; [split; reflexivity|].
  exists [], (tl pr_ms). split; [reflexivity|]. intros m' t Hm' _ C1 C2. apply cleaned_text in C1, C2. subst t.
  cbn in Hm'. repeat (destruct Hm' as [<-|Hm']; [vm_compute in C2; discriminate|]). destruct Hm'.
Qed.
Print Assumptions C39_start_refuted.

(** ** C40 *)
(** only separators in the text between two positions *)
Definition gap (s : str) (a b : nat) : Prop := forall j c, a <= j < b -> nth_error s j = Some c -> is_sep c = true.
Lemma only_seps_iff s a b : only_seps s a b = true <-> gap s a b.
Proof.
  unfold only_seps, gap. rewrite forallb_nth. split.
  - intros H j c Hj E. apply (H (j - a)). rewrite slice_nth. replace (j - a <? b - a) with true by lia. replace (a + (j - a)) with j by lia. exact E.
  - intros H i c. rewrite slice_nth. destruct (Nat.ltb_spec i (b - a)); [|discriminate]. intros E. apply (H (a + i)); [lia|exact E].
Qed.
(** [p] is a candidate neighbour: one of the matches closest before, or a bracket group which is one of the markers closest before *)
Definition candidate_before (markers ms : list mt) (m p : mt) : Prop :=
  just_before ms m p \/ (just_before markers m p /\ m_name p = lit "group").
Definition candidate_after (markers ms : list mt) (m p : mt) : Prop :=
  just_after ms m p \/ (just_after markers m p /\ m_name p = lit "group").
Definition near_before (s : str) (markers ms : list mt) (m : mt) : Prop :=
  exists p, candidate_before markers ms m p /\ gap s (m_end p) (m_start m).
Definition near_after (s : str) (markers ms : list mt) (m : mt) : Prop :=
  exists p, candidate_after markers ms m p /\ gap s (m_end m) (m_start p).
Lemma gap_sub s a b a' b' : gap s a b -> a <= a' -> b' <= b -> gap s a' b'.
Proof. intros H Ha Hb j c Hj. apply H; lia. Qed.
Lemma neighbour_before_iff s markers ms m : nonempty ms -> nonempty markers ->
  neighbour_before s markers ms m = true <-> near_before s markers ms m.
Proof.
  intros Hn Hk. unfold neighbour_before, before_match, near_before.
  assert (Tm : forall x, In x ms -> m_truthy x = true) by (intros x Hx; apply Hn in Hx; unfold m_truthy; lia).
  assert (Tk : forall x, In x markers -> m_truthy x = true) by (intros x Hx; apply Hk in Hx; unfold m_truthy; lia).
  assert (A : match first (previous m ms (fun _ => true)) with Some p => just_before ms m p | None => forall p, ~ just_before ms m p end).
  { pose proof (first_spec (previous m ms (fun _ => true))) as F. destruct (first (previous m ms (fun _ => true))) as [p|].
    - apply previous_In in F as (_ & F). exact F.
    - intros p J. assert (In p []) as []. rewrite <- F. apply previous_In. split; [reflexivity|exact J]. }
  assert (B : match first (previous m markers (has_name (lit "group"))) with Some p => just_before markers m p /\ m_name p = lit "group" | None => forall p, ~ (just_before markers m p /\ m_name p = lit "group") end).
  { pose proof (first_spec (previous m markers (has_name (lit "group")))) as F. destruct (first (previous m markers (has_name (lit "group")))) as [p|].
    - apply previous_In in F as (F0 & F). apply has_name_iff in F0. split; [exact F|exact F0].
    - intros p [J E]. assert (In p []) as []. rewrite <- F. apply previous_In. rewrite has_name_iff. split; [exact E|exact J]. }
  assert (U : forall l x y, just_before l m x -> just_before l m y -> m_end x = m_end y).
  { intros l x y (H1 & H2 & H3) (H4 & H5 & H6). specialize (H3 y H4 H5). specialize (H6 x H1 H2). lia. }
  destruct (first (previous m markers _)) as [g|].
  - destruct B as [B1 B2]. rewrite (Tk g (proj1 B1)). destruct (first (previous m ms _)) as [p|].
    + rewrite (Tm p (proj1 A)). cbn [negb orb]. destruct (Nat.ltb_spec (m_end p) (m_end g)) as [L|L].
      * rewrite (Tk g (proj1 B1)). cbn [andb]. rewrite only_seps_iff. split.
        -- intros G. exists g. split; [right; auto|exact G].
        -- intros (q & [J|[J _]] & G); [|rewrite (U _ g q B1 J); exact G]. eapply gap_sub; [exact G| |lia]. rewrite (U _ q p J A). lia.
      * rewrite (Tm p (proj1 A)). cbn [andb]. rewrite only_seps_iff. split.
        -- intros G. exists p. split; [left; exact A|exact G].
        -- intros (q & [J|[J _]] & G); [rewrite (U _ p q A J); exact G|]. eapply gap_sub; [exact G| |lia]. rewrite (U _ q g J B1). lia.
    + rewrite (Tk g (proj1 B1)). cbn [andb]. rewrite only_seps_iff. split.
      * intros G. exists g. split; [right; auto|exact G].
      * intros (q & [J|[J _]] & G); [exfalso; exact (A q J)|rewrite (U _ g q B1 J); exact G].
  - destruct (first (previous m ms _)) as [p|].
    + rewrite (Tm p (proj1 A)). cbn [andb]. rewrite only_seps_iff. split.
      * intros G. exists p. split; [left; exact A|exact G].
      * intros (q & [J|J] & G); [rewrite (U _ p q A J); exact G|exfalso; exact (B q J)].
    + split; [discriminate|]. intros (q & [J|J] & _); exfalso; [exact (A q J)|exact (B q J)].
Qed.
Lemma neighbour_after_iff s markers ms m : nonempty ms -> nonempty markers ->
  neighbour_after s markers ms m = true <-> near_after s markers ms m.
Proof.
  intros Hn Hk. unfold neighbour_after, after_match, near_after.
  assert (Tm : forall x, In x ms -> m_truthy x = true) by (intros x Hx; apply Hn in Hx; unfold m_truthy; lia).
  assert (Tk : forall x, In x markers -> m_truthy x = true) by (intros x Hx; apply Hk in Hx; unfold m_truthy; lia).
  assert (Om : forall y, In y ms -> m_start y <= m_end y) by (intros y Hy; apply Hn in Hy; lia).
  assert (Ok' : forall y, In y markers -> m_start y <= m_end y) by (intros y Hy; apply Hk in Hy; lia).
  assert (A : match first (next m ms (fun _ => true)) with Some p => just_after ms m p | None => forall p, ~ just_after ms m p end).
  { pose proof (first_spec (next m ms (fun _ => true))) as F. destruct (first (next m ms (fun _ => true))) as [p|].
    - apply (next_In m ms _ p Om) in F as (_ & F). exact F.
    - intros p J. assert (In p []) as []. rewrite <- F. apply (next_In m ms _ p Om). split; [reflexivity|exact J]. }
  assert (B : match first (next m markers (has_name (lit "group"))) with Some p => just_after markers m p /\ m_name p = lit "group" | None => forall p, ~ (just_after markers m p /\ m_name p = lit "group") end).
  { pose proof (first_spec (next m markers (has_name (lit "group")))) as F. destruct (first (next m markers (has_name (lit "group")))) as [p|].
    - apply (next_In m markers _ p Ok') in F as (F0 & F). apply has_name_iff in F0. split; [exact F|exact F0].
    - intros p [J E]. assert (In p []) as []. rewrite <- F. apply (next_In m markers _ p Ok'). rewrite has_name_iff. split; [exact E|exact J]. }
  assert (U : forall l x y, just_after l m x -> just_after l m y -> m_start x = m_start y).
  { intros l x y (H1 & H2 & H3) (H4 & H5 & H6). specialize (H3 y H4 H5). specialize (H6 x H1 H2). lia. }
  destruct (first (next m markers _)) as [g|].
  - destruct B as [B1 B2]. rewrite (Tk g (proj1 B1)). destruct (first (next m ms _)) as [p|].
    + rewrite (Tm p (proj1 A)). cbn [negb orb]. destruct (Nat.ltb_spec (m_start g) (m_start p)) as [L|L].
      * rewrite (Tk g (proj1 B1)). cbn [andb]. rewrite only_seps_iff. split.
        -- intros G. exists g. split; [right; auto|exact G].
        -- intros (q & [J|[J _]] & G); [|rewrite (U _ g q B1 J); exact G]. eapply gap_sub; [exact G|lia|]. rewrite (U _ q p J A). lia.
      * rewrite (Tm p (proj1 A)). cbn [andb]. rewrite only_seps_iff. split.
        -- intros G. exists p. split; [left; exact A|exact G].
        -- intros (q & [J|[J _]] & G); [rewrite (U _ p q A J); exact G|]. eapply gap_sub; [exact G|lia|]. rewrite (U _ q g J B1). lia.
    + rewrite (Tk g (proj1 B1)). cbn [andb]. rewrite only_seps_iff. split.
      * intros G. exists g. split; [right; auto|exact G].
      * intros (q & [J|[J _]] & G); [exfalso; exact (A q J)|rewrite (U _ g q B1 J); exact G].
  - destruct (first (next m ms _)) as [p|].
    + rewrite (Tm p (proj1 A)). cbn [andb]. rewrite only_seps_iff. split.
      * intros G. exists p. split; [left; exact A|exact G].
      * intros (q & [J|J] & G); [rewrite (U _ p q A J); exact G|exfalso; exact (B q J)].
    + split; [discriminate|]. intros (q & [J|J] & _); exfalso; [exact (A q J)|exact (B q J)].
Qed.
(** [a] comes before [b], or is at the same place *)
Definition not_after (a b : mt) : Prop := m_start a < m_start b \/ (m_start a = m_start b /\ m_end a <= m_end b).
Lemma not_after_iff a b : mt_le a b = true <-> not_after a b.
Proof. unfold mt_le, not_after. lia. Qed.
Lemma until_spec valid l y : StronglySorted (fun a b => mt_le a b = true) l ->
  (forall a b, m_start a = m_start b -> m_end a = m_end b -> valid a = valid b) ->
  In y (until valid l) <-> In y l /\ forall z, In z l -> not_after z y -> valid z = false.
Proof.
  intros S V. induction S as [|x l S IH F]; cbn [until]; [cbn; intuition|]. rewrite Forall_forall in F. destruct (valid x) eqn:E.
  - split; [intros []|]. intros [H Hz]. assert (valid x = false); [|congruence]. apply Hz; [left; reflexivity|]. destruct H as [->|H]; [unfold not_after; lia|apply not_after_iff, F; exact H].
  - cbn [In]. rewrite IH. split.
    + intros [<-|[H Hz]]; (split; [auto|]).
      * intros z [<-|Hz] N; [exact E|]. specialize (F z Hz). apply not_after_iff in F. rewrite (V z x); [exact E|unfold not_after in *; lia|unfold not_after in *; lia].
      * intros z [<-|H'] N; auto.
    + intros [[H|H] Hz]; [auto|]. right. split; [exact H|]. intros z H'; apply Hz; auto.
Qed.
Lemma near_span s markers ms a b : m_start a = m_start b -> m_end a = m_end b ->
  neighbour_before s markers ms a = neighbour_before s markers ms b /\ neighbour_after s markers ms a = neighbour_after s markers ms b.
Proof. intros E1 E2. unfold neighbour_before, neighbour_after, before_match, after_match, previous, next. rewrite E1, E2. auto. Qed.
Lemma neighbour_rule s ms t valid (near : mt -> Prop) : nonempty ms -> inside s ms -> distinct ms ->
  (forall m, valid m = true <-> near m) -> (forall a b, m_start a = m_start b -> m_end a = m_end b -> valid a = valid b) ->
  exists keep, remove_all (until valid (range_all s ms (has_tag t))) ms = filter keep ms /\
    forall y, In y ms -> (keep y = false <-> In t (m_tags y) /\ forall z, In z ms -> In t (m_tags z) -> not_after z y -> ~ near z).
Proof.
  intros Hn Hi Hd Hv Hs.
  assert (R : forall x, In x (range_all s ms (has_tag t)) <-> In x ms /\ In t (m_tags x)).
  { intros x. unfold range_all. rewrite max_end_inside by exact Hi. rewrite range_In' by auto. rewrite has_tag_iff. split; [tauto|].
    intros [H1 H2]. pose proof (Hn x H1). pose proof (Hi x H1). repeat split; auto; lia. }
  assert (S : StronglySorted (fun a b => mt_le a b = true) (range_all s ms (has_tag t))) by (unfold range_all, range; apply filter_sorted, filter_sorted, msorted_sorted).
  destruct (remove_keep (until valid (range_all s ms (has_tag t))) ms Hd) as (keep & E & K).
  { intros m Hm. apply until_spec in Hm; auto. apply R, Hm. }
  exists keep. split; [exact E|]. intros y Hy. rewrite (K y Hy), until_spec by auto. split.
  - intros [H1 H2]. apply R in H1. split; [tauto|]. intros z Hz Tz N. rewrite <- Hv. rewrite (H2 z); [discriminate|apply R; auto|exact N].
  - intros [H1 H2]. split; [apply R; auto|]. intros z Hz N. apply R in Hz as [Hz Tz]. apply Bool.not_true_iff_false. rewrite Hv. auto.
Qed.
(** a tagged match is removed iff neither it nor a tagged match before it has a neighbour: the loop stops at the first valid one *)
Theorem C40_has_neighbor s markers ms : nonempty ms -> nonempty markers -> inside s ms -> distinct ms ->
  exists keep, HasNeighbor s markers ms = filter keep ms /\
    forall y, In y ms -> (keep y = false <-> In (lit "has-neighbor") (m_tags y) /\
      forall z, In z ms -> In (lit "has-neighbor") (m_tags z) -> not_after z y -> ~ (near_before s markers ms z \/ near_after s markers ms z)).
Proof.
  intros Hn Hk Hi Hd. apply neighbour_rule; auto.
  - intros m. rewrite Bool.orb_true_iff, neighbour_before_iff, neighbour_after_iff by auto. reflexivity.
  - intros a b E1 E2. destruct (near_span s markers ms a b E1 E2) as [-> ->]. reflexivity.
Qed.
Print Assumptions C40_has_neighbor.
(** the tag "has-neighbor-before" asks for something after, "has-neighbor-after" for something before *)
Theorem C40_has_neighbor_before s markers ms : nonempty ms -> nonempty markers -> inside s ms -> distinct ms ->
  exists keep, HasNeighborBefore s markers ms = filter keep ms /\
    forall y, In y ms -> (keep y = false <-> In (lit "has-neighbor-before") (m_tags y) /\
      forall z, In z ms -> In (lit "has-neighbor-before") (m_tags z) -> not_after z y -> ~ near_after s markers ms z).
Proof.
  intros Hn Hk Hi Hd. apply neighbour_rule; auto.
  - intros m. apply neighbour_after_iff; auto.
  - intros a b E1 E2. apply (near_span s markers ms a b E1 E2).
Qed.
Print Assumptions C40_has_neighbor_before.
Theorem C40_has_neighbor_after s markers ms : nonempty ms -> nonempty markers -> inside s ms -> distinct ms ->
  exists keep, HasNeighborAfter s markers ms = filter keep ms /\
    forall y, In y ms -> (keep y = false <-> In (lit "has-neighbor-after") (m_tags y) /\
      forall z, In z ms -> In (lit "has-neighbor-after") (m_tags z) -> not_after z y -> ~ near_before s markers ms z).
Proof.
  intros Hn Hk Hi Hd. apply neighbour_rule; auto.
  - intros m. apply neighbour_before_iff; auto.
  - intros a b E1 E2. apply (near_span s markers ms a b E1 E2).
Qed.
Print Assumptions C40_has_neighbor_after.
(** limit: a tagged match without neighbour is kept when an earlier one has a neighbour *)
Definition hn_s : str := lit "HQ.1080p alone HQ alone".
Definition hn_ms : list mt := [simple 0 2 (lit "other") (MvStr (lit "High Quality")) [lit "has-neighbor"]; simple 3 8 (lit "screen_size") (MvStr (lit "1080p")) [];
  simple 15 17 (lit "other") (MvStr (lit "High Quality")) [lit "has-neighbor"]].
Theorem C40_all_validated_refuted : exists s markers ms, nonempty ms /\ nonempty markers /\ inside s ms /\ distinct ms /\
  exists y, In y (HasNeighbor s markers ms) /\ In (lit "has-neighbor") (m_tags y) /\ ~ near_before s markers ms y /\ ~ near_after s markers ms y.
Proof.
  exists hn_s, [], hn_ms.
  assert (N : nonempty hn_ms) by (intros m Hm; cbn in Hm; repeat (destruct Hm as [<-|Hm]; [cbn; lia|]); destruct Hm).
  assert (K : nonempty []) by (intros m []).
  split; [exact N|]. split; [exact K|]. split; [intros m Hm; cbn in Hm; repeat (destruct Hm as [<-|Hm]; [cbn; lia|]); destruct Hm|].
  split; [repeat (constructor; [cbn; intuition discriminate|]); constructor|].
  exists (simple 15 17 (lit "other") (MvStr (lit "High Quality")) [lit "has-neighbor"]).
  split; [vm_compute; auto|]. split; [left; reflexivity|].
  rewrite <- neighbour_before_iff, <- neighbour_after_iff by auto. split; discriminate.
Qed.
Print Assumptions C40_all_validated_refuted.
Example C40_example : HasNeighbor (lit "alone HQ alone HQ.1080p") [] [simple 6 8 (lit "other") (MvStr (lit "High Quality")) [lit "has-neighbor"];
    simple 15 17 (lit "other") (MvStr (lit "High Quality")) [lit "has-neighbor"]; simple 18 23 (lit "screen_size") (MvStr (lit "1080p")) []]
  = [simple 15 17 (lit "other") (MvStr (lit "High Quality")) [lit "has-neighbor"]; simple 18 23 (lit "screen_size") (MvStr (lit "1080p")) []].
Proof. reflexivity. Qed.

(** ** C55 *)
Definition other_with (t : string) (m : mt) : Prop := m_name m = lit "other" /\ In (lit t) (m_tags m).
Lemma other_tagged_iff t m : other_tagged t m = true <-> other_with t m.
Proof. unfold other_tagged, other_with. rewrite Bool.andb_true_iff, has_name_iff, has_tag_iff. reflexivity. Qed.
(** made by a source pattern *)
Definition source_made (m : mt) : Prop :=
  match m_parent m with Some p => p_name p = lit "source" | None => m_name m = lit "source" end.
Lemma from_source_iff m : from_source m = true <-> source_made m.
Proof. unfold from_source, initiator_name, source_made. destruct (m_parent m); apply str_eqb_eq. Qed.
Lemma filter_rule p ms (P : mt -> Prop) : distinct ms -> (forall m, In m ms -> p m = true <-> P m) ->
  exists keep, remove_all (filter p ms) ms = filter keep ms /\ forall y, In y ms -> (keep y = false <-> P y).
Proof.
  intros Hd H. exists (fun m => negb (p m)). split; [apply remove_filter; exact Hd|]. intros y Hy. rewrite Bool.negb_false_iff. auto.
Qed.
(** a screener is removed iff it does not directly follow a match made by a source *)
Theorem C55_screener s ms : nonempty ms -> distinct ms ->
  exists keep, Screener s ms = filter keep ms /\ forall y, In y ms -> (keep y = false <->
    other_with "other.validate.screener" y /\ ~ exists p, just_before ms y p /\ source_made p /\ gap s (m_end p) (m_start y)).
Proof.
  intros Hn Hd. apply filter_rule; [exact Hd|]. intros m Hm. rewrite Bool.andb_true_iff, other_tagged_iff.
  assert (Tm : forall x, In x ms -> m_truthy x = true) by (intros x Hx; apply Hn in Hx; unfold m_truthy; lia).
  apply and_iff_compat_l. pose proof (first_spec (previous m ms from_source)) as F. destruct (first (previous m ms from_source)) as [p|].
  - apply previous_In in F as (F0 & F). apply from_source_iff in F0. rewrite (Tm p (proj1 F)). cbn [negb orb].
    rewrite Bool.negb_true_iff, <- Bool.not_true_iff_false, only_seps_iff. split; intros H H'; apply H.
    + destruct H' as (q & J & _ & G). replace (m_end p) with (m_end q); [exact G|]. destruct F as (F1 & F2 & F3), J as (J1 & J2 & J3). specialize (F3 q J1 J2). specialize (J3 p F1 F2). lia.
    + exists p. split; [exact F|]. auto.
  - split; [|reflexivity]. intros _ (p & J & E & _). assert (In p []) as []. rewrite <- F. apply previous_In. rewrite from_source_iff. split; [exact E|exact J].
Qed.
Print Assumptions C55_screener.
(** a mux is removed iff the closest match before is not made by a source *)
Theorem C55_mux ms : nonempty ms -> distinct ms ->
  exists keep, Mux ms = filter keep ms /\ forall y, In y ms -> (keep y = false <->
    other_with "other.validate.mux" y /\ ~ exists p, just_before ms y p /\ source_made p).
Proof.
  intros Hn Hd. apply filter_rule; [exact Hd|]. intros m Hm. rewrite Bool.andb_true_iff, other_tagged_iff.
  apply and_iff_compat_l. pose proof (first_spec (previous m ms from_source)) as F. destruct (first (previous m ms from_source)) as [p|]; cbn [o_truthy].
  - apply previous_In in F as (F0 & F). apply from_source_iff in F0. pose proof (Hn p (proj1 F)).
    assert (m_truthy p = true) as -> by (unfold m_truthy; lia). split; [discriminate|]. intros H'. exfalso. apply H'. exists p. split; [exact F|auto].
  - split; [|reflexivity]. intros _ (p & J & E). assert (In p []) as []. rewrite <- F. apply previous_In. rewrite from_source_iff. split; [exact E|exact J].
Qed.
Print Assumptions C55_mux.
(** hardcoded subtitles are removed iff no subtitle language is next to them *)
Theorem C55_hardcoded s ms : nonempty ms -> inside s ms -> distinct ms ->
  exists keep, HardcodedSubs s ms = filter keep ms /\ forall y, In y ms -> (keep y = false <->
    m_name y = lit "other" /\ m_value y = MvStr (lit "Hardcoded Subtitles") /\
    ~ (exists p, just_after ms y p /\ m_name p = lit "subtitle_language" /\ adjacent s ms (m_end y) (m_start p)) /\
    ~ (exists p, just_before ms y p /\ m_name p = lit "subtitle_language" /\ adjacent s ms (m_end p) (m_start y))).
Proof.
  intros Hn Hi Hd. apply filter_rule; [exact Hd|]. intros m Hm. unfold is_hc. rewrite !Bool.andb_true_iff, has_name_iff, mval_eqb_eq.
  assert (Tm : forall x, In x ms -> m_truthy x = true) by (intros x Hx; apply Hn in Hx; unfold m_truthy; lia).
  assert (Om : forall y, In y ms -> m_start y <= m_end y) by (intros y Hy; apply Hn in Hy; lia).
  unfold hc_valid. rewrite Bool.negb_orb, Bool.andb_true_iff, !Bool.negb_true_iff, <- !Bool.not_true_iff_false.
  assert (A : (match first (next m ms (has_name (lit "subtitle_language"))) with Some p => m_truthy p && negb (text_between s ms (m_end m) (m_start p)) | None => false end = true) <->
    (exists p, just_after ms m p /\ m_name p = lit "subtitle_language" /\ adjacent s ms (m_end m) (m_start p))).
  { pose proof (first_spec (next m ms (has_name (lit "subtitle_language")))) as F. destruct (first (next m ms (has_name (lit "subtitle_language")))) as [p|].
    - apply (next_In m ms _ p Om) in F as (F0 & F). apply has_name_iff in F0. rewrite (Tm p (proj1 F)). cbn [andb].
      rewrite not_text by (auto; pose proof (Hi p (proj1 F)); lia). split.
      + intros X. exists p. split; [exact F|auto].
      + intros (q & J & _ & X). replace (m_start p) with (m_start q); [exact X|]. destruct F as (F1 & F2 & F3), J as (J1 & J2 & J3). specialize (F3 q J1 J2). specialize (J3 p F1 F2). lia.
    - split; [discriminate|]. intros (p & J & E & _). assert (In p []) as []. rewrite <- F. apply (next_In m ms _ p Om). rewrite has_name_iff. split; [exact E|exact J]. }
  assert (B : (match first (previous m ms (has_name (lit "subtitle_language"))) with Some p => m_truthy p && negb (text_between s ms (m_end p) (m_start m)) | None => false end = true) <->
    (exists p, just_before ms m p /\ m_name p = lit "subtitle_language" /\ adjacent s ms (m_end p) (m_start m))).
  { pose proof (first_spec (previous m ms (has_name (lit "subtitle_language")))) as F. destruct (first (previous m ms (has_name (lit "subtitle_language")))) as [p|].
    - apply previous_In in F as (F0 & F). apply has_name_iff in F0. rewrite (Tm p (proj1 F)). cbn [andb].
      rewrite not_text by (auto; pose proof (Hi m Hm); lia). split.
      + intros X. exists p. split; [exact F|auto].
      + intros (q & J & _ & X). replace (m_end p) with (m_end q); [exact X|]. destruct F as (F1 & F2 & F3), J as (J1 & J2 & J3). specialize (F3 q J1 J2). specialize (J3 p F1 F2). lia.
    - split; [discriminate|]. intros (p & J & E & _). assert (In p []) as []. rewrite <- F. apply previous_In. rewrite has_name_iff. split; [exact E|exact J]. }
  rewrite A, B. tauto.
Qed.
Print Assumptions C55_hardcoded.
(** a value to be found at the end of a part is removed iff some unrecognised text, or something which is not an "other" nor
    a container, comes after it in the part *)
Theorem C55_at_end s markers ms : nonempty ms -> inside s ms -> inside s markers -> distinct ms ->
  exists keep, AtEnd s markers ms = filter keep ms /\ forall y, In y ms -> (keep y = false <->
    exists k, In k markers /\ m_name k = lit "path" /\ other_with "at-end" y /\ m_start y < m_end k /\ m_start k < m_end y /\
      (~ adjacent s ms (m_end y) (m_end k) \/
       exists x, In x ms /\ m_name x <> lit "other" /\ m_name x <> lit "container" /\ m_start x < m_end k /\ m_end y < m_end x)).
Proof.
  intros Hn Hi Hk Hd.
  assert (X : forall k y, In k markers -> In y (filter (not_at_end s ms k) (range s ms (m_start k) (m_end k) (other_tagged "at-end"))) <->
    In y ms /\ other_with "at-end" y /\ m_start y < m_end k /\ m_start k < m_end y /\ (~ adjacent s ms (m_end y) (m_end k) \/
       exists x, In x ms /\ m_name x <> lit "other" /\ m_name x <> lit "container" /\ m_start x < m_end k /\ m_end y < m_end x)).
  { intros k y Hin. rewrite filter_In, range_In' by (auto; apply Hk; auto). rewrite other_tagged_iff. unfold not_at_end. rewrite Bool.orb_true_iff.
    assert (A : text_between s ms (m_end y) (m_end k) = true <-> ~ adjacent s ms (m_end y) (m_end k)).
    { rewrite <- not_text by (auto; apply Hk; auto). destruct (text_between _ _ _ _); cbn; split; congruence. }
    assert (B : (match range s ms (m_end y) (m_end k) (fun x => negb (smem (m_name x) [lit "other"; lit "container"])) with [] => false | _ => true end = true) <->
      exists x, In x ms /\ m_name x <> lit "other" /\ m_name x <> lit "container" /\ m_start x < m_end k /\ m_end y < m_end x).
    { assert (R : forall x, In x (range s ms (m_end y) (m_end k) (fun x => negb (smem (m_name x) [lit "other"; lit "container"]))) <->
        In x ms /\ m_name x <> lit "other" /\ m_name x <> lit "container" /\ m_start x < m_end k /\ m_end y < m_end x).
      { intros x. rewrite range_In' by (auto; apply Hk; auto). rewrite Bool.negb_true_iff, <- Bool.not_true_iff_false, smem_In. cbn. intuition. }
      destruct (range _ _ _ _ _) as [|x r].
      - split; [discriminate|]. intros (x & H). apply R in H. destruct H.
      - split; [|reflexivity]. intros _. exists x. apply R. left; reflexivity. }
    rewrite A, B. tauto. }
  unfold AtEnd. match goal with |- context [remove_all ?l ms] => destruct (remove_keep l ms Hd) as (keep & E & K) end.
  { intros m Hm. apply in_flat_map in Hm as (k & Hin & H). apply named_In in Hin as [Hin _]. apply X in H; tauto. }
  exists keep. split; [exact E|]. intros y Hy. rewrite (K y Hy), in_flat_map. split.
  - intros (k & Hin & H). apply named_In in Hin as [Hin En]. apply X in H; [|exact Hin]. exists k. tauto.
  - intros (k & Hin & En & H). exists k. split; [apply named_In; auto|]. apply X; tauto.
Qed.
Print Assumptions C55_at_end.
(** "real" is removed iff nothing was recognised before it in the part *)
Theorem C55_real s markers ms : inside s ms -> inside s markers -> distinct ms ->
  exists keep, Real s markers ms = filter keep ms /\ forall y, In y ms -> (keep y = false <->
    exists k, In k markers /\ m_name k = lit "path" /\ other_with "real" y /\ m_start y < m_end k /\ m_start k < m_end y /\
      forall x, In x ms -> m_start x < m_start y -> m_end x <= m_start k).
Proof.
  intros Hi Hk Hd.
  assert (X : forall k y, In k markers -> In y (filter (fun m => match range s ms (m_start k) (m_start m) (fun _ => true) with [] => true | _ => false end)
                                        (range s ms (m_start k) (m_end k) (other_tagged "real"))) <->
    In y ms /\ other_with "real" y /\ m_start y < m_end k /\ m_start k < m_end y /\ forall x, In x ms -> m_start x < m_start y -> m_end x <= m_start k).
  { intros k y Hin. rewrite filter_In, range_In' by (auto; apply Hk; auto). rewrite other_tagged_iff.
    assert (B : In y ms -> (match range s ms (m_start k) (m_start y) (fun _ => true) with [] => true | _ => false end = true) <->
      forall x, In x ms -> m_start x < m_start y -> m_end x <= m_start k).
    { intros Hy. assert (R : forall x, In x (range s ms (m_start k) (m_start y) (fun _ => true)) <-> In x ms /\ m_start x < m_start y /\ m_start k < m_end x).
      { intros x. rewrite range_In' by (auto; pose proof (Hi y Hy); lia). tauto. }
      destruct (range _ _ _ _ _) as [|x r].
      - split; [|reflexivity]. intros _ x Hx L. destruct (Nat.le_gt_cases (m_end x) (m_start k)) as [|L']; [auto|]. exfalso. apply (proj2 (R x)). auto.
      - split; [discriminate|]. intros H. exfalso. destruct (proj1 (R x) (or_introl eq_refl)) as (H1 & H2 & H3). specialize (H x H1 H2). lia. }
    split; [intros [H1 H2]; rewrite B in H2 by tauto; tauto|intros H; rewrite B by tauto; tauto]. }
  unfold Real. match goal with |- context [remove_all ?l ms] => destruct (remove_keep l ms Hd) as (keep & E & K) end.
  { intros m Hm. apply in_flat_map in Hm as (k & Hin & H). apply named_In in Hin as [Hin _]. apply X in H; tauto. }
  exists keep. split; [exact E|]. intros y Hy. rewrite (K y Hy), in_flat_map. split.
  - intros (k & Hin & H). apply named_In in Hin as [Hin En]. apply X in H; [|exact Hin]. exists k. tauto.
  - intros (k & Hin & En & H). exists k. split; [apply named_In; auto|]. apply X; tauto.
Qed.
Print Assumptions C55_real.
(** "another" is only an internal name *)
Theorem C55_another ms : distinct ms ->
  RenameAnother ms = filter (fun m => negb (has_name (lit "another") m)) ms ++ map (fun m => set_name m (lit "other")) (named (lit "another") ms) /\
  forall m, In m (RenameAnother ms) -> m_name m <> lit "another".
Proof.
  intros Hd. assert (E : RenameAnother ms = filter (fun m => negb (has_name (lit "another") m)) ms ++ map (fun m => set_name m (lit "other")) (named (lit "another") ms)).
  { unfold RenameAnother. rewrite rename_all_eq; auto.
    - f_equal. rewrite <- remove_all_filter by exact Hd. unfold named. rewrite remove_filter by exact Hd. reflexivity.
    - apply distinct_filter; exact Hd.
    - intros m Hm. apply named_In in Hm; tauto.
    - intros m Hm. apply named_In in Hm as [_ ->]. discriminate. }
  split; [exact E|]. rewrite E. intros m Hm. apply in_app_iff in Hm as [Hm|Hm].
  - apply filter_In in Hm as [_ Hm]. intros N. apply has_name_iff in N. rewrite N in Hm. discriminate.
  - apply in_map_iff in Hm as (x & <- & _). discriminate.
Qed.
Print Assumptions C55_another.
Definition scr (a b : nat) (t : string) : mt := simple a b (lit "other") (MvStr (lit "Screener")) [lit t].
Example C55_example :
  Screener (lit "DVD.SCR and SCR") [simple 0 3 (lit "source") (MvStr (lit "DVD")) []; scr 4 7 "other.validate.screener"; scr 12 15 "other.validate.screener"]
    = [simple 0 3 (lit "source") (MvStr (lit "DVD")) []; scr 4 7 "other.validate.screener"] /\
  Mux [scr 4 7 "other.validate.mux"] = [] /\
  AtEnd (lit "a AE b/AE.mkv") [simple 0 6 (lit "path") (MvStr []) []; simple 7 13 (lit "path") (MvStr []) []]
    [scr 2 4 "at-end"; scr 7 9 "at-end"; simple 10 13 (lit "container") (MvStr (lit "mkv")) []] = [scr 7 9 "at-end"; simple 10 13 (lit "container") (MvStr (lit "mkv")) []] /\
  Real (lit "real 1080p/1080p real") [simple 0 10 (lit "path") (MvStr []) []; simple 11 21 (lit "path") (MvStr []) []]
    [scr 0 4 "real"; simple 5 10 (lit "screen_size") (MvStr []) []; simple 11 16 (lit "screen_size") (MvStr []) []; scr 17 21 "real"]
    = [simple 5 10 (lit "screen_size") (MvStr []) []; simple 11 16 (lit "screen_size") (MvStr []) []; scr 17 21 "real"].
Proof. repeat split; reflexivity. Qed.
