(** More properties of guessit/rules/properties/title.py (C57, C58) *)
From Verif Require Import Py PyFacts Text TextFacts Sort Formatters Rebulk RebulkFacts RuleSpec Processors ProcessorsProofs Title TitleProofs TitleProps.
From Coq Require Import Arith ZifyBool Sorted Permutation.

Lemma tidy_found s context markers ms extra p : store_ok s markers ms -> (forall g, In g markers -> m_name g = lit "group" -> m_start g < m_end g) -> tidy s markers ms ->
  In p markers -> m_name p = lit "path" -> forall r, exists o, check_titles r s context markers ms extra p = Ok o.
Proof.
  intros W Hg T Hp Np r. destruct (tidy_check r s context markers ms extra p (so_distinct _ _ _ W) (so_inside _ _ _ W) (so_nonempty _ _ _ W) (so_ends _ _ _ W) Hg T Hp Np) as (o & E & _).
  exists o. exact E.
Qed.
(** C57: when the matches are apart, inside the parts of the path and have some text, the rule does not fail, and it loses
    nothing of the text of the matches it drops: every character of them that is no separator is in a title. *)
Theorem C57_tidy : forall s context markers ms, store_ok s markers ms -> tidy s markers ms ->
  (forall g, In g markers -> m_name g = lit "group" -> m_start g < m_end g) ->
  exists ms', TitleFromPosition s context markers ms = Ok ms' /\
  forall m j c, In m ms -> ~ In m ms' -> m_start m <= j < m_end m -> nth_error s j = Some c -> is_sep c = false ->
    exists t, In t ms' /\ title_name (m_name t) /\ m_start t <= j < m_end t.
Proof.
  intros s context markers ms W T Hg.
  set (r := title_from_position).
  set (parts := filter (tr_part_filter r ms) (marker_sorted s ms comparator_predicate (named (lit "path") markers))).
  assert (Ck : forall extra p, In p parts -> exists o, check_titles r s context markers ms extra p = Ok o).
  { intros extra p Hp. apply parts_markers in Hp as [Hp Np]. apply tidy_found; assumption. }
  assert (Tot : exists w, title_when r s context markers ms = Ok w).
  { unfold title_when. destruct (existsb _ _); [eexists; reflexivity|]. fold parts.
    assert (S : exists o, serie_titles r s context markers ms (serie_part s ms parts) = Ok o).
    { unfold serie_titles. destruct (serie_part s ms parts) as [p|] eqn:E; [|eexists; reflexivity]. destruct (m_truthy p); [|eexists; reflexivity].
      apply (serie_part_spec s ms) in E as (l & q & l2 & El & _). destruct (Ck weak p) as (o & ->); [rewrite El; apply in_app_iff; right; right; left; reflexivity|].
      cbn [bind]. destruct o as [[[|t [|? ?]] rm]|]; eexists; reflexivity. }
    destruct S as (serie & ->). cbn [bind].
    assert (M : forall ps years, (forall p, In p ps -> In p parts) -> exists ys o, main_part r s context markers ms ps years = Ok (ys, o)).
    { induction ps as [|p ps IH]; intros years Hps; cbn [main_part]; [eexists; eexists; reflexivity|].
      destruct (Ck never p (Hps p (or_introl eq_refl))) as (o & ->). cbn [bind]. destruct o; [eexists; eexists; reflexivity|].
      apply IH. intros q Hq; apply Hps; right; exact Hq. }
    destruct (M parts (filter (with_year s ms) parts) (fun _ H => H)) as (ys & o & E). rewrite E. cbn [bind].
    apply main_part_spec in E as [Hy _].
    destruct (mapM_total (check_titles r s context markers ms never) ys) as (os & ->).
    { intros y Hy'. apply Ck. apply Hy in Hy'. apply filter_In in Hy'. apply Hy'. }
    cbn [bind]. eexists; reflexivity. }
  destruct Tot as (w & Ew). assert (E : exists ms', TitleFromPosition s context markers ms = Ok ms') by (unfold TitleFromPosition, title_base; fold r; rewrite Ew; eexists; reflexivity).
  destruct E as (ms' & E). exists ms'. split; [exact E|].
  destruct (title_rule_result s context markers ms ms' W E) as (app & rm & new & Ew' & -> & Hnew & Happ). fold r in Ew'.
  intros m j c Hm Hnm Hj Hc Ec.
  assert (Hrm : exists x, In x rm /\ mkey x = mkey m).
  { apply mmem_iff. destruct (mmem m rm) eqn:Em; [reflexivity|]. exfalso. apply Hnm. apply in_app_iff. left. apply filter_In. rewrite Em. auto. }
  destruct Hrm as (x & Hx & Ex).
  destruct (title_when_spec _ _ _ _ _ _ _ Ew') as [(_ & -> & ->)|(_ & S)]; [destruct Hx|].
  destruct (ws_rm _ _ _ _ _ _ _ S x Hx) as (ex & p & ts & rm' & F & Hx' & Hts). apply found_part in F as ((Hp & Np) & C & _).
  destruct (tidy_check r s context markers ms ex p (so_distinct _ _ _ W) (so_inside _ _ _ W) (so_nonempty _ _ _ W) (so_ends _ _ _ W) Hg T Hp Np) as (o & Co & Ho).
  rewrite C in Co. injection Co as <-. destruct (Ho ts rm' eq_refl) as (z & Z & Hz).
  unfold mkey in Ex. injection Ex as Ex1 Ex2 _ _ _.
  assert (Hin : insp j z) by (apply (Hz x j c); auto; lia).
  destruct (zt_titles _ _ _ _ _ _ _ _ _ _ Z) as (l & El & Sp). cbn [tr_alternative title_from_position r] in Sp.
  destruct (sp_all _ _ _ _ _ Sp j c Hin Hc Ec) as (y & Hy & Hjy).
  assert (Ht0 : In (to_match s (tr_tags r) y) ts) by (rewrite El; apply in_map; exact Hy).
  destruct (zone_title _ _ _ _ _ _ _ _ _ _ Z Ht0) as (N0 & _).
  destruct (Hts _ Ht0) as (t & Ht & R). destruct (Happ t Ht) as (u & Hu & Eu). exists u. split; [exact Hu|]. unfold mkey in Eu. injection Eu as E1 E2 E3 _ _.
  rewrite E1, E2, E3. destruct R as [->| ->]; cbn [to_match simple m_start m_end m_name set_name]; (split; [|exact Hjy]).
  - destruct N0 as [N0|N0]; [left|right; left]; exact N0.
  - right; right; reflexivity.
Qed.
Print Assumptions C57_tidy.

(** C57: titles are cut at every title separator (- + / \ |) but a dash between two characters that are no separators *)
Theorem C57_split : forall s context markers ms ms', store_ok s markers ms -> TitleFromPosition s context markers ms = Ok ms' ->
  forall t i c, In t ms' -> ~ In t ms -> m_start t <= i < m_end t -> nth_error s i = Some c -> In c (lit "-+/\|") ->
    c = 45%N /\ 0 < i /\ (exists b, nth_error s (i - 1) = Some b /\ is_sep b = false) /\ (exists b, nth_error s (i + 1) = Some b /\ is_sep b = false).
Proof.
  intros s context markers ms ms' W H t i c Ht Hnt Hi Hc Ec.
  destruct (title_rule_result s context markers ms ms' W H) as (app & rm & new & Ew & -> & Hnew & _).
  apply in_app_iff in Ht as [Ht|Ht]; [apply filter_In in Ht as [Ht _]; contradiction|].
  destruct (title_when_spec _ _ _ _ _ _ _ Ew) as [(_ & -> & ->)|(_ & S)]; [destruct (Hnew t Ht)|].
  destruct (ws_app _ _ _ _ _ _ _ S t (Hnew t Ht)) as (ex & p & ts & rm' & t0 & F & Ht0 & R & _).
  apply found_part in F as (_ & C & _). apply check_titles_some in C as (z & Z); try apply W; [|eapply so_ends; exact W].
  destruct (zt_titles _ _ _ _ _ _ _ _ _ _ Z) as (l & -> & Sp). cbn [tr_alternative title_from_position] in Sp.
  apply in_map_iff in Ht0 as (x & <- & Hx).
  assert (Ij : insp i (snd x)) by (destruct R as [->|(-> & _)]; exact Hi).
  destruct (sp_dash _ _ _ _ _ Sp x i Hx Ij) as (G1 & G2 & G3 & G4).
  - exists c. split; [exact Hc|]. apply cmem_In. exact Ec.
  - rewrite G1 in Hc. injection Hc as <-. auto.
Qed.
Print Assumptions C57_split.

(** C57: where the titles come from. When no directory is a season, a title is in a part of the path that has a year, or in the
    best part (see C29) with some free text: every better one has none. *)
Theorem C57_origin : forall s context markers ms ms', store_ok s markers ms -> TitleFromPosition s context markers ms = Ok ms' ->
  (forall p, In p markers -> m_name p = lit "path" -> ~ season_folder ms p) ->
  forall t, In t ms' -> ~ In t ms ->
  exists better part worse, marker_sorted s ms comparator_predicate (filter (fun m => str_eqb (m_name m) (lit "path")) markers) = better ++ part :: worse /\
    m_start part <= m_start t /\ m_end t <= m_end part + 1 /\
    ((exists y, In y ms /\ m_name y = lit "year" /\ m_start y < m_end part /\ m_start part < m_end y) \/ forall p, In p better -> ~ free_text s markers ms p).
Proof.
  intros s context markers ms ms' W H Hs t Ht Hnt.
  destruct (title_rule_result s context markers ms ms' W H) as (app & rm & new & Ew & -> & Hnew & _).
  apply in_app_iff in Ht as [Ht|Ht]; [apply filter_In in Ht as [Ht _]; contradiction|].
  destruct (title_when_spec _ _ _ _ _ _ _ Ew) as [(_ & -> & ->)|(_ & S)]; [destruct (Hnew t Ht)|].
  destruct (ws_app _ _ _ _ _ _ _ S t (Hnew t Ht)) as (ex & p & ts & rm' & t0 & F & Ht0 & R & _).
  assert (EP : filter (tr_part_filter title_from_position ms) (marker_sorted s ms comparator_predicate (named (lit "path") markers)) =
    marker_sorted s ms comparator_predicate (filter (fun m => str_eqb (m_name m) (lit "path")) markers)) by (apply filter_id; reflexivity).
  assert (NS : forall q, In q markers -> m_name q = lit "path" -> season_only s ms q = false).
  { intros q Hq Nq. destruct (season_only s ms q) eqn:E; [|reflexivity]. exfalso. apply (Hs q Hq Nq). apply (season_only_spec s markers); assumption. }
  assert (FP := F). apply found_part in FP as ((Hp & Np) & C & _). assert (C0 := C).
  apply check_titles_some in C as (z & Z); try apply W; [|eapply so_ends; exact W].
  destruct (zone_title _ _ _ _ _ _ _ _ _ _ Z Ht0) as (_ & _ & _ & A & B & _). destruct (zt_part _ _ _ _ _ _ _ _ _ _ Z) as (Z1 & Z2 & _).
  assert (Et : m_start t = m_start t0 /\ m_end t = m_end t0) by (destruct R as [->|(-> & _)]; auto). destruct Et as [E1 E2].
  destruct F as [l q p' l2 ts0 rm0 E Hl Hso|l1 p' l2 ts0 rm0 E H1 Hc|p' ts0 rm0 Hin Hy Hc].
  - exfalso. assert (Hq : In q (l ++ q :: p' :: l2)) by (apply in_app_iff; right; left; reflexivity). rewrite <- E in Hq. apply parts_markers in Hq as [Hq Nq].
    rewrite (NS q Hq Nq) in Hso. discriminate.
  - exists l1, p', l2. split; [rewrite <- EP; exact E|]. split; [lia|]. split; [lia|]. right.
    intros q Hq Ft. apply (free_text_check s context markers ms q W Ft). apply H1; exact Hq.
  - rewrite EP in Hin. apply in_split in Hin as (l1 & l2 & E). exists l1, p', l2. split; [exact E|]. split; [lia|]. split; [lia|]. left.
    unfold with_year in Hy. destruct (first (range s ms (m_start p') (m_end p') (has_name (lit "year")))) as [y|] eqn:Ey; [|discriminate].
    apply hd_error_In in Ey. destruct (so_markers _ _ _ W p' Hp) as [M1 M2]. apply range_In' in Ey as (Y1 & Y2 & Y3 & Y4); [|apply W|exact M2].
    apply has_name_iff in Y4. exists y. auto.
Qed.
Print Assumptions C57_origin.

(** non-vacuity: "Show/The French - Best.2010.mkv" with a language, a year and a container *)
Definition ex_s : str := lit "Show/The French - Best.2010.mkv".
Definition ex_markers : list mt := [mk "path" 0 4; mk "path" 5 31].
Definition ex_ms : list mt := [simple 9 15 (lit "language") (MvObj (lit "fr")) []; simple 23 27 (lit "year") (MvInt 2010) []; simple 28 31 (lit "container") (MvStr (lit "mkv")) []].
Definition new_title (a b : nat) (n v : string) : mt := simple a b (lit n) (MvStr (lit v)) [lit "title"].
Example ex_title : store_ok ex_s ex_markers ex_ms /\ tidy ex_s ex_markers ex_ms /\ (forall g, In g ex_markers -> m_name g = lit "group" -> m_start g < m_end g) /\
  (forall p, In p ex_markers -> m_name p = lit "path" -> ~ season_folder ex_ms p) /\
  free_text ex_s ex_markers ex_ms (mk "path" 5 31) /\ (exists y, In y ex_ms /\ m_name y = lit "year" /\ overlapping (mk "path" 5 31) y) /\
  (forall m, In m ex_ms -> m_name m = lit "title" -> ~ In (lit "expected") (m_tags m)) /\
  TitleFromPosition ex_s [] ex_markers ex_ms = Ok (tl ex_ms ++ [new_title 5 16 "title" "The French"; new_title 17 23 "alternative_title" "Best"]).
Proof.
  assert (W : store_ok ex_s ex_markers ex_ms).
  { split; try (unfold inside, nonempty; cbn; intros m Hm; repeat (destruct Hm as [<-|Hm]; [cbn; lia|]); destruct Hm).
    - unfold distinct. cbn. repeat constructor; cbn; intuition discriminate.
    - unfold distinct. cbn. repeat constructor; cbn; intuition discriminate. }
  split; [exact W|]. repeat apply conj.
  - split.
    + intros x y [<-|[<-|[<-|[]]]] [<-|[<-|[<-|[]]]] (i & A & B); try reflexivity; cbn in A, B; lia.
    + intros x y [<-|[<-|[<-|[]]]] [<-|[<-|[]]] (i & A & B); cbn in A, B; cbn; lia.
    + intros x y [<-|[<-|[<-|[]]]] [<-|[<-|[]]] _; cbn; lia.
    + intros x [<-|[<-|[<-|[]]]]; [exists 9|exists 23|exists 28]; eexists; (split; [cbn; lia|split; reflexivity]).
  - intros g [<-|[<-|[]]]; discriminate.
  - intros p Hp _ (m & Hm & Nm & _). destruct Hm as [<-|[<-|[<-|[]]]]; discriminate.
  - exists 5. eexists. split; [cbn; lia|]. split; [reflexivity|]. split; [reflexivity|]. split.
    + intros (m & [<-|[<-|[<-|[]]]] & H); cbn in H; lia.
    + intros g [<-|[<-|[]]]; discriminate.
  - exists (simple 23 27 (lit "year") (MvInt 2010) []). split; [cbn; auto|]. split; [reflexivity|]. exists 23. cbn; lia.
  - intros m [<-|[<-|[<-|[]]]]; discriminate.
  - vm_compute. reflexivity.
Qed.
(** limit of [C57_tidy]: the rule fails when a language starts inside another match and ends after it ("2010ef", with the year 2010 and the language "10ef", multiple languages) *)
Theorem C57_limit : exists s markers ms, store_ok s markers ms /\ (forall g, In g markers -> m_name g = lit "group" -> m_start g < m_end g) /\
  TitleFromPosition s [] markers ms = Err ValueError.
Proof.
  exists (lit "2010ef"), [mk "path" 0 6], [simple 0 4 (lit "year") (MvInt 2010) []; simple 2 6 (lit "language") (MvObj (lit "mul")) []].
  split; [|split].
  - split; try (unfold inside, nonempty; cbn; intros m Hm; repeat (destruct Hm as [<-|Hm]; [cbn; lia|]); destruct Hm).
    + unfold distinct. cbn. repeat constructor; cbn; intuition discriminate.
    + unfold distinct. cbn. repeat constructor; cbn; intuition discriminate.
  - intros g [<-|[]]; discriminate.
  - vm_compute. reflexivity.
Qed.
Print Assumptions C57_limit.

(** ** C58: titles next to a year are preferred *)
(** [y] is the first year of the part of the path where [t] starts *)
Definition year_of (markers ms : list mt) (t y : mt) : Prop :=
  exists part, In part markers /\ m_name part = lit "path" /\ m_start part <= m_start t < m_end part /\
    In y ms /\ m_name y = lit "year" /\ overlapping part y /\
    forall z, In z ms -> m_name z = lit "year" -> overlapping part z -> m_start y <= m_start z.
Definition in_brackets (markers : list mt) (y : mt) : Prop :=
  exists g, In g markers /\ m_name g = lit "group" /\ (m_start g <= m_start y < m_end g \/ m_start g <= m_end y - 1 < m_end g).
(** the titles to prefer *)
Definition preferred (markers ms : list mt) (t : mt) : Prop :=
  In t ms /\ m_name t = lit "title" /\ exists y, year_of markers ms t y /\
    (in_brackets markers y \/ forall u z, In u ms -> m_name u = lit "title" -> year_of markers ms u z -> ~ in_brackets markers z).

Lemma NoDup_app_disj {A} (a b : list A) : NoDup a -> NoDup b -> (forall x, In x a -> In x b -> False) -> NoDup (a ++ b).
Proof.
  intros Ha Hb H. induction Ha as [|x a Hx Ha IH]; cbn [app]; [exact Hb|]. constructor.
  - rewrite in_app_iff. intros [H1|H1]; [exact (Hx H1)|exact (H x (or_introl eq_refl) H1)].
  - apply IH. intros y H1 H2. apply (H y (or_intror H1) H2).
Qed.
Section Prefer.
  Variables (s : str) (markers ms : list mt).
  Hypothesis W : store_ok s markers ms.
  Hypothesis Hp : paths_apart markers.
  Hypothesis Hpl : forall t, In t ms -> m_name t = lit "title" -> exists p, In p markers /\ m_name p = lit "path" /\ m_start p <= m_start t < m_end p.
  Hypothesis Hy : forall y z, In y ms -> In z ms -> m_name y = lit "year" -> m_name z = lit "year" -> overlapping y z -> y = z.
  Lemma part_of_title t p : In p markers -> m_name p = lit "path" -> m_start p <= m_start t < m_end p ->
    first (filter (has_name (lit "path")) (at_match t markers)) = Some p.
  Proof.
    intros H N C. unfold at_match, at_span. set (rest := match m_end t with O => [] | S b' => at_index b' markers end).
    destruct (merge_new_app (at_index (m_start t) markers) rest) as (c & ->). rewrite filter_app.
    assert (Hin : In p (filter (has_name (lit "path")) (at_index (m_start t) markers))).
    { apply filter_In. split; [|apply has_name_iff; exact N]. apply filter_In. split; [exact H|unfold covers; lia]. }
    destruct (filter (has_name (lit "path")) (at_index (m_start t) markers)) as [|q l] eqn:E; [destruct Hin|]. cbn [app first hd_error]. f_equal.
    assert (Hq : In q (filter (has_name (lit "path")) (at_index (m_start t) markers))) by (rewrite E; left; reflexivity).
    apply filter_In in Hq as [Hq Nq]. apply has_name_iff in Nq. apply filter_In in Hq as [Hq Cq]. unfold covers in Cq.
    apply Hp; auto. exists (m_start t). lia.
  Qed.
  Lemma in_brackets_iff y : In y ms -> nonnil (filter (has_name (lit "group")) (at_match y markers)) = true <-> in_brackets markers y.
  Proof.
    intros Hym. rewrite nonnil_iff. pose proof (at_match_iff y markers (lit "group")) as A. pose proof (so_nonempty _ _ _ W y Hym) as Ne. split.
    - intros H. destruct (filter _ _) as [|x l] eqn:E; [congruence|]. assert (Hx : In x (x :: l)) by (left; reflexivity). rewrite <- E in Hx.
      apply filter_In in Hx as [Hx N]. apply has_name_iff in N. destruct (proj1 A) as (g & G1 & G2 & G3); [eauto|]. exists g. repeat split; auto. lia.
    - intros (g & G1 & G2 & G3) E. destruct (proj2 A) as (x & Hx & N).
      { exists g. repeat split; auto. lia. }
      assert (Hf : In x []); [|destruct Hf]. rewrite <- E. apply filter_In. split; [exact Hx|apply has_name_iff; exact N].
  Qed.
  Lemma year_of_unique t y z : In t ms -> m_name t = lit "title" -> year_of markers ms t y -> year_of markers ms t z -> y = z.
  Proof.
    intros Ht Nt (p & P1 & P2 & P3 & P4 & P5 & P6 & P7) (q & Q1 & Q2 & Q3 & Q4 & Q5 & Q6 & Q7).
    assert (q = p) as -> by (apply Hp; auto; exists (m_start t); auto).
    specialize (P7 z Q4 Q5 Q6). specialize (Q7 y P4 P5 P6). apply Hy; auto. exists (m_start y).
    pose proof (so_nonempty _ _ _ W y P4). pose proof (so_nonempty _ _ _ W z Q4). lia.
  Qed.
  Lemma year_kind_spec t : In t ms -> m_name t = lit "title" ->
    match year_kind s markers ms t with
    | Some b => exists y, year_of markers ms t y /\ (b = true <-> in_brackets markers y)
    | None => forall y, ~ year_of markers ms t y
    end.
  Proof.
    intros Ht Nt. destruct (Hpl t Ht Nt) as (p & P1 & P2 & P3). unfold year_kind. rewrite (part_of_title t p P1 P2 P3).
    assert (m_truthy p = true) as -> by (unfold m_truthy; lia). destruct (so_markers _ _ _ W p P1) as [M1 M2].
    pose proof (range_first s ms (m_start p) (m_end p) (has_name (lit "year")) (so_inside _ _ _ W) M2) as R.
    assert (Ov : forall y, In y ms -> overlapping p y <-> m_start y < m_end p /\ m_start p < m_end y).
    { intros y Hym. pose proof (so_nonempty _ _ _ W y Hym). split; [intros (i & A & B); lia|]. intros [A B]. exists (Nat.max (m_start p) (m_start y)). lia. }
    destruct (first (range s ms (m_start p) (m_end p) (has_name (lit "year")))) as [y|].
    - destruct R as [(R1 & R2 & R3 & R4) R5]. apply has_name_iff in R4. pose proof (so_nonempty _ _ _ W y R1) as Ne.
      assert (m_truthy y = true) as -> by (unfold m_truthy; lia). exists y. split.
      + exists p. split; [exact P1|]. split; [exact P2|]. split; [exact P3|]. split; [exact R1|]. split; [exact R4|]. split; [apply Ov; auto|].
        intros z Z1 Z2 Z3. apply Ov in Z3 as [Z3 Z4]; [|exact Z1]. specialize (R5 z Z1 Z3 Z4 (proj2 (has_name_iff _ _) Z2)). unfold mt_le in R5. lia.
      + apply in_brackets_iff; exact R1.
    - intros y (q & Q1 & Q2 & Q3 & Q4 & Q5 & Q6 & _). assert (q = p) as -> by (apply Hp; auto; exists (m_start t); auto).
      apply Ov in Q6 as [Q6 Q7]; [|exact Q4]. apply has_name_iff in Q5. rewrite (R y Q4 Q6 Q7) in Q5. discriminate.
  Qed.
  Definition chosen : list mt := snd (prefer_year s markers ms).
  Lemma chosen_iff t : In t chosen <-> preferred markers ms t.
  Proof.
    unfold chosen, prefer_year. cbv zeta. cbn [snd]. set (titles := named (lit "title") ms).
    set (gr := filter (fun t0 => is_some_b true (year_kind s markers ms t0)) titles). set (pl := filter (fun t0 => is_some_b false (year_kind s markers ms t0)) titles).
    assert (G : forall u, In u gr <-> In u ms /\ m_name u = lit "title" /\ exists y, year_of markers ms u y /\ in_brackets markers y).
    { intros u. unfold gr, titles. rewrite filter_In, named_In. split.
      - intros [[U1 U2] E]. pose proof (year_kind_spec u U1 U2) as K. destruct (year_kind s markers ms u) as [[|]|]; try discriminate.
        destruct K as (y & K1 & K2). split; [exact U1|]. split; [exact U2|]. exists y. split; [exact K1|apply K2; reflexivity].
      - intros (U1 & U2 & y & U3 & U4). split; [auto|]. pose proof (year_kind_spec u U1 U2) as K. destruct (year_kind s markers ms u) as [b|]; [|destruct (K y U3)].
        destruct K as (z & K1 & K2). rewrite <- (year_of_unique u y z U1 U2 U3 K1) in K2. apply K2 in U4. subst b. reflexivity. }
    assert (P : forall u, In u pl <-> In u ms /\ m_name u = lit "title" /\ exists y, year_of markers ms u y /\ ~ in_brackets markers y).
    { intros u. unfold pl, titles. rewrite filter_In, named_In. split.
      - intros [[U1 U2] E]. pose proof (year_kind_spec u U1 U2) as K. destruct (year_kind s markers ms u) as [[|]|]; try discriminate.
        destruct K as (y & K1 & K2). split; [exact U1|]. split; [exact U2|]. exists y. split; [exact K1|]. intros H. apply K2 in H. discriminate.
      - intros (U1 & U2 & y & U3 & U4). split; [auto|]. pose proof (year_kind_spec u U1 U2) as K. destruct (year_kind s markers ms u) as [b|]; [|destruct (K y U3)].
        destruct K as (z & K1 & K2). rewrite <- (year_of_unique u y z U1 U2 U3 K1) in K2. destruct b; [|reflexivity]. exfalso. apply U4, K2. reflexivity. }
    clearbody gr pl. unfold preferred. destruct gr as [|g gr]; cbn [nonnil].
    - rewrite P. assert (No : forall u y, In u ms -> m_name u = lit "title" -> year_of markers ms u y -> ~ in_brackets markers y).
      { intros u y U1 U2 U3 U4. apply (proj2 (G u)). split; [exact U1|]. split; [exact U2|]. eauto. }
      split; intros (H1 & H2 & y & H3 & H4); (split; [exact H1|]; split; [exact H2|]; exists y; split; [exact H3|]); eauto.
    - rewrite G. destruct (proj1 (G g) (or_introl eq_refl)) as (g1 & g2 & z & g3 & g4).
      split; intros (H1 & H2 & y & H3 & H4); (split; [exact H1|]; split; [exact H2|]; exists y; split; [exact H3|]); [left; exact H4|].
      destruct H4 as [H4|H4]; [exact H4|]. exfalso. exact (H4 g z g1 g2 g3 g4).
  Qed.
  (** C58: when a title is in a part of the path with a year (in brackets if there is one), the titles with another value are
      dropped; these titles get the tag "equivalent-ignore", and nothing else changes. *)
  Theorem C58_prefer : exists keep tag,
    PreferTitleWithYear s markers ms = filter (fun m => keep m && negb (tag m)) ms ++ map (fun m => set_tags m (m_tags m ++ [lit "equivalent-ignore"])) (filter tag ms) /\
    (forall m, In m ms -> (tag m = true <-> preferred markers ms m)) /\
    (forall m, In m ms -> (keep m = false <->
       m_name m = lit "title" /\ (exists t, preferred markers ms t) /\ forall t, preferred markers ms t -> m_value t <> m_value m)).
  Proof.
    assert (Dt : distinct (named (lit "title") ms)) by (apply distinct_filter; apply W).
    unfold PreferTitleWithYear. destruct (prefer_year s markers ms) as [rm tg] eqn:E.
    assert (Etg : tg = chosen) by (unfold chosen; rewrite E; reflexivity).
    assert (Ftg : exists f, tg = filter f (named (lit "title") ms)).
    { subst tg. unfold chosen, prefer_year. cbv zeta. cbn [snd]. destruct (nonnil _); eexists; reflexivity. }
    destruct Ftg as (f & Ef).
    assert (Dg : distinct tg) by (rewrite Ef; apply distinct_filter; exact Dt).
    set (values := map m_value (if nonnil tg then tg else named (lit "title") ms)).
    assert (Erm : rm = filter (fun t => negb (existsb (mval_eqb (m_value t)) values)) (named (lit "title") ms)).
    { unfold values. unfold prefer_year in E. cbv zeta in E. injection E as <- <-. reflexivity. }
    assert (V : forall v, existsb (mval_eqb v) values = true <-> exists t, In t (if nonnil tg then tg else named (lit "title") ms) /\ m_value t = v).
    { intros v. rewrite existsb_exists. unfold values. split.
      - intros (x & Hx & Ex). apply in_map_iff in Hx as (t & <- & Ht). apply mval_eqb_eq in Ex. exists t; auto.
      - intros (t & Ht & <-). exists (m_value t). split; [apply in_map; exact Ht|apply mval_eqb_eq; reflexivity]. }
    set (keep := fun m => negb (mmem m rm)). set (tag := fun m => mmem m tg). exists keep, tag.
    assert (Ik : forall x, In x tg -> In x ms /\ keep x = true).
    { intros x Hx. assert (Hx' := Hx). rewrite Ef in Hx. apply filter_In in Hx as [Hx _]. apply named_In in Hx as [Hx Nx]. split; [exact Hx|].
      unfold keep. apply Bool.negb_true_iff, mmem_false. intros y Hyr Ek. rewrite Erm in Hyr. apply filter_In in Hyr as [_ Hyr].
      apply Bool.negb_true_iff in Hyr. rewrite <- Bool.not_true_iff_false, V in Hyr. apply Hyr. exists x.
      destruct tg as [|? ?]; [destruct Hx'|]. cbn [nonnil]. split; [exact Hx'|]. unfold mkey in Ek. congruence. }
    assert (Tg : forall m, In m ms -> (tag m = true <-> In m tg)).
    { intros m Hm. unfold tag. rewrite mmem_iff. split; [|eauto]. intros (x & Hx & Ex). replace m with x; [exact Hx|]. apply (distinct_inj ms); auto; [apply W|apply Ik; exact Hx]. }
    repeat apply conj.
    - rewrite remove_all_filter by apply W. fold keep. unfold append_tags.
      assert (Dk : distinct (filter keep ms)) by (apply distinct_filter; apply W).
      rewrite removed_all; [|exact Dk|exact Dg|intros x Hx; apply filter_In; apply Ik; exact Hx].
      rewrite remove_all_filter by exact Dk. rewrite filter_filter.
      assert (Etag : filter tag ms = tg).
      { rewrite Ef. rewrite Ef in Tg. clear -Tg W Ef. unfold named. rewrite filter_filter. apply filter_ext_In. intros x Hx.
        specialize (Tg x Hx). rewrite filter_In, named_In, has_name_iff in Tg || rewrite filter_In, named_In in Tg.
        destruct (tag x) eqn:Et.
        - destruct (proj1 Tg eq_refl) as [[_ A] B]. symmetry. apply Bool.andb_true_iff. split; [apply has_name_iff; exact A|exact B].
        - symmetry. apply Bool.not_true_iff_false. intros H. apply Bool.andb_true_iff in H as [A B]. apply has_name_iff in A.
          assert (false = true) by (apply Tg; auto). discriminate. }
      rewrite Etag. rewrite append_all_fresh.
      + reflexivity.
      + unfold distinct. rewrite map_app, map_map.
        assert (Em : map (fun x : mt => mkey (set_tags x (m_tags x ++ [lit "equivalent-ignore"]))) tg = map mkey tg) by (apply map_ext; intros x; reflexivity).
        rewrite Em. clear Em. apply NoDup_app_disj; [apply distinct_filter; apply W|exact Dg|].
        intros k H1 H2. apply in_map_iff in H1 as (x & <- & Hx). apply in_map_iff in H2 as (y & Ey & Hy'). apply filter_In in Hx as [Hx Hk].
        apply Bool.andb_true_iff in Hk as [_ Hk]. apply Bool.negb_true_iff in Hk.
        assert (mmem x tg = true) by (apply mmem_iff; exists y; auto). congruence.
    - intros m Hm. rewrite Tg by exact Hm. rewrite Etg. apply chosen_iff.
    - intros m Hm. unfold keep. rewrite Bool.negb_false_iff.
      assert (R : mmem m rm = true <-> In m rm).
      { rewrite mmem_iff. split; [|eauto]. intros (x & Hx & Ex). replace m with x; [exact Hx|]. apply (distinct_inj ms); auto; [apply W|].
        rewrite Erm in Hx. apply filter_In in Hx as [Hx _]. apply named_In in Hx. apply Hx. }
      rewrite R, Erm, filter_In, named_In, Bool.negb_true_iff, <- Bool.not_true_iff_false, V.
      assert (Pr : forall t, In t tg <-> preferred markers ms t) by (intros t; rewrite Etg; apply chosen_iff).
      destruct tg as [|t0 tg']; cbn [nonnil].
      + split; [intros [[H1 H2] H3]; exfalso; apply H3; exists m; split; [apply named_In; auto|reflexivity]|].
        intros (_ & (t & Ht) & _). apply Pr in Ht. destruct Ht.
      + split.
        * intros [[H1 H2] H3]. split; [exact H2|]. split; [exists t0; apply Pr; left; reflexivity|]. intros t Ht Ev. apply H3. exists t. split; [apply Pr; exact Ht|exact Ev].
        * intros (H1 & _ & H3). split; [auto|]. intros (t & Ht & Ev). apply (H3 t); [apply Pr; exact Ht|exact Ev].
  Qed.
End Prefer.
Print Assumptions C58_prefer.
(** non-vacuity: "Show/Film (2010)" *)
Example ex_prefer : let s := lit "Show/Film (2010)" in
  let markers := [mk "path" 0 4; mk "path" 5 16; mk "group" 10 16] in
  let ms := [mk "title" 0 4; set_value (mk "title" 5 10) (MvStr (lit "Film")); simple 11 15 (lit "year") (MvInt 2010) []] in
  PreferTitleWithYear s markers ms = [simple 11 15 (lit "year") (MvInt 2010) []; simple 5 10 (lit "title") (MvStr (lit "Film")) [lit "equivalent-ignore"]] /\
  store_ok s markers ms /\ paths_apart markers /\
  (forall t, In t ms -> m_name t = lit "title" -> exists p, In p markers /\ m_name p = lit "path" /\ m_start p <= m_start t < m_end p) /\
  (forall y z, In y ms -> In z ms -> m_name y = lit "year" -> m_name z = lit "year" -> overlapping y z -> y = z).
Proof.
  cbv zeta. split; [vm_compute; reflexivity|]. split; [|split; [|split]].
  - split; try (unfold inside, nonempty; cbn; intros m Hm; repeat (destruct Hm as [<-|Hm]; [cbn; lia|]); destruct Hm).
    + unfold distinct. cbn. repeat constructor; cbn; intuition discriminate.
    + unfold distinct. cbn. repeat constructor; cbn; intuition discriminate.
  - intros p q [<-|[<-|[<-|[]]]] [<-|[<-|[<-|[]]]] Np Nq (i & Hi & Hj); try discriminate; try reflexivity; cbn in Hi, Hj; lia.
  - intros t [<-|[<-|[<-|[]]]]; try discriminate; intros _; [exists (mk "path" 0 4)|exists (mk "path" 5 16)]; cbn; (split; [auto|split; [reflexivity|lia]]).
  - intros y z [<-|[<-|[<-|[]]]] [<-|[<-|[<-|[]]]]; try discriminate; reflexivity.
Qed.

(** ** C57: languages and countries at the ends of a title *)
(** another language (country), not "multiple languages" nor "undetermined", has a character in the part of the path outside of the zone *)
Definition another (ms : list mt) (part : mt) (zone : span) (m : mt) : Prop :=
  exists c j, In c ms /\ m_name c = m_name m /\ m_value c <> MvObj (lit "mul") /\ m_value c <> MvObj (lit "und") /\
    m_start c <= j < m_end c /\ m_start part <= j < m_end part /\ ~ (fst zone <= j < snd zone).
(** the zone has as many characters as the language, once cleaned up; or the part has no other language, and the language is short
    when it starts the zone *)
Definition stays (s : str) (ms : list mt) (part : mt) (zone : span) (start : bool) (m : mt) : Prop :=
  (m_name m = lit "language" \/ m_name m = lit "country") /\
  (List.length (title_text (slice (fst zone) (snd zone) s)) = List.length (slice (m_raw_start m) (m_raw_end m) s) \/
   ~ another ms part zone m /\ (start = true -> List.length (slice (m_raw_start m) (m_raw_end m) s) <= 3)).
Lemma non_specific_iff v : non_specific v = false <-> v <> MvObj (lit "mul") /\ v <> MvObj (lit "und").
Proof.
  unfold non_specific. rewrite Bool.orb_false_iff, <- !Bool.not_true_iff_false, !mval_eqb_eq. reflexivity.
Qed.
Lemma crop_one (zone part o : span) : fst part < snd part -> fst part <= fst zone -> In o (crop [zone] part) -> fst o < snd o \/ o = (fst part, fst part).
Proof.
  destruct zone as [gs ge], part as [cs ce]. unfold crop, crop_step, crop1. cbn [fold_left flat_map fst snd]. rewrite !app_nil_r. intros Hp Hz H.
  apply in_app_iff in H. destruct ((gs <? cs) && (ce <? ge)); [destruct H as [[]|[]]|].
  destruct ((cs <=? gs) && (ge <=? ce)) eqn:B1; [destruct (Nat.ltb_spec cs gs), (Nat.ltb_spec ge ce); cbn [olist fst snd In] in H; intuition (subst; cbn [fst snd]; auto)|].
  destruct ((ge <=? ce) && (cs <? ge)) eqn:B2; [exfalso; lia|].
  destruct ((cs <=? gs) && (gs <? ce)) eqn:B3; cbn [olist fst snd In] in H; destruct H as [[H|[]]|[]]; subst o; cbn [fst snd]; [|left; exact Hp].
  destruct (Nat.eq_dec cs gs) as [->|]; [right; reflexivity|left; lia].
Qed.
(** no match starts before the part and ends in it *)
Definition not_across (ms : list mt) (part : mt) : Prop := forall m, In m ms -> ~ (m_start m < m_start part < m_end m).
Lemma should_keep_iff s ms part zone start m : inside s ms -> nonempty ms -> m_start part < m_end part <= List.length s -> m_start part <= fst zone <= snd zone -> not_across ms part ->
  should_keep s ms [] part zone start m = true <-> stays s ms part zone start m.
Proof.
  intros Hi Hn Hp Hz' Hx. assert (Hz : fst zone <= snd zone) by lia. unfold should_keep, stays, hole_value, raw, m_raw.
  assert (N : smem (m_name m) [lit "language"; lit "country"] = true <-> (m_name m = lit "language" \/ m_name m = lit "country")).
  { rewrite smem_In. cbn [In]. intuition congruence. }
  destruct (smem (m_name m) [lit "language"; lit "country"]); [|split; [discriminate|intros [H _]; apply N in H; discriminate]].
  destruct (List.length (title_text (slice (fst zone) (snd zone) s)) =? List.length (slice (m_raw_start m) (m_raw_end m) s)) eqn:El.
  { apply Nat.eqb_eq in El. split; [intros _; split; [apply N; reflexivity|left; exact El]|reflexivity]. }
  apply Nat.eqb_neq in El. rewrite Bool.andb_true_iff.
  set (others := flat_map _ _).
  assert (O : negb (nonnil others) = true <-> ~ another ms part zone m).
  { rewrite Bool.negb_true_iff, <- Bool.not_true_iff_false. apply not_iff_compat. rewrite nonnil_iff.
    assert (X : (exists c, In c others) <-> another ms part zone m).
    { unfold another. split.
      - intros (c & H). apply in_flat_map in H as (o & Ho & Hc). apply range_In in Hc as (C1 & C2 & C3 & C4). rewrite max_end_inside in C2 by exact Hi.
        apply Bool.andb_true_iff in C4 as [C4 C5]. apply Bool.andb_true_iff in C4 as [C4 _]. apply has_name_iff in C4. apply Bool.negb_true_iff in C5.
        apply non_specific_iff in C5 as [C5 C6]. pose proof (Hn c C1) as Nc.
        assert (Lo : fst o < snd o).
        { destruct (crop_one zone (m_span part) o) as [L|L]; cbn [m_span fst snd]; auto; try lia. exfalso. apply (Hx c C1). rewrite L in *. cbn [m_span fst snd] in *. lia. }
        set (j := Nat.max (fst o) (m_start c)). assert (Io : insp j o) by (unfold insp, j; lia).
        destruct (proj1 (crop_cover [zone] (m_span part) j ltac:(intros x [<-|[]]; exact Hz)) (ex_intro _ o (conj Ho Io))) as [I1 I2].
        exists c, j. specialize (I2 zone (or_introl eq_refl)). unfold insp, m_span in *. cbn [fst snd] in *. repeat apply conj; auto; unfold j in *; lia.
      - intros (c & j & C1 & C2 & C3 & C4 & C5 & C6 & C7). exists c.
        destruct (proj2 (crop_cover [zone] (m_span part) j ltac:(intros x [<-|[]]; exact Hz))) as (o & Ho & Io).
        { split; [exact C6|]. intros x [<-|[]]. exact C7. }
        assert (Bo : snd o <= List.length s).
        { destruct (proj1 (crop_cover [zone] (m_span part) (snd o - 1) ltac:(intros x [<-|[]]; exact Hz))) as [I1 _]; [exists o; split; [exact Ho|unfold insp in *; lia]|].
          unfold insp, m_span in I1; cbn [fst snd] in I1. unfold insp in Io. lia. }
        apply in_flat_map. exists o. split; [exact Ho|]. apply range_In'; [exact Hi|exact Bo|]. unfold insp in Io. split; [exact C1|]. split; [lia|]. split; [lia|].
        apply has_name_iff in C2. rewrite C2. cbn [mmem existsb negb andb]. apply Bool.negb_true_iff. apply non_specific_iff. auto. }
    rewrite <- X. destruct others as [|x l]; split; try congruence; [intros (c & []) | intros _; exists x; left; reflexivity]. }
  rewrite O. assert (St : negb start || (List.length (slice (m_raw_start m) (m_raw_end m) s) <=? 3) = true <-> (start = true -> List.length (slice (m_raw_start m) (m_raw_end m) s) <= 3)).
  { destruct start; cbn [negb orb]; [rewrite Nat.leb_le; intuition|intuition discriminate]. }
  rewrite St. split.
  - intros [H1 H2]. split; [apply N; reflexivity|right; auto].
  - intros [_ [H|H]]; [contradiction|exact H].
Qed.
(** In a zone where a title is found and with a single match [m] that may be a word, [m] is dropped unless it ends or starts the zone and [stays] *)
Theorem C57_word : forall s context markers ms part zone titles rm m, store_ok s markers ms -> In part markers -> m_start part < m_end part -> not_across ms part ->
  m_start part <= fst zone <= snd zone -> snd zone <= List.length s ->
  hole_titles title_from_position s context ms part zone = Ok (Some (titles, rm)) ->
  In m ms -> (forall x, In x ms -> maybe_word s x -> m_start x < snd zone -> fst zone < m_end x -> x = m) ->
  maybe_word s m -> m_start m < snd zone -> fst zone < m_end m -> m_name m <> lit "episode_details" ->
  let ends := exists k, m_start m <= k < m_end m /\ k < snd zone /\ forall l, k < l < snd zone -> exists c, nth_error s l = Some c /\ is_sep c = true in
  let starts := exists k, m_start m <= k < m_end m /\ fst zone <= k /\ forall l, fst zone <= l < k -> exists c, nth_error s l = Some c /\ is_sep c = true in
  (In m rm <-> ~ (ends /\ stays s ms part zone false m \/ starts /\ stays s ms part zone true m)) /\ forall x, In x rm -> x = m.
Proof.
  intros s context markers ms part zone titles rm m W Hp Hpn Hx Hz Hzl H Hm Hu Hw H1 H2 Nd ends starts. unfold hole_titles in H.
  destruct (_ || _) in H; [discriminate|]. set (ignored := range s ms (fst zone) (snd zone) (is_ignored s)) in H.
  assert (Hig : forall x, In x ignored <-> x = m).
  { intros x. unfold ignored. rewrite range_In' by (try apply W; lia). rewrite is_ignored_iff. split.
    - intros (X1 & X2 & X3 & X4). apply Hu; auto.
    - intros ->. auto. }
  assert (Ei : ignored = [m]).
  { assert (D : NoDup ignored) by (unfold ignored, range; apply NoDup_filter, NoDup_filter, (distinct_NoDup _ (distinct_msorted _ (so_distinct _ _ _ W)))).
    destruct ignored as [|x [|y l]].
    - exfalso. apply (proj2 (Hig m) eq_refl).
    - rewrite (proj1 (Hig x) (or_introl eq_refl)). reflexivity.
    - exfalso. pose proof (proj1 (Hig x) (or_introl eq_refl)). pose proof (proj1 (Hig y) (or_intror (or_introl eq_refl))). subst x y.
      inversion D as [|? ? Hy _]. apply Hy. left; reflexivity. }
  rewrite Ei in H. unfold trim in H. cbn [rev app fold_left] in H.
  assert (Sep : forall l, sep_at s l = true <-> exists c, nth_error s l = Some c /\ is_sep c = true).
  { intros l. unfold sep_at. destruct (nth_error s l) as [c|]; split; try discriminate; eauto; [intros (d & E & Ed); congruence|intros (d & E & _); discriminate]. }
  assert (B : nonnil (chain_before s ms (snd zone) (mt_eqb m)) = true <-> ends).
  { rewrite chain_before_iff by (try apply W; auto; lia). unfold ends. split; intros (k & K1 & K2 & K3); exists k; (split; [lia|]; split; [lia|]); intros l Hl; apply Sep; apply K3; exact Hl. }
  assert (A : nonnil (chain_after s ms (fst zone) (mt_eqb m)) = true <-> starts).
  { rewrite chain_after_iff by (try apply W; auto). unfold starts. split; intros (k & K1 & K2 & K3); exists k; (split; [lia|]; split; [lia|]); intros l Hl; apply Sep; apply K3; exact Hl. }
  pose proof (should_keep_iff s ms part zone false m (so_inside _ _ _ W) (so_nonempty _ _ _ W) (conj Hpn (proj2 (so_markers _ _ _ W part Hp))) Hz Hx) as K1.
  pose proof (should_keep_iff s ms part zone true m (so_inside _ _ _ W) (so_nonempty _ _ _ W) (conj Hpn (proj2 (so_markers _ _ _ W part Hp))) Hz Hx) as K2.
  assert (Rm : forall h, tr_should_remove title_from_position context h m = true).
  { intros h. cbn. unfold base_should_remove. destruct (has_name (lit "episode_details") m) eqn:E; [apply has_name_iff in E; contradiction|]. rewrite Bool.andb_false_r. reflexivity. }
  unfold trail_step in H. destruct (nonnil (chain_before s ms (snd zone) (mt_eqb m)) && should_keep s ms [] part zone false m) eqn:E1.
  - apply Bool.andb_true_iff in E1 as [E1 E2]. unfold lead_step in H. cbn [app] in H. rewrite (mmem_In m [m]) in H by (left; reflexivity).
    destruct (_ <? _) in H; [discriminate|]. destruct (_ && _) in H; [|discriminate]. injection H as _ <-. cbn [filter]. rewrite Rm.
    unfold remove_all; cbn [fold_left remove1]. rewrite mt_eqb_refl. split; [|intros x []]. split; [intros []|]. intros N. exfalso. apply N. left. split; [apply B; exact E1|apply K1; exact E2].
  - unfold lead_step in H. cbn [mmem existsb] in H.
    assert (N1 : ~ (ends /\ stays s ms part zone false m)).
    { intros [X Y]. apply B in X. apply K1 in Y. rewrite X, Y in E1. discriminate. }
    destruct (nonnil (chain_after s ms (fst zone) (mt_eqb m)) && should_keep s ms [] part zone true m) eqn:E2.
    + apply Bool.andb_true_iff in E2 as [E2 E3]. cbn [app] in H.
      destruct (_ <? _) in H; [discriminate|]. destruct (_ && _) in H; [|discriminate]. injection H as _ <-. cbn [filter]. rewrite Rm.
      unfold remove_all; cbn [fold_left remove1]. rewrite mt_eqb_refl. split; [|intros x []]. split; [intros []|]. intros N. exfalso. apply N. right. split; [apply A; exact E2|apply K2; exact E3].
    + destruct (_ <? _) in H; [discriminate|]. destruct (_ && _) in H; [|discriminate]. injection H as _ <-. cbn [filter]. rewrite Rm. cbn [remove_all fold_left].
      split; [|intros x [<-|[]]; reflexivity]. split; [|intros _; left; reflexivity]. intros _ [X|[X Y]]; [exact (N1 X)|]. apply A in X. apply K2 in Y. rewrite X, Y in E2. discriminate.
Qed.
Print Assumptions C57_word.
(** non-vacuity: in "Movie.fr.2010.mkv" the language stays; in "fr movie 2010" too, but not in "french movie 2010" *)
Example ex_word : let l a b := simple a b (lit "language") (MvObj (lit "fr")) [] in let y a := simple a (a + 4) (lit "year") (MvInt 2010) [] in
  TitleFromPosition (lit "Movie.fr.2010.mkv") [] [mk "path" 0 17] [l 6 8; y 9] = Ok [l 6 8; y 9; simple 0 6 (lit "title") (MvStr (lit "Movie")) [lit "title"]] /\
  TitleFromPosition (lit "fr movie 2010") [] [mk "path" 0 13] [l 0 2; y 9] = Ok [l 0 2; y 9; simple 2 9 (lit "title") (MvStr (lit "movie")) [lit "title"]] /\
  TitleFromPosition (lit "french movie 2010") [] [mk "path" 0 17] [l 0 6; y 13] = Ok [y 13; simple 0 13 (lit "title") (MvStr (lit "french movie")) [lit "title"]].
Proof. vm_compute. auto. Qed.
