(** Properties of guessit/rules/properties/title.py (C49, C57) *)
From Verif Require Import Py PyFacts Text TextFacts Sort Formatters Rebulk RebulkFacts RuleSpec Processors ProcessorsProofs Title TitleProofs.
From Coq Require Import Arith ZifyBool Sorted Permutation.

(** ** C49: which bracket groups cut a title *)
(** the bracket group covers a whole part of the path *)
Definition fills (markers : list mt) (g : mt) : Prop :=
  exists p, In p markers /\ m_name p = lit "path" /\ m_start p = m_start g /\ m_end p = m_end g.
Definition paths_apart (markers : list mt) : Prop :=
  forall p q, In p markers -> In q markers -> m_name p = lit "path" -> m_name q = lit "path" -> overlapping p q -> p = q.

Lemma whole_part_fills markers g : whole_part markers g = true -> fills markers g.
Proof.
  unfold whole_part. destruct (first _) as [p|] eqn:E; [|discriminate]. intros H. apply hd_error_In in E. apply filter_In in E as [E N].
  apply has_name_iff in N. exists p. unfold at_match, at_span in E. apply merge_new_sub in E as [E|E].
  - apply filter_In in E as [E _]. repeat split; auto; lia.
  - destruct (m_end g) eqn:Eg; [destruct E|]. apply filter_In in E as [E _]. repeat split; auto; lia.
Qed.
Lemma merge_new_app a b : exists c, merge_new a b = a ++ c.
Proof.
  unfold merge_new. revert a. induction b as [|m b IH]; intros a; cbn [fold_left]; [exists []; rewrite app_nil_r; reflexivity|].
  destruct (mmem m a); [apply IH|]. destruct (IH (a ++ [m])) as (c & ->). exists (m :: c). rewrite <- app_assoc. reflexivity.
Qed.
Lemma fills_whole_part markers g : paths_apart markers -> m_start g < m_end g -> fills markers g -> whole_part markers g = true.
Proof.
  intros Ha Hg (p & Hp & N & E1 & E2). unfold whole_part, at_match, at_span.
  set (rest := match m_end g with O => [] | S b' => at_index b' markers end). destruct (merge_new_app (at_index (m_start g) markers) rest) as (c & ->).
  rewrite filter_app. assert (Hin : In p (filter (has_name (lit "path")) (at_index (m_start g) markers))).
  { apply filter_In. split; [|apply has_name_iff; exact N]. apply filter_In. split; [exact Hp|unfold covers; lia]. }
  destruct (filter (has_name (lit "path")) (at_index (m_start g) markers)) as [|q l] eqn:E; [destruct Hin|]. cbn [app first hd_error].
  assert (Hq : In q (filter (has_name (lit "path")) (at_index (m_start g) markers))) by (rewrite E; left; reflexivity).
  apply filter_In in Hq as [Hq Nq]. apply has_name_iff in Nq. apply filter_In in Hq as [Hq Cq]. unfold covers in Cq.
  assert (q = p) as -> by (apply Ha; auto; exists (m_start g); lia). unfold m_truthy. lia.
Qed.

(** the groups that cut the holes: every group but those filling a path part, as long as no two of these follow each other *)
Theorem C49_groups : forall markers, paths_apart markers -> (forall g, In g markers -> m_start g < m_end g) ->
  (forall l a b r, named (lit "group") markers = l ++ a :: b :: r -> ~ (fills markers a /\ fills markers b)) ->
  exists keep, crop_groups markers = map (fun g => (m_start g, m_end g)) (filter keep (named (lit "group") markers)) /\
  forall g, In g markers -> m_name g = lit "group" -> (keep g = false <-> fills markers g).
Proof.
  intros markers Ha Hg Hc. exists (fun g => negb (whole_part markers g)). split.
  - unfold crop_groups. change (fun g => (m_start g, m_end g)) with m_span. f_equal.
    assert (W : forall g, In g (named (lit "group") markers) -> whole_part markers g = true <-> fills markers g).
    { intros g H. apply named_In in H as [H _]. split; [apply whole_part_fills|apply fills_whole_part; auto]. }
    revert Hc W. generalize (named (lit "group") markers). intros l.
    enough (G : forall n l, List.length l <= n -> (forall u a b r, l = u ++ a :: b :: r -> ~ (fills markers a /\ fills markers b)) ->
      (forall g, In g l -> whole_part markers g = true <-> fills markers g) -> kept_groups markers l = filter (fun g => negb (whole_part markers g)) l)
      by (apply (G (List.length l) l (le_n _))).
    clear l. induction n as [|n IH]; intros [|x l] Hn Hc W; cbn [kept_groups filter List.length] in *; try reflexivity; [lia|].
    destruct (whole_part markers x) eqn:E; cbn [negb].
    + destruct l as [|h l]; [reflexivity|]. cbn [filter].
      assert (N : whole_part markers h = false).
      { destruct (whole_part markers h) eqn:Eh; [|reflexivity]. exfalso. apply (Hc [] x h l eq_refl). split; apply W; cbn; auto. }
      rewrite N. cbn [negb]. f_equal. apply IH; [cbn in Hn; lia| |].
      * intros u a b r El. apply (Hc (x :: h :: u) a b r). rewrite El. reflexivity.
      * intros g H. apply W. right; right; exact H.
    + f_equal. apply IH; [lia| |].
      * intros u a b r El. apply (Hc (x :: u) a b r). rewrite El. reflexivity.
      * intros g H. apply W. right; exact H.
  - intros g H N. rewrite Bool.negb_false_iff. split; [apply whole_part_fills|apply fills_whole_part; auto].
Qed.
Print Assumptions C49_groups.
Definition mk (n : string) (a b : nat) : mt := simple a b (lit n) (MvStr []) [].
(** non-vacuity: "[a]/b (c)" *)
Example ex_groups : let markers := [mk "path" 0 3; mk "path" 4 9; mk "group" 0 3; mk "group" 6 9] in
  crop_groups markers = [(6, 9)] /\ fills markers (mk "group" 0 3) /\
  forall l a b r, named (lit "group") markers = l ++ a :: b :: r -> ~ (fills markers a /\ fills markers b).
Proof.
  cbv zeta. split; [reflexivity|]. split; [exists (mk "path" 0 3); cbn; auto|].
  intros l a b r E. destruct l as [|? [|? [|? ?]]]; cbn in E; try discriminate. injection E as <- <- <-.
  intros [_ (p & [<-|[<-|[<-|[<-|[]]]]] & N & E1 & E2)]; discriminate.
Qed.
(** limit: the second of two groups filling their path part is used ("[a]/[b]"), though it is one of the groups to leave out *)
Theorem C49_limit : exists markers g, paths_apart markers /\ In g markers /\ m_name g = lit "group" /\ fills markers g /\ In (m_start g, m_end g) (crop_groups markers).
Proof.
  exists [mk "path" 0 3; mk "path" 4 7; mk "group" 0 3; mk "group" 4 7], (mk "group" 4 7). split; [|split; [cbn; auto|split; [reflexivity|split; [exists (mk "path" 4 7); cbn; auto|left; reflexivity]]]].
  intros p q [<-|[<-|[<-|[<-|[]]]]] [<-|[<-|[<-|[<-|[]]]]] Np Nq (i & Hi & Hj); try discriminate; try reflexivity; cbn in Hi, Hj; lia.
Qed.
Print Assumptions C49_limit.
(** whatever the markers, a group that does not fill a path part always cuts, and nothing else than groups does *)
Theorem C49_always : forall markers g, In g markers -> m_name g = lit "group" -> ~ fills markers g -> In (m_start g, m_end g) (crop_groups markers).
Proof.
  intros markers g H N F. apply (crop_groups_all markers g H N). destruct (whole_part markers g) eqn:E; [|reflexivity].
  exfalso. apply F. apply whole_part_fills. exact E.
Qed.
Print Assumptions C49_always.

(** ** C57: titles *)
(** a text in capitals *)
Definition shouting (t : str) : Prop := (exists c, In c t /\ is_upper c = true) /\ forall c, In c t -> is_lower c = false.
(** a language, a country or an episode detail, which may turn out to be a word of the title; not when it is a long word in capitals *)
Definition maybe_word (s : str) (m : mt) : Prop :=
  (m_name m = lit "language" \/ m_name m = lit "country" \/ m_name m = lit "episode_details") /\
  ~ (3 < m_end m - m_start m /\ shouting (slice (m_raw_start m) (m_raw_end m) s)).
Lemma isupper_iff t : isupper t = true <-> shouting t.
Proof.
  unfold isupper, shouting. rewrite Bool.andb_true_iff, Bool.negb_true_iff, existsb_exists. apply and_iff_compat_l. split.
  - intros H c Hc. destruct (is_lower c) eqn:E; [|reflexivity]. enough (existsb is_lower t = true) by congruence. apply existsb_exists; exists c; auto.
  - intros H. destruct (existsb is_lower t) eqn:E; [|reflexivity]. apply existsb_exists in E as (c & Hc & E). rewrite (H c Hc) in E. discriminate.
Qed.
Lemma is_ignored_iff s m : is_ignored s m = true <-> maybe_word s m.
Proof.
  unfold is_ignored, maybe_word. rewrite Bool.andb_true_iff, Bool.negb_true_iff. unfold m_raw.
  assert (N : smem (m_name m) ignored_names = true <-> (m_name m = lit "language" \/ m_name m = lit "country" \/ m_name m = lit "episode_details")).
  { unfold ignored_names. rewrite smem_In. cbn [In]. intuition congruence. }
  rewrite N, and_comm. apply and_iff_compat_l. rewrite <- Bool.not_true_iff_false, Bool.andb_true_iff, isupper_iff, Nat.ltb_lt. reflexivity.
Qed.
(** a directory whose name is a season and nothing else *)
Definition season_folder (ms : list mt) (part : mt) : Prop :=
  exists m, In m ms /\ m_name m = lit "season" /\ m_private m = false /\ overlapping part m /\
    (m_start m = m_start part /\ m_end m = m_end part \/
     exists p, m_parent m = Some p /\ p_start p = m_start part /\ p_end p = m_end part) /\
    forall x, In x ms -> m_private x = false -> overlapping part x -> x = m.
Definition weak_tag (m : mt) : Prop := exists t, In t (m_tags m) /\ (t = lit "weak" \/ exists u, t = lit "weak-" ++ u).
Lemma weak_iff m : weak m = true <-> weak_tag m.
Proof.
  unfold weak, weak_tag. rewrite existsb_exists. split; intros (t & Ht & H); exists t; (split; [exact Ht|]).
  - apply Bool.orb_true_iff in H as [H|H]; [left; apply str_eqb_eq; exact H|right]. apply startswith_app in H. exact H.
  - apply Bool.orb_true_iff. destruct H as [->|(u & ->)]; [left; apply str_eqb_refl|right]. apply startswith_app. exists u; reflexivity.
Qed.
(** the option type is "episode" *)
Definition episode_type (context : dict) : Prop := dget context (KS (lit "type")) = Some (VStr (lit "episode")).

Section When.
  Variables (r : title_rule) (s : str) (context : dict) (markers ms : list mt).
  Notation parts := (filter (tr_part_filter r ms) (marker_sorted s ms comparator_predicate (named (lit "path") markers))).
  Notation check := (check_titles r s context markers ms).
  Lemma main_part_spec : forall ps years years' o, main_part r s context markers ms ps years = Ok (years', o) ->
    (forall y, In y years' -> In y years) /\
    match o with
    | Some x => exists l1 p l2, ps = l1 ++ p :: l2 /\ (forall q, In q l1 -> check never q = Ok None) /\ check never p = Ok (Some x) /\
                forall y, In y years -> In y years' \/ exists q, In q (l1 ++ [p]) /\ mkey q = mkey y
    | None => forall q, In q ps -> check never q = Ok None
    end.
  Proof.
    induction ps as [|p ps IH]; intros years years' o; cbn [main_part].
    - intros E; injection E as <- <-. split; [auto|intros q []].
    - destruct (check never p) as [[x|]|e] eqn:Ec; cbn [bind]; try discriminate.
      + intros E; injection E as <- <-.
        assert (R : forall y, In y years -> In y (remove1 p years) \/ mkey p = mkey y).
        { clear. induction years as [|z l IH]; cbn [remove1]; [intros y []|]. intros y [->|Hy].
          - destruct (mt_eqb p y) eqn:E; [right; apply mt_eqb_eq; exact E|left; left; reflexivity].
          - destruct (mt_eqb p z); [left; exact Hy|]. destruct (IH y Hy); [left; right; assumption|right; assumption]. }
        split.
        * clear. intros y. induction years as [|z l IH]; cbn [remove1]; [auto|]. destruct (mt_eqb p z); [right; assumption|]. intros [->|H]; [left; reflexivity|right; auto].
        * exists [], p, ps. repeat split; auto; [intros q []|]. intros y Hy. destruct (R y Hy) as [H|H]; [left; exact H|right]. exists p. split; [left; reflexivity|exact H].
      + intros E. apply IH in E as [E1 E2].
        assert (R : forall y, In y (remove1 p years) -> In y years).
        { clear. intros y. induction years as [|z l IH]; cbn [remove1]; [auto|]. destruct (mt_eqb p z); [right; assumption|]. intros [->|H]; [left; reflexivity|right; auto]. }
        assert (R' : forall y, In y years -> In y (remove1 p years) \/ mkey p = mkey y).
        { clear. induction years as [|z l IH]; cbn [remove1]; [intros y []|]. intros y [->|Hy].
          - destruct (mt_eqb p y) eqn:E; [right; apply mt_eqb_eq; exact E|left; left; reflexivity].
          - destruct (mt_eqb p z); [left; exact Hy|]. destruct (IH y Hy); [left; right; assumption|right; assumption]. }
        split; [auto|]. destruct o as [x|].
        * destruct E2 as (l1 & q & l2 & -> & H1 & H2 & H3). exists (p :: l1), q, l2. repeat split; auto.
          -- intros z [<-|Hz]; auto.
          -- intros y Hy. destruct (R' y Hy) as [H|H].
             ++ destruct (H3 y H) as [H4|(z & Hz & Ez)]; [left; exact H4|right; exists z; split; [right; exact Hz|exact Ez]].
             ++ right. exists p. split; [left; reflexivity|exact H].
        * intros q [<-|Hq]; auto.
  Qed.
  (** what the rule appends and removes: the titles of a serie folder, of the first file part that has any, of the
      file parts with a year *)
  Inductive found : (mt -> bool) -> mt -> list mt -> list mt -> Prop :=
  | F_serie l p q l2 titles rm : parts = l ++ p :: q :: l2 -> l <> [] -> season_only s ms p = true -> m_truthy q = true ->
      check weak q = Ok (Some (titles, rm)) -> List.length titles = 1 -> found weak q titles rm
  | F_main l1 p l2 titles rm : parts = l1 ++ p :: l2 -> (forall q, In q l1 -> check never q = Ok None) ->
      check never p = Ok (Some (titles, rm)) -> found never p titles rm
  | F_year p titles rm : In p parts -> with_year s ms p = true -> check never p = Ok (Some (titles, rm)) -> found never p titles rm.
  Definition renamed (t t' : mt) : Prop := t' = t \/ t' = set_name t (lit "episode_title").
  Lemma serie_part_spec ps p : serie_part s ms ps = Some p -> exists l q l2, ps = l ++ q :: p :: l2 /\ l <> [] /\ season_only s ms q = true.
  Proof.
    unfold serie_part. destruct ps as [|x ps]; [discriminate|].
    enough (G : forall ps, serie_part_from s ms ps = Some p -> exists l q l2, ps = l ++ q :: p :: l2 /\ season_only s ms q = true).
    { intros H. destruct (G ps H) as (l & q & l2 & -> & Hs). exists (x :: l), q, l2. repeat split; auto. discriminate. }
    clear. induction ps as [|y ps IH]; [discriminate|]. cbn [serie_part_from]. destruct ps as [|z ps]; [discriminate|].
    destruct (season_only s ms y) eqn:E.
    - intros H; injection H as ->. exists [], y, ps. auto.
    - intros H. destruct (IH H) as (l & q & l2 & -> & Hs). exists (y :: l), q, l2. auto.
  Qed.
  Record when_spec (app rm : list mt) : Prop := {
    ws_app : forall t, In t app -> exists extra p titles rm' t0, found extra p titles rm' /\ In t0 titles /\ (t = t0 \/ t = set_name t0 (lit "episode_title") /\ exists q ts rm2, found weak q ts rm2) /\ forall m, In m rm' -> In m rm;
    ws_rm : forall m, In m rm -> exists extra p titles rm', found extra p titles rm' /\ In m rm' /\ forall t0, In t0 titles -> exists t, In t app /\ renamed t0 t;
    ws_first : (forall q, In q parts -> check never q = Ok None) \/
      exists extra p titles rm', found extra p titles rm' /\ forall t0, hd_error titles = Some t0 -> In t0 app;
    ws_year : distinct parts -> forall p, In p parts -> with_year s ms p = true -> check never p = Ok None \/
      exists titles rm', check never p = Ok (Some (titles, rm')) /\ forall t0, In t0 titles -> exists t, In t app /\ renamed t0 t
  }.
  Lemma title_when_spec app rm : title_when r s context markers ms = Ok (app, rm) ->
    (exists m, In m ms /\ m_name m = tr_name r /\ In (lit "expected") (m_tags m)) /\ app = [] /\ rm = [] \/
    (forall m, In m ms -> m_name m = tr_name r -> ~ In (lit "expected") (m_tags m)) /\ when_spec app rm.
  Proof.
    unfold title_when. destruct (existsb (has_tag (lit "expected")) (named (tr_name r) ms)) eqn:Ex.
    { intros E; injection E as <- <-. left. split; [|auto]. apply existsb_exists in Ex as (m & Hm & Ht). apply named_In in Hm as [Hm Nm].
      apply has_tag_iff in Ht. exists m; auto. }
    intros H. right. split.
    { intros m Hm Nm Ht. enough (existsb (has_tag (lit "expected")) (named (tr_name r) ms) = true) by congruence.
      apply existsb_exists. exists m. split; [apply named_In; auto|apply has_tag_iff; exact Ht]. }
    destruct (serie_titles r s context markers ms (serie_part s ms parts)) as [serie|] eqn:Es; cbn [bind] in H; [|discriminate].
    destruct (main_part r s context markers ms parts (filter (with_year s ms) parts)) as [[years main]|] eqn:Em; cbn [bind] in H; [|discriminate].
    destruct (mapM (check never) years) as [others|] eqn:Eo; cbn [bind] in H; [|discriminate]. injection H as <- <-.
    set (sm := match serie with Some (t, _) => Some t | None => None end).
    assert (Hserie : forall t rm0, serie = Some (t, rm0) -> exists q, found weak q [t] rm0).
    { intros t rm0 ->. unfold serie_titles in Es. destruct (serie_part s ms parts) as [q|] eqn:Eq; [|discriminate].
      destruct (m_truthy q) eqn:Tq; [|discriminate]. destruct (check weak q) as [o|] eqn:Ec; cbn [bind] in Es; [|discriminate].
      destruct o as [[[|t' [|? ?]] rm']|]; try discriminate. injection Es as <- <-.
      apply serie_part_spec in Eq as (l & q0 & l2 & El & Hl & Hs). exists q. eapply F_serie; eauto. }
    apply main_part_spec in Em as [Hy Hmain]. apply mapM_Ok in Eo.
    assert (Hy' : forall p, In p years -> In p parts /\ with_year s ms p = true).
    { intros p Hp. apply Hy in Hp. apply filter_In in Hp. exact Hp. }
    assert (Hmainf : forall x, main = Some x -> exists p, found never p (fst x) (snd x)).
    { intros [ts rm1] ->. destruct Hmain as (l1 & p & l2 & E & H1 & H2 & _). exists p. eapply F_main; eauto. }
    assert (Hoth : forall o, In o others -> forall x, o = Some x -> exists p, found never p (fst x) (snd x)).
    { intros o Ho [ts rm1] ->. destruct (Forall2_In_r _ _ _ _ Eo Ho) as (p & Hp & E). exists p. apply F_year; [apply Hy'|apply Hy'|]; assumption. }
    assert (Rn : forall t, renamed t (rename_title sm t)).
    { intros t. unfold rename_title, renamed. destruct sm as [x|]; [|auto]. destruct (_ && _); auto. }
    assert (Rn2 : forall t, rename_title sm t = t \/ rename_title sm t = set_name t (lit "episode_title") /\ exists q ts rm2, found weak q ts rm2).
    { intros t. unfold rename_title, sm. destruct serie as [[t' rm0]|]; [|auto]. destruct (Hserie t' rm0 eq_refl) as (q & F). destruct (_ && _); [right; split; [reflexivity|eauto]|auto]. }
    split.
    - intros t Ht. rewrite !in_app_iff in Ht. destruct Ht as [Ht|[Ht|Ht]].
      + apply olist_In in Ht. unfold sm in Ht. destruct serie as [[t' rm0]|]; [|discriminate]. injection Ht as ->.
        destruct (Hserie t rm0 eq_refl) as (q & F). exists weak, q, [t], rm0, t. split; [exact F|]. split; [left; reflexivity|]. split; [left; reflexivity|].
        intros m Hm. apply in_app_iff; left; exact Hm.
      + apply in_map_iff in Ht as (t0 & <- & Ht). destruct main as [[ts rm1]|]; [|destruct Ht]. destruct (Hmainf _ eq_refl) as (p & F).
        exists never, p, ts, rm1, t0. split; [exact F|]. split; [exact Ht|]. split; [apply Rn2|]. intros m Hm. rewrite !in_app_iff; right; left; exact Hm.
      + apply in_flat_map in Ht as (o & Ho & Ht). destruct o as [[ts rm1]|]; [|destruct Ht]. destruct (Hoth _ Ho _ eq_refl) as (p & F).
        exists never, p, ts, rm1, t. split; [exact F|]. split; [exact Ht|]. split; [left; reflexivity|]. intros m Hm. rewrite !in_app_iff; right; right.
        apply in_flat_map. eexists. split; [exact Ho|exact Hm].
    - intros m Hm. rewrite !in_app_iff in Hm. destruct Hm as [Hm|[Hm|Hm]].
      + destruct serie as [[t' rm0]|]; [|destruct Hm]. destruct (Hserie t' rm0 eq_refl) as (q & F). exists weak, q, [t'], rm0. split; [exact F|]. split; [exact Hm|].
        intros t0 [<-|[]]. exists t'. split; [|left; reflexivity]. rewrite !in_app_iff. left. apply olist_In. reflexivity.
      + destruct main as [[ts rm1]|]; [|destruct Hm]. destruct (Hmainf _ eq_refl) as (p & F). exists never, p, ts, rm1. split; [exact F|]. split; [exact Hm|].
        intros t0 Ht. exists (rename_title sm t0). split; [|apply Rn]. rewrite !in_app_iff. right; left. apply in_map; exact Ht.
      + apply in_flat_map in Hm as (o & Ho & Hm). destruct o as [[ts rm1]|]; [|destruct Hm]. destruct (Hoth _ Ho _ eq_refl) as (p & F).
        exists never, p, ts, rm1. split; [exact F|]. split; [exact Hm|]. intros t0 Ht. exists t0. split; [|left; reflexivity]. rewrite !in_app_iff. right; right.
        apply in_flat_map. eexists. split; [exact Ho|exact Ht].
    - destruct main as [[ts rm1]|]; [right|left; exact Hmain]. destruct serie as [[t' rm0]|].
      + destruct (Hserie t' rm0 eq_refl) as (q & F). exists weak, q, [t'], rm0. split; [exact F|]. intros t0 E; injection E as <-. apply in_app_iff. left. apply olist_In. reflexivity.
      + destruct (Hmainf _ eq_refl) as (p & F). exists never, p, ts, rm1. split; [exact F|]. intros t0 E. rewrite !in_app_iff. right; left.
        unfold sm. cbn [titles_of fst]. change t0 with (rename_title None t0). apply in_map. apply hd_error_In; exact E.
    - intros Dp p Hp Wp. destruct main as [[ts rm1]|]; [|left; apply Hmain; exact Hp].
      destruct Hmain as (l1 & p1 & l2 & El & H1 & H2 & H3). destruct (H3 p) as [H|(q & Hq & Ek)]; [apply filter_In; auto| |].
      + destruct (Forall2_In_l _ _ _ _ Eo H) as (o & Ho & E). destruct o as [[ts' rm']|]; [right|left; exact E]. exists ts', rm'. split; [exact E|].
        intros t0 Ht. exists t0. split; [|left; reflexivity]. rewrite !in_app_iff. right; right. apply in_flat_map. eexists. split; [exact Ho|exact Ht].
      + assert (q = p).
        { apply (distinct_inj parts); auto. rewrite El. apply in_app_iff in Hq as [Hq|[<-|[]]]; apply in_app_iff; [left; exact Hq|right; left; reflexivity]. }
        subst q. apply in_app_iff in Hq as [Hq|[<-|[]]]; [left; apply H1; exact Hq|right]. exists ts, rm1. split; [exact H2|].
        intros t0 Ht. exists (rename_title sm t0). split; [|apply Rn]. rewrite !in_app_iff. right; left. apply in_map; exact Ht.
  Qed.
End When.

(** the matches and markers the rules work on *)
Record store_ok (s : str) (markers ms : list mt) : Prop := {
  so_distinct : distinct ms;
  so_inside : inside s ms;
  so_nonempty : nonempty ms;
  so_markers : inside s markers;
  so_marker_distinct : distinct markers
}.
Lemma so_ends s markers ms : store_ok s markers ms -> ends_ok markers.
Proof. intros H g Hg. apply (so_markers _ _ _ H g Hg). Qed.

Lemma season_only_spec s markers ms p : store_ok s markers ms -> In p markers -> season_only s ms p = true -> season_folder ms p.
Proof.
  intros W Hp. unfold season_only. destruct (filter (fun m => negb (m_private m)) _) as [|m [|? ?]] eqn:E; try discriminate.
  intros H. destruct (so_markers _ _ _ W p Hp) as [Hp1 Hp2].
  assert (R : forall x, In x [m] <-> In x ms /\ m_start x < m_end p /\ m_start p < m_end x /\ m_private x = false).
  { intros x. rewrite <- E, filter_In, range_In' by (try exact Hp2; apply W). rewrite Bool.negb_true_iff. tauto. }
  destruct (proj1 (R m) (or_introl eq_refl)) as (M1 & M2 & M3 & M4). pose proof (so_nonempty _ _ _ W m M1) as M5.
  apply Bool.andb_true_iff in H as [Nm H]. apply has_name_iff in Nm. apply Bool.orb_true_iff in H.
  assert (Hne : m_start p < m_end p).
  { destruct H as [H|H]; [lia|]. destruct (m_parent m); [lia|discriminate]. }
  assert (Ov : forall x, In x ms -> m_private x = false -> (overlapping p x <-> In x [m])).
  { intros x Hx Px. rewrite R. pose proof (so_nonempty _ _ _ W x Hx). split.
    - intros (i & Hi & Hj). repeat split; auto; lia.
    - intros (_ & H1 & H2 & _). exists (Nat.max (m_start p) (m_start x)). lia. }
  exists m. repeat apply conj; auto.
  - apply Ov; auto. left; reflexivity.
  - destruct H as [H|H]; [left; lia|right]. destruct (m_parent m) as [q|]; [|discriminate]. exists q. repeat split; auto; lia.
  - intros x Hx Px Ho. apply Ov in Ho; auto. destruct Ho as [<-|[]]; reflexivity.
Qed.
Lemma parts_markers r s ms markers p : In p (filter (tr_part_filter r ms) (marker_sorted s ms comparator_predicate (named (lit "path") markers))) ->
  In p markers /\ m_name p = lit "path".
Proof.
  intros H. apply filter_In in H as [H _]. unfold marker_sorted in H. apply (Permutation_in p (isort_perm _ _)) in H. apply named_In in H. exact H.
Qed.
Lemma found_part r s context markers ms extra p titles rm : found r s context markers ms extra p titles rm ->
  (In p markers /\ m_name p = lit "path") /\ check_titles r s context markers ms extra p = Ok (Some (titles, rm)) /\
  (extra = never \/ extra = weak /\ exists q, In q markers /\ m_name q = lit "path" /\ season_only s ms q = true).
Proof.
  intros [l q p' l2 ts rm' E Hl Hs Ht Hc Hlen|l1 p' l2 ts rm' E H1 Hc|p' ts rm' Hin Hy Hc].
  - split; [apply (parts_markers r s ms); rewrite E; apply in_app_iff; right; right; left; reflexivity|]. split; [exact Hc|]. right. split; [reflexivity|].
    exists q. destruct (parts_markers r s ms markers q) as [H1 H2]; [rewrite E; apply in_app_iff; right; left; reflexivity|auto].
  - split; [apply (parts_markers r s ms); rewrite E; apply in_app_iff; right; left; reflexivity|]. auto.
  - split; [apply (parts_markers r s ms); exact Hin|]. auto.
Qed.
Lemma base_remove_false context h m : base_should_remove context h m = false ->
  episode_type context /\ m_name m = lit "episode_details" /\ ~ (fst h <= m_start m /\ m_end m <= snd h).
Proof.
  unfold base_should_remove, episode_type. destruct (dget context (KS (lit "type"))) as [[]|]; cbn [andb]; try discriminate.
  destruct (str_eqb s (lit "episode")) eqn:E; cbn [andb]; [|discriminate]. apply str_eqb_eq in E. subst s.
  destruct (has_name (lit "episode_details") m) eqn:En; [|discriminate]. apply has_name_iff in En. intros H. repeat split; auto. lia.
Qed.
Definition title_name (n : str) : Prop := n = lit "title" \/ n = lit "alternative_title" \/ n = lit "episode_title".
Lemma ignored_not_title s m : is_ignored s m = true -> ~ title_name (m_name m).
Proof. intros H. apply is_ignored_iff in H as [[E|[E|E]] _]; rewrite E; intros [H|[H|H]]; discriminate. Qed.

(** a title found in a zone of a part *)
Definition rule_name (r : title_rule) (n : str) : Prop := n = tr_name r \/ tr_alternative r = Some n.
Lemma zone_title' r s context markers ms extra part z titles rm t0 : zone_titles r s context markers ms extra part z titles rm -> In t0 titles ->
  rule_name r (m_name t0) /\ m_tags t0 = tr_tags r /\ m_parent t0 = None /\
  fst z <= m_start t0 < m_end t0 /\ m_end t0 <= snd z /\
  m_value t0 = MvStr (title_text (slice (m_start t0) (m_end t0) s)) /\ title_text (slice (m_start t0) (m_end t0) s) <> [].
Proof.
  intros Z Ht. pose proof (zt_part _ _ _ _ _ _ _ _ _ _ Z) as Zp. pose proof (zt_value _ _ _ _ _ _ _ _ _ _ Z) as Zv.
  destruct (zt_titles _ _ _ _ _ _ _ _ _ _ Z) as (l & -> & Sp).
  apply in_map_iff in Ht as (x & <- & Hx). unfold rule_name. destruct (tr_alternative r) as [alt|].
  - destruct Sp as [(y & r' & El & Ny & Nr) S2 S3 S4 S5 S6].
    destruct (S2 x Hx) as (A & B & C). cbn. repeat split; auto; try lia.
    + rewrite El in Hx. destruct Hx as [<-|Hx]; [left; exact Ny|right; rewrite (Nr x Hx); reflexivity].
    + apply nonnil_iff. exact C.
  - subst l. destruct Hx as [<-|[]]. cbn. repeat split; auto; try lia. apply nonnil_iff. exact Zv.
Qed.
Lemma zone_title s context markers ms extra part z titles rm t0 : zone_titles title_from_position s context markers ms extra part z titles rm -> In t0 titles ->
  (m_name t0 = lit "title" \/ m_name t0 = lit "alternative_title") /\ m_tags t0 = [lit "title"] /\ m_parent t0 = None /\
  fst z <= m_start t0 < m_end t0 /\ m_end t0 <= snd z /\
  m_value t0 = MvStr (title_text (slice (m_start t0) (m_end t0) s)) /\ title_text (slice (m_start t0) (m_end t0) s) <> [].
Proof.
  intros Z Ht. destruct (zone_title' _ _ _ _ _ _ _ _ _ _ _ Z Ht) as (N & R). split; [|exact R]. destruct N as [N|N]; [left; exact N|]. right. injection N as N. symmetry. exact N.
Qed.
Lemma remove_app l a b : (forall x y, In x l -> In y b -> mkey x <> mkey y) -> remove_all l (a ++ b) = remove_all l a ++ b.
Proof.
  unfold remove_all. revert a. induction l as [|m l IH]; intros a H; cbn [fold_left]; [reflexivity|].
  assert (E : remove1 m (a ++ b) = remove1 m a ++ b).
  { induction a as [|x a IHa]; cbn [remove1 app].
    - assert (G : forall y, In y b -> mkey m <> mkey y) by (intros y Hy; apply H; [left; reflexivity|exact Hy]). clear -G.
      induction b as [|y b IHb]; cbn [remove1]; [reflexivity|]. destruct (mt_eqb m y) eqn:E.
      + apply mt_eqb_eq in E. exfalso. apply (G y); [left; reflexivity|exact E].
      + f_equal. apply IHb. intros z Hz. apply G. right; exact Hz.
    - destruct (mt_eqb m x); [reflexivity|]. cbn [app]. f_equal. exact IHa. }
  rewrite E. apply IH. intros x y Hx. apply H. right; exact Hx.
Qed.

(** what the rule does to the matches *)
Lemma rule_result r s context markers ms ms' : store_ok s markers ms -> (forall n, rule_name r n -> title_name n) -> title_base r s context markers ms = Ok ms' ->
  exists app rm new, title_when r s context markers ms = Ok (app, rm) /\
    ms' = filter (fun m => negb (mmem m rm)) ms ++ new /\ (forall t, In t new -> In t app) /\
    (forall t, In t app -> exists x, In x ms' /\ mkey x = mkey t).
Proof.
  intros W Hrn. unfold title_base. destruct (title_when r s context markers ms) as [[app rm]|] eqn:E; cbn [bind]; [|discriminate].
  intros H; injection H as <-. unfold title_then; cbn [fst snd].
  destruct (append_all_app app ms) as (new & En & Hn). exists app, rm, new. split; [reflexivity|].
  assert (D : forall x y, In x rm -> In y app -> mkey x <> mkey y).
  { destruct (title_when_spec _ _ _ _ _ _ _ E) as [(_ & -> & ->)|(_ & S)]; [intros x y []|].
    intros x y Hx Hy Ek. destruct (ws_app _ _ _ _ _ _ _ S y Hy) as (ex & p & ts & rm' & t0 & F & Ht & R & _).
    destruct (ws_rm _ _ _ _ _ _ _ S x Hx) as (ex2 & p2 & ts2 & rm2 & F2 & Hx2 & _).
    apply found_part in F as (_ & C & _). apply found_part in F2 as (_ & C2 & _).
    apply check_titles_some in C as (z & Z); try apply W; [|eapply so_ends; exact W].
    apply check_titles_some in C2 as (z2 & Z2); try apply W; [|eapply so_ends; exact W].
    destruct (zone_title' _ _ _ _ _ _ _ _ _ _ _ Z Ht) as (Nt & _).
    destruct (zt_removed _ _ _ _ _ _ _ _ _ _ Z2 x Hx2) as (_ & Ig & _). apply ignored_not_title in Ig. apply Ig.
    assert (Ex : m_name x = m_name y) by (unfold mkey in Ek; congruence). rewrite Ex. destruct R as [->|(-> & _)]; [|right; right; reflexivity].
    apply Hrn; exact Nt. }
  rewrite En, remove_app by (intros x y Hx Hy; apply D; [exact Hx|apply Hn; exact Hy]). rewrite remove_all_filter by apply W. repeat split; auto.
  intros t Ht. destruct (proj2 (append_all_keys app ms (mkey t))) as (x & Hx & Ex); [exists t; auto|]. rewrite En in Hx. exists x. split; [|exact Ex].
  apply in_app_iff in Hx as [Hx|Hx]; apply in_app_iff; [left|right; exact Hx]. apply filter_In. split; [exact Hx|]. apply Bool.negb_true_iff.
  apply mmem_false. intros y Hy Ey. apply (D y t Hy Ht). congruence.
Qed.

Lemma title_rule_result s context markers ms ms' : store_ok s markers ms -> TitleFromPosition s context markers ms = Ok ms' ->
  exists app rm new, title_when title_from_position s context markers ms = Ok (app, rm) /\
    ms' = filter (fun m => negb (mmem m rm)) ms ++ new /\ (forall t, In t new -> In t app) /\
    (forall t, In t app -> exists x, In x ms' /\ mkey x = mkey t).
Proof.
  intros W H. apply (rule_result title_from_position s context markers ms ms' W); [|exact H]. intros n [->|E]; [left; reflexivity|right; left].
  injection E as E. symmetry. exact E.
Qed.

(** C57: what is a title. The matches of the input are kept, but some languages, countries and episode details; the new
    matches are titles, alternative titles and episode titles. Each is in a part of the path (or ends with the slash
    after it), its value is the cleaned up text of its span and is not empty; a bracket group that it overlaps is a whole part
    of the path; and no match that is kept has a character in common with it, but an episode detail that is not entirely in
    the title when the type is "episode", or a weak match, when a directory is a season. *)
Theorem C57_sound : forall s context markers ms ms', store_ok s markers ms -> TitleFromPosition s context markers ms = Ok ms' ->
  exists keep new, ms' = filter keep ms ++ new /\
  (forall m, In m ms -> keep m = false -> maybe_word s m) /\
  forall t, In t new -> title_name (m_name t) /\ m_tags t = [lit "title"] /\
    (exists u v, cleanup (slice (m_start t) (m_end t) s) = Ok u /\ v = reorder_title u [lit "the"] [lit ","; lit ", "] /\ m_value t = MvStr v /\ v <> []) /\
    (exists part, In part markers /\ m_name part = lit "path" /\ m_start part <= m_start t < m_end t /\ m_end t <= m_end part + 1) /\
    (forall g, In g markers -> m_name g = lit "group" -> overlapping t g -> fills markers g) /\
    (forall m, In m ms -> keep m = true -> overlapping t m ->
       (episode_type context /\ m_name m = lit "episode_details" /\ ~ (m_start t <= m_start m /\ m_end m <= m_end t)) \/
       (weak_tag m /\ exists p, In p markers /\ m_name p = lit "path" /\ season_folder ms p)) /\
    (m_name t = lit "episode_title" -> exists p, In p markers /\ m_name p = lit "path" /\ season_folder ms p).
Proof.
  intros s context markers ms ms' W H. destruct (title_rule_result s context markers ms ms' W H) as (app & rm & new & Ew & -> & Hnew & _).
  exists (fun m => negb (mmem m rm)), new. split; [reflexivity|].
  pose proof (so_ends _ _ _ W) as He.
  destruct (title_when_spec _ _ _ _ _ _ _ Ew) as [(_ & -> & ->)|(_ & S)].
  { split; [intros m _ Hk; discriminate|]. intros t Ht. apply Hnew in Ht. destruct Ht. }
  split.
  - intros m Hm Hk. apply Bool.negb_false_iff in Hk. apply mmem_iff in Hk as (x & Hx & Ex).
    destruct (ws_rm _ _ _ _ _ _ _ S x Hx) as (ex2 & p2 & ts2 & rm2 & F2 & Hx2 & _). apply found_part in F2 as (_ & C2 & _).
    apply check_titles_some in C2 as (z2 & Z2); try apply W; [|exact He].
    destruct (zt_removed _ _ _ _ _ _ _ _ _ _ Z2 x Hx2) as (Hxm & Ig & _). assert (x = m) by (apply (distinct_inj ms); auto; apply W). subst x.
    apply is_ignored_iff; exact Ig.
  - intros t Ht. destruct (ws_app _ _ _ _ _ _ _ S t (Hnew t Ht)) as (ex & p & ts & rm' & t0 & F & Ht0 & R & Hrm).
    apply found_part in F as ((Hp & Np) & C & Hex). apply check_titles_some in C as (z & Z); try apply W; [|exact He].
    destruct (zone_title _ _ _ _ _ _ _ _ _ _ Z Ht0) as (N0 & T0 & P0 & A0 & B0 & V0 & V1).
    destruct (zt_part _ _ _ _ _ _ _ _ _ _ Z) as (Zp & Zq & Zr).
    assert (Et : m_start t = m_start t0 /\ m_end t = m_end t0 /\ m_tags t = m_tags t0 /\ m_value t = m_value t0) by (destruct R as [->|(-> & _)]; auto).
    destruct Et as (E1 & E2 & E3 & E4). rewrite E1, E2, E3, E4. clear E3 E4.
    assert (Zin : forall j, m_start t0 <= j < m_end t0 -> insp j z) by (intros j Hj; unfold insp; lia).
    assert (Serie : forall q, In q markers -> season_only s ms q = true -> season_folder ms q) by (intros q Hq; apply (season_only_spec s markers ms q W Hq)).
    repeat apply conj.
    + destruct R as [->|(-> & _)]; [|right; right; reflexivity]. destruct N0; [left|right; left]; assumption.
    + exact T0.
    + unfold title_text in V0, V1. destruct (cleanup (slice (m_start t0) (m_end t0) s)) as [u|]; [|congruence].
      exists u, (reorder_title u [lit "the"] [lit ","; lit ", "]). auto.
    + exists p. repeat split; auto; lia.
    + intros g Hg Ng (j & Hj & Hjg). rewrite E1, E2 in Hj. destruct (whole_part markers g) eqn:Wp; [apply whole_part_fills; exact Wp|]. exfalso.
      apply (zt_group _ _ _ _ _ _ _ _ _ _ Z j (m_span g) (Zin j Hj)); [apply crop_groups_all; auto|]. exact Hjg.
    + intros m Hm Hk (j & Hj & Hjm). rewrite E1, E2 in Hj. apply Bool.negb_true_iff in Hk.
      assert (Nrm : ~ In m rm') by (intros Hx; apply Hrm in Hx; apply mmem_In in Hx; congruence).
      destruct (zt_free _ _ _ _ _ _ _ _ _ _ Z j m (Zin j Hj) Hm Hjm) as [Ig|Ex].
      * destruct (base_should_remove context z m) eqn:Eb.
        -- exfalso. apply Nrm. apply (zt_remove _ _ _ _ _ _ _ _ _ _ Z m j Hm Ig (Zin j Hj) Hjm Eb).
        -- left. apply base_remove_false in Eb as (B1 & B2 & B3). split; [exact B1|]. split; [exact B2|]. intros [B4 B5]. apply B3. lia.
      * right. destruct Hex as [->|(-> & q & Hq & Nq & Hs)]; [discriminate|]. split; [apply weak_iff; exact Ex|]. exists q. auto.
    + intros Nt. destruct R as [->|(_ & q & ts2 & rm2 & F2)]; [destruct N0 as [N0|N0]; rewrite N0 in Nt; discriminate|].
      apply found_part in F2 as (_ & _ & [E|(_ & q' & Hq & Nq & Hs)]); [|exists q'; auto].
      exfalso. assert (X : weak (simple 0 0 [] (MvStr []) [lit "weak"]) = never (simple 0 0 [] (MvStr []) [lit "weak"])) by (rewrite E; reflexivity). discriminate X.
Qed.
Print Assumptions C57_sound.

(** C57: a title is always found. When no title is expected, and some part of the path has a character that is not a separator,
    that no match covers and that no bracket group contains, there is a title afterwards. *)
Definition free_text (s : str) (markers ms : list mt) (part : mt) : Prop :=
  exists j c, m_start part <= j < m_end part /\ nth_error s j = Some c /\ is_sep c = false /\ ~ covered ms j /\
    forall g, In g markers -> m_name g = lit "group" -> ~ (m_start g <= j < m_end g).
Lemma free_text_check s context markers ms part : store_ok s markers ms -> free_text s markers ms part ->
  check_titles title_from_position s context markers ms never part <> Ok None.
Proof.
  intros W (j & c & Hj & Hc & Ec & Hu & Hg) N.
  destruct (check_titles_none title_from_position s context markers ms never part (so_inside _ _ _ W) (so_nonempty _ _ _ W) (so_ends _ _ _ W) (fun _ => eq_refl) N j c) as [H|(g & Hgm & Hjg)]; auto; [lia|].
  apply crop_groups_In in Hgm as (g' & H1 & H2 & ->). exact (Hg g' H1 H2 Hjg).
Qed.
Lemma in_parts s markers ms p : In p markers -> m_name p = lit "path" ->
  In p (filter (tr_part_filter title_from_position ms) (marker_sorted s ms comparator_predicate (named (lit "path") markers))).
Proof.
  intros H N. apply filter_In. split; [|reflexivity]. unfold marker_sorted. apply (Permutation_in p (Permutation_sym (isort_perm _ _))). apply named_In; auto.
Qed.
Theorem C57_found : forall s context markers ms ms', store_ok s markers ms -> TitleFromPosition s context markers ms = Ok ms' ->
  (forall m, In m ms -> m_name m = lit "title" -> ~ In (lit "expected") (m_tags m)) ->
  (exists part, In part markers /\ m_name part = lit "path" /\ free_text s markers ms part) ->
  exists t, In t ms' /\ m_name t = lit "title".
Proof.
  intros s context markers ms ms' W H Hx (part & Hp & Np & Ft).
  destruct (title_rule_result s context markers ms ms' W H) as (app & rm & new & Ew & _ & _ & Happ).
  destruct (title_when_spec _ _ _ _ _ _ _ Ew) as [((m & Hm & Nm & Tm) & _)|(_ & S)]; [exfalso; exact (Hx m Hm Nm Tm)|].
  destruct (ws_first _ _ _ _ _ _ _ S) as [Hn|(ex & p & ts & rm' & F & Hhd)].
  - exfalso. apply (free_text_check s context markers ms part W Ft). apply Hn. apply in_parts; assumption.
  - apply found_part in F as (_ & C & _). apply check_titles_some in C as (z & Z); try apply W; [|eapply so_ends; exact W].
    destruct (zt_titles _ _ _ _ _ _ _ _ _ _ Z) as (l & -> & Sp). cbn [tr_alternative title_from_position] in Sp.
    destruct (sp_name _ _ _ _ _ Sp) as (y & r & El & Ny & _). rewrite El in Hhd. specialize (Hhd _ eq_refl).
    destruct (Happ _ Hhd) as (x & Hx' & Ex). exists x. split; [exact Hx'|]. unfold mkey in Ex. injection Ex as _ _ Ex _ _. rewrite Ex. exact Ny.
Qed.
Print Assumptions C57_found.

(** C57: every part of the path with a year and some text gives a title. *)
Theorem C57_years : forall s context markers ms ms' part y, store_ok s markers ms -> TitleFromPosition s context markers ms = Ok ms' ->
  (forall m, In m ms -> m_name m = lit "title" -> ~ In (lit "expected") (m_tags m)) ->
  In part markers -> m_name part = lit "path" -> In y ms -> m_name y = lit "year" -> overlapping part y -> free_text s markers ms part ->
  exists t, In t ms' /\ (m_name t = lit "title" \/ m_name t = lit "episode_title") /\ m_start part <= m_start t /\ m_end t <= m_end part + 1.
Proof.
  intros s context markers ms ms' part y W H Hx Hp Np Hy Ny Oy Ft.
  destruct (title_rule_result s context markers ms ms' W H) as (app & rm & new & Ew & _ & _ & Happ).
  destruct (title_when_spec _ _ _ _ _ _ _ Ew) as [((m & Hm & Nm & Tm) & _)|(_ & S)]; [exfalso; exact (Hx m Hm Nm Tm)|].
  assert (Wy : with_year s ms part = true).
  { unfold with_year. destruct (first (range s ms (m_start part) (m_end part) (has_name (lit "year")))) as [x|] eqn:E.
    - apply hd_error_In in E. apply range_In in E as (E & _). cbn. apply Nat.ltb_lt. apply W; exact E.
    - exfalso. pose proof (range_first s ms (m_start part) (m_end part) (has_name (lit "year")) (so_inside _ _ _ W)) as R. rewrite E in R.
      destruct Oy as (i & Hi & Hj). assert (has_name (lit "year") y = false) by (apply R; [apply (so_markers _ _ _ W part Hp)|exact Hy|lia|lia]).
      apply has_name_iff in Ny. congruence. }
  assert (Dp : distinct (filter (tr_part_filter title_from_position ms) (marker_sorted s ms comparator_predicate (named (lit "path") markers)))).
  { apply distinct_filter. unfold distinct, marker_sorted. apply (Permutation_NoDup (Permutation_map _ (Permutation_sym (isort_perm _ _)))).
    apply distinct_filter. apply W. }
  destruct (ws_year _ _ _ _ _ _ _ S Dp part (in_parts s markers ms part Hp Np) Wy) as [C|(ts & rm' & C & Hts)]; [exfalso; exact (free_text_check s context markers ms part W Ft C)|].
  apply check_titles_some in C as (z & Z); try apply W; [|eapply so_ends; exact W].
  destruct (zt_part _ _ _ _ _ _ _ _ _ _ Z) as (Zp & Zq & Zr).
  destruct (zt_titles _ _ _ _ _ _ _ _ _ _ Z) as (l & El & Sp). cbn [tr_alternative title_from_position] in Sp.
  destruct (sp_name _ _ _ _ _ Sp) as (x0 & r & El0 & Nx0 & _). subst ts l.
  destruct (Hts (to_match s [lit "title"] x0)) as (t & Ht & R); [left; reflexivity|].
  destruct (zone_title _ _ _ _ _ _ _ _ _ _ Z (or_introl eq_refl)) as (_ & _ & _ & A0 & B0 & _). cbn [to_match simple m_start m_end] in A0, B0.
  destruct (Happ t Ht) as (x & Hx' & Ex). exists x. split; [exact Hx'|]. unfold mkey in Ex. injection Ex as Ex1 Ex2 Ex3 _ _. rewrite Ex1, Ex2, Ex3.
  destruct R as [->| ->]; cbn; (split; [|lia]); [left; exact Nx0|right; reflexivity].
Qed.
Print Assumptions C57_years.
