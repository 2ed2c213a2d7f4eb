(** Film and bonus titles (C61) *)
From Verif Require Import Py PyFacts Text TextFacts Sort Formatters FormattersProofs Rebulk RebulkFacts RuleSpec Processors Title TitleProofs TitleProps TitleMore HolesMore EpisodeTitle EpisodeTitleProps.
From Coq Require Import Arith ZifyBool Sorted.

(** [cleanup] gives something exactly when there is a character that is not a separator *)
Lemma clean_text_nonnil t : nonnil (clean_text t) = true <-> exists c, In c t /\ is_sep c = false.
Proof.
  unfold clean_text. destruct (cleanup_touches t) as (u & E & Ht & _ & Hh & _). rewrite E.
  assert (L := ot_letters t u Ht). split.
  - intros H. destruct u as [|c u]; [discriminate|]. specialize (Hh c eq_refl).
    destruct (forallb is_sep t) eqn:F.
    + exfalso. assert (Fc : is_sep c = true).
      { destruct (is_sep c) eqn:Ec; [reflexivity|]. exfalso. cbn [filter] in L. rewrite Ec in L. cbn [negb] in L.
        assert (In c (filter (fun c => negb (is_sep c)) t)) by (rewrite <- L; left; reflexivity). apply filter_In in H0 as [Hc Hn].
        rewrite forallb_forall in F. rewrite (F c Hc) in Hn. discriminate. }
      apply Hh. split; [apply cmem_In; exact Fc|]. intros (i & [(_ & c' & _ & _ & _ & (a & Ha & Na) & _) _] & _).
      apply nth_error_In in Ha. rewrite forallb_forall in F. specialize (F a Ha). apply Na. apply cmem_In. exact F.
    + apply Bool.not_true_iff_false in F. destruct (existsb (fun c => negb (is_sep c)) t) eqn:X.
      * apply existsb_exists in X as (d & Hd & Nd). exists d. split; [exact Hd|]. apply Bool.negb_true_iff. exact Nd.
      * exfalso. apply F. apply forallb_forall. intros d Hd. destruct (is_sep d) eqn:Ed; [reflexivity|].
        exfalso. apply Bool.not_true_iff_false in X. apply X. apply existsb_exists. exists d. rewrite Ed. auto.
  - intros (c & Hc & Ec). assert (In c (filter (fun c => negb (is_sep c)) u)) by (rewrite L; apply filter_In; rewrite Ec; auto).
    destruct u; [destruct H|reflexivity].
Qed.
Lemma raw_letters s h : (exists c, In c (raw s h) /\ is_sep c = false) <-> exists j c, fst h <= j < snd h /\ nth_error s j = Some c /\ is_sep c = false.
Proof.
  unfold raw. split.
  - intros (c & Hc & Ec). apply In_nth_error in Hc as [i Hi]. rewrite slice_nth in Hi. destruct (Nat.ltb_spec i (snd h - fst h)); [|discriminate].
    exists (fst h + i), c. repeat split; auto; lia.
  - intros (j & c & Hj & Hc & Ec). exists c. split; [|exact Ec]. apply (nth_error_In _ (j - fst h)). rewrite slice_nth.
    destruct (Nat.ltb_spec (j - fst h) (snd h - fst h)); [|lia]. replace (fst h + (j - fst h)) with j by lia. exact Hc.
Qed.

(** ** specification *)
(** the number that counts: the first match of that name that is not private *)
Definition the_number (n : string) (ms : list mt) (b : mt) : Prop :=
  exists l r, ms = l ++ b :: r /\ m_name b = lit n /\ m_private b = false /\ forall x, In x l -> m_name x = lit n -> m_private x = true.
(** the file part of a match *)
Definition the_part (markers : list mt) (b p : mt) : Prop :=
  In p markers /\ m_name p = lit "path" /\ m_start p <= m_start b /\ m_end b <= m_end p /\
  forall q, In q markers -> m_name q = lit "path" -> m_start q < m_end b -> m_start b < m_end q -> q = p.
(** a position with text: not a separator *)
Definition text_at (s : str) (j : nat) : Prop := exists c, nth_error s j = Some c /\ is_sep c = false.
(** the title [t] is the cleaned text of the zone [h] *)
Definition title_of (s : str) (n : string) (h : span) (t : mt) : Prop :=
  m_name t = lit n /\ m_start t = fst h /\ m_end t = snd h /\ m_private t = false /\
  exists v, m_value t = MvStr v /\ v <> [] /\ cleanup (slice (fst h) (snd h) s) = Ok v.

Lemma the_number_first n ms b : the_number n ms b -> first (filter public (named (lit n) ms)) = Some b.
Proof.
  intros (l & r & -> & Nb & Pb & Hl). unfold named. rewrite filter_app, filter_app. cbn [filter].
  rewrite (proj2 (has_name_iff _ _) Nb). cbn [filter]. unfold public at 2. rewrite Pb. cbn [negb].
  assert (filter public (filter (has_name (lit n)) l) = []) as ->; [|reflexivity].
  apply filter_nil. intros x Hx. apply filter_In in Hx as [Hx Nx]. apply has_name_iff in Nx. unfold public. rewrite (Hl x Hx Nx). reflexivity.
Qed.
Lemma the_part_first markers b p : m_start b < m_end b -> the_part markers b p -> first (filter (has_name (lit "path")) (at_match b markers)) = Some p.
Proof.
  intros Hb (P1 & P2 & P3 & P4 & P5).
  assert (X : exists x, In x (at_match b markers) /\ m_name x = lit "path").
  { apply at_match_iff. exists p. repeat split; auto. left. lia. }
  destruct X as (x & X1 & X2). destruct (filter (has_name (lit "path")) (at_match b markers)) as [|y l] eqn:E.
  - exfalso. assert (H : In x []); [|destruct H]. rewrite <- E. apply filter_In. split; [exact X1|apply has_name_iff; exact X2].
  - cbn [first hd_error]. f_equal. assert (H : In y (y :: l)) by (left; reflexivity). rewrite <- E in H. apply filter_In in H as [H N].
    apply has_name_iff in N. unfold at_match, at_span in H. apply merge_new_sub in H as [H|H].
    + apply filter_In in H as [H C]. unfold covers in C. apply P5; auto; lia.
    + destruct (m_end b) as [|e] eqn:Eb; [lia|]. apply filter_In in H as [H C]. unfold covers in C. apply P5; auto; lia.
Qed.
Lemma number_fresh s n ms h : nonempty ms -> fst h < snd h -> (forall j, fst h <= j < snd h -> ~ covered ms j) ->
  append_all [clean_hole s n [] h] ms = ms ++ [clean_hole s n [] h].
Proof.
  intros NE Hlt Hc. unfold append_all; cbn [fold_left]. assert (mmem (clean_hole s n [] h) ms = false) as ->; [|reflexivity].
  apply mmem_false. intros x Hx Ek. apply (Hc (fst h)); [lia|]. exists x. split; [exact Hx|].
  unfold mkey, clean_hole, simple in Ek. cbn [m_start m_end] in Ek. injection Ek. intros. lia.
Qed.
Lemma clean_title s n h : nonnil (clean_text (raw s h)) = true -> title_of s n h (clean_hole s (lit n) [] h).
Proof.
  intros H. unfold title_of, clean_hole, simple; cbn [m_name m_start m_end m_value m_private]. repeat (split; [reflexivity|]).
  exists (clean_text (raw s h)). split; [reflexivity|]. split; [apply nonnil_iff; exact H|]. unfold clean_text, raw. destruct (cleanup_touches (slice (fst h) (snd h) s)) as (u & -> & _). reflexivity.
Qed.
(** what both rules do in the zone [a, e) *)
Lemma number_zone n tn zone s markers ms b p : store_ok s markers ms -> the_number n ms b -> the_part markers b p ->
  let a := fst (zone p b) in let e := Nat.min (List.length s) (snd (zone p b)) in a < e ->
  exists ms', number_title (lit n) (lit tn) zone s markers ms = Ok ms' /\
  (ms' = ms \/ exists h t, ms' = ms ++ [t] /\ title_of s tn h t /\ free_run ms a e h /\ forall j, a <= j < fst h -> covered ms j) /\
  (~ covered ms a -> forall k, a < k <= e -> (forall j, a <= j < k -> ~ covered ms j) -> (k = e \/ covered ms k) ->
     (exists j, a <= j < k /\ text_at s j) -> exists t, ms' = ms ++ [t] /\ title_of s tn (a, k) t).
Proof.
  intros W Hn Hp a e Hae. unfold number_title. rewrite (the_number_first _ _ _ Hn).
  assert (Hb : In b ms) by (destruct Hn as (l & r & -> & _); apply in_app_iff; right; left; reflexivity).
  pose proof (so_nonempty _ _ _ W b Hb) as Lb. unfold m_truthy. rewrite (proj2 (Nat.ltb_lt _ _) Lb).
  rewrite (the_part_first markers b p Lb Hp). fold a. pose proof (so_nonempty _ _ _ W) as NE.
  assert (Ee : Nat.min (max_end s ms) (snd (zone p b)) = e) by (rewrite max_end_inside by apply W; reflexivity).
  assert (Hae' : a < Nat.min (max_end s ms) (snd (zone p b))) by (rewrite Ee; exact Hae).
  destruct (holes_ordered s ms a (snd (zone p b)) NE Hae') as [_ B].
  destruct (first (holes s ms a (snd (zone p b)) never None)) as [h|] eqn:E.
  - assert (Hh : In h (holes s ms a (snd (zone p b)) never None)) by (apply hd_error_In; exact E). destruct (B h Hh) as (B1 & B2 & B3).
    destruct (Nat.ltb_spec (snd h) (fst h)); [lia|]. destruct ((fst h <? snd h) && nonnil (clean_text (raw s h))) eqn:V.
    + apply Bool.andb_true_iff in V as [V1 V2]. apply Nat.ltb_lt in V1.
      pose proof (holes_run s ms a (snd (zone p b)) h NE Hae' Hh V1) as R. rewrite Ee in R.
      pose proof R as (R1 & R2 & R3 & R4 & R5 & R6). rewrite number_fresh by auto. eexists. split; [reflexivity|]. split.
      * right. exists h. eexists. split; [reflexivity|]. split; [apply clean_title; exact V2|]. split; [exact R|].
        apply (holes_first_covered s ms a (snd (zone p b)) h NE Hae' E).
      * intros Ca k Hk Hfree Hend _. destruct (holes_first s ms a (snd (zone p b)) NE Hae' Ca) as (h' & E' & F1 & _ & _). rewrite E in E'. injection E' as <-.
        assert (snd h = k).
        { destruct (Nat.lt_trichotomy (snd h) k) as [L|[L|L]]; [|exact L|]; exfalso.
          - destruct R6 as [R6|R6]; [lia|]. apply (Hfree (snd h)); [lia|exact R6].
          - destruct Hend as [Hend|Hend]; [lia|]. apply (R4 k); [lia|exact Hend]. }
        eexists. split; [reflexivity|]. replace (a, k) with h; [apply clean_title; exact V2|]. destruct h; cbn [fst snd] in *. congruence.
    + eexists. split; [reflexivity|]. split; [left; reflexivity|]. intros Ca k Hk Hfree Hend (j & J1 & c & J2 & J3). exfalso.
      destruct (holes_first s ms a (snd (zone p b)) NE Hae' Ca) as (h' & E' & F1 & F2 & F3). rewrite E in E'. injection E' as <-.
      rewrite Ee in F3. destruct F3 as (R1 & R2 & R3 & R4 & R5 & R6).
      apply Bool.andb_false_iff in V as [V|V]; [lia|]. apply Bool.not_true_iff_false in V. apply V. apply clean_text_nonnil. apply raw_letters.
      exists j, c. split; [|auto]. split; [lia|]. destruct (Nat.lt_ge_cases j (snd h)); [assumption|]. exfalso.
      destruct R6 as [R6|R6]; [lia|]. apply (Hfree (snd h)); [lia|exact R6].
  - eexists. split; [reflexivity|]. split; [left; reflexivity|]. intros Ca. exfalso.
    destruct (holes_first s ms a (snd (zone p b)) NE Hae' Ca) as (h' & E' & _). congruence.
Qed.

(** ** C61 *)
(** At most one film title is added; it is the text of the first free stretch between the start of the file part and the film number *)
Theorem C61_film : forall s markers ms b p, store_ok s markers ms -> the_number "film" ms b -> the_part markers b p ->
  exists ms', FilmTitle s markers ms = Ok ms' /\
  (ms' = ms \/ exists h t, ms' = ms ++ [t] /\ title_of s "film_title" h t /\ free_run ms (m_start p) (m_start b) h /\
     forall j, m_start p <= j < fst h -> covered ms j) /\
  (* when the file part starts with text, up to [k], that text is the title *)
  (forall k, m_start p < k <= m_start b -> (forall j, m_start p <= j < k -> ~ covered ms j) -> covered ms k ->
     (exists j, m_start p <= j < k /\ text_at s j) -> exists t, ms' = ms ++ [t] /\ title_of s "film_title" (m_start p, k) t).
Proof.
  intros s markers ms b p W Hn Hp.
  assert (Hb : In b ms) by (destruct Hn as (l & r & -> & _); apply in_app_iff; right; left; reflexivity).
  pose proof (so_nonempty _ _ _ W b Hb) as Lb. destruct (so_inside _ _ _ W b Hb) as [I1 I2]. destruct Hp as (P1 & P2 & P3 & P4 & P5).
  destruct (number_zone "film" "film_title" (fun part b => (m_start part, m_start b + 1)) s markers ms b p W Hn ltac:(unfold the_part; auto)) as (ms' & E & S & F); cbn [fst snd] in *; [lia|].
  exists ms'. split; [exact E|]. rewrite Nat.min_r in S, F by lia.
  assert (Cb : covered ms (m_start b)) by (exists b; split; [exact Hb|lia]). split.
  - destruct S as [S|(h & t & S1 & S2 & S3 & S4)]; [left; exact S|right]. exists h, t. split; [exact S1|]. split; [exact S2|]. split; [|exact S4].
    destruct S3 as (R1 & R2 & R3 & R4 & R5 & R6). assert (snd h <= m_start b).
    { destruct (Nat.le_gt_cases (snd h) (m_start b)); [assumption|exfalso]. apply (R4 (m_start b)); [|exact Cb]. split; [|lia].
      destruct (Nat.le_gt_cases (fst h) (m_start b)); [assumption|]. lia. }
    split; [exact R1|]. split; [exact R2|]. split; [exact H|]. split; [exact R4|]. split; [exact R5|]. destruct R6 as [R6|R6]; [left; lia|right; exact R6].
  - intros k Hk Hfree Hend Ht. apply F; auto; [|lia]. apply Hfree. lia.
Qed.
Print Assumptions C61_film.
Lemma holes_all_covered s ms a b : nonempty ms -> (forall j, hole_start a ms never <= j < Nat.min (max_end s ms) b -> covered ms j) -> holes s ms a b never None = [].
Proof.
  intros NE H. unfold holes. set (e := Nat.min (max_end s ms) b) in *. set (l := hole_start a ms never) in *.
  assert (G : forall n i, l <= i -> i + n <= e -> fold_left (hole_step s ms never None a) (seq i n) (mk_h None []) = mk_h None []).
  { induction n as [|n IH]; intros i Hl Hi; cbn [seq fold_left]; [reflexivity|]. unfold hole_step at 2. cbn [h_open].
    destruct (forallb never (at_index i ms)) eqn:F; [exfalso; apply free_iff in F; apply F, H; lia|]. apply IH; lia. }
  destruct (Nat.le_gt_cases e l) as [L|L].
  - replace (e - l) with 0 by lia. reflexivity.
  - rewrite G by lia. reflexivity.
Qed.
(** At most one bonus title is added; it is the text of the first free stretch between the bonus number and the end of the file part
    (and the separator after it) *)
Theorem C61_bonus : forall s markers ms b p, store_ok s markers ms -> the_number "bonus" ms b -> the_part markers b p ->
  let e := Nat.min (List.length s) (m_end p + 1) in
  exists ms', BonusTitle s markers ms = Ok ms' /\
  (ms' = ms \/ exists h t, ms' = ms ++ [t] /\ title_of s "bonus_title" h t /\ free_run ms (m_end b) e h /\
     forall j, m_end b <= j < fst h -> covered ms j) /\
  (* when text follows the number, up to [k], that text is the title *)
  (forall k, m_end b < k <= e -> (forall j, m_end b <= j < k -> ~ covered ms j) -> (k = e \/ covered ms k) ->
     (exists j, m_end b <= j < k /\ text_at s j) -> exists t, ms' = ms ++ [t] /\ title_of s "bonus_title" (m_end b, k) t).
Proof.
  intros s markers ms b p W Hn Hp e. destruct (Nat.lt_ge_cases (m_end b) e) as [L|L].
  - destruct (number_zone "bonus" "bonus_title" (fun part b => (m_end b, m_end part + 1)) s markers ms b p W Hn Hp L) as (ms' & E & S & F); cbn [fst snd] in *.
    exists ms'. split; [exact E|]. split; [exact S|]. intros k Hk Hfree Hend Ht. apply F; auto. apply Hfree. lia.
  - assert (Hb : In b ms) by (destruct Hn as (l & r & -> & _); apply in_app_iff; right; left; reflexivity).
    pose proof (so_nonempty _ _ _ W b Hb) as Lb. exists ms. split; [|split; [left; reflexivity|lia]].
    unfold BonusTitle, number_title. rewrite (the_number_first _ _ _ Hn). unfold m_truthy. rewrite (proj2 (Nat.ltb_lt _ _) Lb).
    rewrite (the_part_first markers b p Lb Hp). cbn [fst snd]. rewrite holes_all_covered; [reflexivity|apply W|].
    intros j Hj. rewrite max_end_inside in Hj by apply W. fold e in Hj. exists b. split; [exact Hb|]. split; [|lia].
    pose proof (hole_start_spec (m_end b) ms) as [H1 H2].
    destruct (Nat.lt_ge_cases (hole_start (m_end b) ms never) (m_end b)) as [C|C]; [|lia]. specialize (H2 C b Hb Lb). lia.
Qed.
Print Assumptions C61_bonus.
Theorem C61_without_number : forall n tn zone s markers ms, (forall m, In m ms -> m_name m = lit n -> m_private m = true) ->
  number_title (lit n) tn zone s markers ms = Ok ms.
Proof.
  intros n tn zone s markers ms H. unfold number_title. assert (filter public (named (lit n) ms) = []) as ->; [|reflexivity].
  apply filter_nil. intros x Hx. apply named_In in Hx as [Hx Nx]. unfold public. rewrite (H x Hx Nx). reflexivity.
Qed.
Print Assumptions C61_without_number.
(** limit: in a folder, a film title after a year is lost; the same file name alone has one *)
Definition film_s (folder : string) : str := lit (folder ++ "2010 Title f01.mkv")%string.
Definition film_ms (d : nat) : list mt := [simple d (4 + d) (lit "year") (MvInt 2010) []; simple (11 + d) (14 + d) (lit "film") (MvInt 1) []].
Theorem C61_film_limit :
  let alone := [mk "path" 0 18] in let below := [mk "path" 0 1; mk "path" 2 20] in
  store_ok (film_s "") alone (film_ms 0) /\ store_ok (film_s "a/") below (film_ms 2) /\
  the_number "film" (film_ms 2) (simple 13 16 (lit "film") (MvInt 1) []) /\ the_part below (simple 13 16 (lit "film") (MvInt 1) []) (mk "path" 2 20) /\
  FilmTitle (film_s "") alone (film_ms 0) = Ok (film_ms 0 ++ [simple 4 11 (lit "film_title") (MvStr (lit "Title")) []]) /\
  FilmTitle (film_s "a/") below (film_ms 2) = Ok (film_ms 2).
Proof.
  cbv zeta.
  split; [|split; [|split; [|split; [|split; vm_compute; reflexivity]]]].
  - split; try (unfold inside, nonempty; cbn; intros m Hm; repeat (destruct Hm as [<-|Hm]; [cbn; lia|]); destruct Hm).
    + unfold distinct. cbn. repeat constructor; cbn; intuition discriminate.
    + unfold distinct. cbn. repeat constructor; cbn; intuition discriminate.
  - split; try (unfold inside, nonempty; cbn; intros m Hm; repeat (destruct Hm as [<-|Hm]; [cbn; lia|]); destruct Hm).
    + unfold distinct. cbn. repeat constructor; cbn; intuition discriminate.
    + unfold distinct. cbn. repeat constructor; cbn; intuition discriminate.
  - exists [simple 2 6 (lit "year") (MvInt 2010) []], []. repeat split; try reflexivity. intros x [<-|[]]. discriminate.
  - split; [right; left; reflexivity|]. split; [reflexivity|]. split; [cbn; lia|]. split; [cbn; lia|].
    intros q [<-|[<-|[]]] _ H1 H2; [cbn in H1, H2; lia|reflexivity].
Qed.
Print Assumptions C61_film_limit.
Example ex_bonus : let s := lit "Movie-x02-Making Of.mkv" in let b := simple 6 9 (lit "bonus") (MvInt 2) [] in
  let ms := [b; simple 19 23 (lit "container") (MvStr (lit "mkv")) []] in let markers := [mk "path" 0 23] in
  BonusTitle s markers ms = Ok (ms ++ [simple 9 19 (lit "bonus_title") (MvStr (lit "Making Of")) []]) /\
  store_ok s markers ms /\ the_number "bonus" ms b /\ the_part markers b (mk "path" 0 23).
Proof.
  cbv zeta. split; [vm_compute; reflexivity|]. split; [|split].
  - split; try (unfold inside, nonempty; cbn; intros m Hm; repeat (destruct Hm as [<-|Hm]; [cbn; lia|]); destruct Hm).
    + unfold distinct. cbn. repeat constructor; cbn; intuition discriminate.
    + unfold distinct. cbn. repeat constructor; cbn; intuition discriminate.
  - exists [], [simple 19 23 (lit "container") (MvStr (lit "mkv")) []]. repeat split; try reflexivity. intros x [].
  - split; [left; reflexivity|]. split; [reflexivity|]. split; [cbn; lia|]. split; [cbn; lia|]. intros q [<-|[]] _ _ _. reflexivity.
Qed.
