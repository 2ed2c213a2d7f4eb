(** C56: the rules on languages and subtitle languages *)
From Verif Require Import Py PyFacts Text Sort Common Rebulk RebulkFacts RuleSpec SmallRulesProps Language.
From Coq Require Import Arith Lia ZifyBool.

Definition language (m : mt) : Prop := m_name m = lit "language" \/ m_name m = lit "subtitle_language".
Lemma is_language_iff m : is_language m = true <-> language m.
Proof. unfold is_language, language. rewrite smem_In. cbn. intuition. Qed.

(** ** excluding language *)
Theorem C56_excluded : forall off ms, distinct ms ->
  RemoveLanguage off ms = filter (fun m => negb (off && has_name (lit "language") m)) ms.
Proof.
  intros off ms Hd. unfold RemoveLanguage. destruct off; cbn [andb]; [apply (remove_filter (has_name (lit "language")) ms Hd)|]. symmetry. apply filter_id. reflexivity.
Qed.
Print Assumptions C56_excluded.

(** ** common words *)
(** the group of a match: the first marker of this name around its start *)
Definition whole_groups (markers : list mt) (m : mt) : Prop :=
  forall g, In g markers -> m_name g = lit "group" -> overlapping m g -> m_start g <= m_start m /\ m_end m <= m_end g.
Definition enclosing (markers : list mt) (m g : mt) : Prop :=
  exists l1 l2, markers = l1 ++ g :: l2 /\ m_name g = lit "group" /\ m_start g <= m_start m < m_end g /\
    forall x, In x l1 -> m_name x = lit "group" -> ~ m_start x <= m_start m < m_end x.
Lemma merge_prefix a b : exists c, merge_new a b = a ++ c.
Proof.
  unfold merge_new. revert a. induction b as [|m b IH]; intros a; cbn [fold_left]; [exists []; rewrite app_nil_r; reflexivity|].
  destruct (IH (if mmem m a then a else a ++ [m])) as (c & ->). destruct (mmem m a); [eauto|]. exists (m :: c). rewrite <- app_assoc; reflexivity.
Qed.
Lemma first_filter {A} (p : A -> bool) l x : first (filter p l) = Some x <-> exists l1 l2, l = l1 ++ x :: l2 /\ p x = true /\ forall y, In y l1 -> p y = false.
Proof.
  induction l as [|y l IH]; cbn [filter].
  - split; [discriminate|]. intros (l1 & l2 & E & _). destruct l1; discriminate.
  - destruct (p y) eqn:E.
    + cbn [first hd_error]. split; [intros H; injection H as <-; exists [], l; repeat split; auto; intros ? []|]. intros ([|z l1] & l2 & El & Px & Hn); injection El as <- ->; [reflexivity|]. rewrite (Hn y) in E; [discriminate|left; reflexivity].
    + rewrite IH. split.
      * intros (l1 & l2 & -> & Px & Hn). exists (y :: l1), l2. repeat split; auto. intros z [<-|Hz]; auto.
      * intros ([|z l1] & l2 & El & Px & Hn); injection El as <- ->; [congruence|]. exists l1, l2. repeat split; auto. intros z Hz; apply Hn; right; exact Hz.
Qed.
Lemma enclosing_iff markers m g : m_start m < m_end m -> whole_groups markers m ->
  first (filter (has_name (lit "group")) (at_match m markers)) = Some g <-> enclosing markers m g.
Proof.
  intros Hm W. unfold at_match, at_span. destruct (merge_prefix (at_index (m_start m) markers) (match m_end m with 0 => [] | S b' => at_index b' markers end)) as (c & Ec).
  assert (Enc : first (filter (has_name (lit "group")) (at_index (m_start m) markers)) = Some g <-> enclosing markers m g).
  { unfold at_index. rewrite filter_filter, first_filter. unfold enclosing. split; intros (l1 & l2 & -> & H).
    - destruct H as [H1 H2]. apply Bool.andb_true_iff in H1 as [H1 H3]. apply has_name_iff in H3. unfold covers in H1. exists l1, l2. split; [reflexivity|]. split; [exact H3|]. split; [lia|].
      intros x Hx Nx Cx. specialize (H2 x Hx). apply has_name_iff in Nx. unfold covers in H2. rewrite Nx in H2. lia.
    - destruct H as (H1 & H2 & H3). apply has_name_iff in H1. exists l1, l2. split; [reflexivity|]. split; [rewrite H1; unfold covers; lia|].
      intros x Hx. specialize (H3 x Hx). destruct (has_name (lit "group") x) eqn:Nx; [|lia]. apply has_name_iff in Nx. specialize (H3 Nx). unfold covers. lia. }
  rewrite <- Enc. rewrite Ec, filter_app. destruct (filter (has_name (lit "group")) (at_index (m_start m) markers)) as [|x l] eqn:E1; [|reflexivity]. cbn [app].
  split; [|discriminate]. intros H. exfalso. assert (In g (filter (has_name (lit "group")) c)) as Hg by (destruct (filter (has_name (lit "group")) c); [discriminate|injection H as ->; left; reflexivity]).
  apply filter_In in Hg as [Hg Ng]. assert (In g (at_index (m_start m) markers ++ c)) as Hg' by (apply in_app_iff; auto). rewrite <- Ec in Hg'.
  apply merge_new_sub in Hg' as [Hg'|Hg'].
  - assert (In g []); [|auto]. rewrite <- E1. apply filter_In; auto.
  - destruct (m_end m) as [|e] eqn:Ee; [destruct Hg'|]. apply filter_In in Hg' as [Hg' Cg]. unfold covers in Cg. apply has_name_iff in Ng.
    destruct (W g Hg' Ng) as [W1 W2]; [exists e; lia|]. assert (In g []); [|auto]. rewrite <- E1. apply filter_In. split; [|apply has_name_iff; exact Ng]. apply filter_In. split; [exact Hg'|]. unfold covers. lia.
Qed.
(** the group of the language holds only languages and separators *)
Definition language_group (s : str) (ms : list mt) (g : mt) : Prop :=
  (forall x, In x ms -> m_start x < m_end g -> m_start g < m_end x -> language x) /\
  adjacent s ms (m_start g) (m_end g).
Lemma only_languages_iff s ms g : nonempty ms -> inside s ms -> m_end g <= List.length s -> only_languages s ms g = true <-> language_group s ms g.
Proof.
  intros Hn Hi Hg. unfold only_languages, language_group. rewrite Bool.andb_true_iff, not_text by assumption.
  assert (R : match range s ms (m_start g) (m_end g) (fun m => negb (is_language m)) with [] => true | _ => false end = true <->
     forall x, In x ms -> m_start x < m_end g -> m_start g < m_end x -> language x).
  { pose proof (fun x => range_In' s ms (m_start g) (m_end g) (fun m => negb (is_language m)) x Hi Hg) as R. destruct (range _ _ _ _ _) as [|y l].
    - split; [|reflexivity]. intros _ x Hx H1 H2. apply is_language_iff. destruct (is_language x) eqn:E; [reflexivity|]. exfalso. apply (proj2 (R x)). rewrite E. auto.
    - split; [discriminate|]. intros H. exfalso. destruct (proj1 (R y) (or_introl eq_refl)) as (H1 & H2 & H3 & H4). specialize (H y H1 H2 H3). apply is_language_iff in H. rewrite H in H4. discriminate. }
  rewrite R. reflexivity.
Qed.
(** C56: a language that is a common word is dropped, unless its group holds only languages *)
Theorem C56_common_words : forall common s markers ms,
  distinct ms -> nonempty ms -> inside s ms -> inside s markers -> (forall m, In m ms -> whole_groups markers m) ->
  exists keep, RemoveInvalid common s markers ms = filter keep ms /\
    forall m, In m ms -> (keep m = false <->
      language m /\ In (lower (slice (m_raw_start m) (m_raw_end m) s)) common /\ ~ exists g, enclosing markers m g /\ language_group s ms g).
Proof.
  intros common s markers ms Hd Hn Hi Hk Hw. unfold RemoveInvalid.
  set (p := fun m => smem (lower (slice (m_raw_start m) (m_raw_end m) s)) common && negb _).
  destruct (remove_keep (filter p (range s ms 0 (List.length s) is_language)) ms Hd) as (keep & E & K).
  { intros m H. apply filter_In in H as [H _]. apply range_In' in H; [tauto|exact Hi|lia]. }
  exists keep. split; [exact E|]. intros m Hm. rewrite (K m Hm), filter_In, range_In' by (auto; lia). rewrite is_language_iff. unfold p. rewrite Bool.andb_true_iff, smem_In, Bool.negb_true_iff.
  assert (G : match first (filter (has_name (lit "group")) (at_match m markers)) with Some g => m_truthy g && only_languages s ms g | None => false end = true <-> exists g, enclosing markers m g /\ language_group s ms g).
  { destruct (first _) as [g|] eqn:Eg.
    - apply enclosing_iff in Eg; [|apply Hn; exact Hm|apply Hw; exact Hm]. pose proof Eg as (l1 & l2 & El & _ & Cg & _).
      assert (m_end g <= List.length s) as Hg by (apply Hk; rewrite El; apply in_app_iff; right; left; reflexivity).
      rewrite Bool.andb_true_iff, only_languages_iff by assumption. split.
      + intros [_ H]. eauto.
      + intros (g' & Eg' & H). apply enclosing_iff in Eg; [|apply Hn; exact Hm|apply Hw; exact Hm]. apply enclosing_iff in Eg'; [|apply Hn; exact Hm|apply Hw; exact Hm].
        assert (g' = g) by congruence. subst g'. split; [|exact H]. unfold m_truthy. lia.
    - split; [discriminate|]. intros (g & Eg' & _). apply enclosing_iff in Eg'; [congruence|apply Hn; exact Hm|apply Hw; exact Hm]. }
  destruct (match first _ with Some _ => _ | None => _ end) in *; [split; [intros (_ & _ & H); discriminate|intros (_ & _ & H); exfalso; apply H, G; reflexivity]|].
  split.
  - intros ((_ & _ & _ & L) & C & _). split; [exact L|]. split; [exact C|]. intros H. apply G in H. discriminate.
  - intros (L & C & _). pose proof (Hn m Hm). pose proof (Hi m Hm). repeat split; auto; lia.
Qed.
Print Assumptions C56_common_words.
(** example: "it" is a common word: dropped as such, kept in a group of languages *)
Definition lg (a b : nat) (n v : string) : mt := simple a b (lit n) (MvObj (lit v)) [].
Definition cw_s : str := lit "it.x.(it,fr).(it.y)".
Definition cw_groups : list mt := [simple 5 12 (lit "group") (MvStr []) []; simple 13 19 (lit "group") (MvStr []) []].
Definition cw_ms : list mt := [lg 0 2 "language" "ita"; lg 6 8 "language" "ita"; lg 9 11 "language" "fra"; lg 14 16 "language" "ita"].
Example C56_common_example : RemoveInvalid [lit "it"] cw_s cw_groups cw_ms = [lg 6 8 "language" "ita"; lg 9 11 "language" "fra"].
Proof. reflexivity. Qed.
Ltac each := let m := fresh in let H := fresh in intros m H; repeat (destruct H as [<-|H]; [cbn; lia|]); destruct H.
Example C56_common_met : distinct cw_ms /\ nonempty cw_ms /\ inside cw_s cw_ms /\ inside cw_s cw_groups /\ (forall m, In m cw_ms -> whole_groups cw_groups m).
Proof.
  split; [repeat constructor; cbn; intuition discriminate|]. split; [each|]. split; [each|]. split; [each|].
  intros m Hm g Hg _ (i & Hi). revert m Hm Hi. repeat (destruct Hg as [<-|Hg]; [each|]). destruct Hg.
Qed.

(** ** undetermined languages *)
(** C56: an undetermined language next to a language is dropped *)
Theorem C56_undetermined : forall s ms, distinct ms -> nonempty ms -> inside s ms ->
  (forall a b, In a ms -> In b ms -> m_start a = m_start b \/ m_end a = m_end b -> a = b) ->
  exists keep, RemoveUndetermined s ms = filter keep ms /\
    forall m, In m ms -> (keep m = false <->
      language m /\ m_value m = MvObj (lit "und") /\ exists x, m_name x = lit "language" /\ (just_before ms m x \/ just_after ms m x)).
Proof.
  intros s ms Hd Hn Hi Hu. unfold RemoveUndetermined. cbn zeta. set (is_lang := fun o : option mt => match o with Some x => m_truthy x && has_name (lit "language") x | None => false end).
  set (p := fun m => mval_eqb (m_value m) (MvObj (lit "und")) && (is_lang (first (previous m ms (fun _ => true))) || is_lang (first (next m ms (fun _ => true))))).
  destruct (remove_keep (filter p (range s ms 0 (List.length s) is_language)) ms Hd) as (keep & E & K).
  { intros m H. apply filter_In in H as [H _]. apply range_In' in H; [tauto|exact Hi|lia]. }
  exists keep. split; [exact E|]. intros m Hm. rewrite (K m Hm), filter_In, range_In' by (auto; lia). rewrite is_language_iff. unfold p. rewrite Bool.andb_true_iff, mval_eqb_eq, Bool.orb_true_iff.
  assert (P : is_lang (first (previous m ms (fun _ => true))) = true <-> exists x, m_name x = lit "language" /\ just_before ms m x).
  { unfold is_lang. pose proof (previous_In m ms (fun _ => true)) as R. destruct (previous m ms (fun _ => true)) as [|x l]; cbn [first hd_error].
    - split; [discriminate|]. intros (x & _ & J). exfalso. apply (proj2 (R x)). split; [reflexivity|exact J].
    - destruct (proj1 (R x) (or_introl eq_refl)) as (_ & J). rewrite Bool.andb_true_iff, has_name_iff. split; [intros [_ H]; exists x; split; [exact H|exact J]|].
      intros (y & Ny & Jy). destruct J as (J1 & J2 & J3), Jy as (Y1 & Y2 & Y3). assert (x = y) as -> by (apply Hu; auto; right; specialize (J3 y Y1 Y2); specialize (Y3 x J1 J2); lia).
      split; [|exact Ny]. specialize (Hn y Y1). unfold m_truthy; lia. }
  assert (W : forall y, In y ms -> m_start y <= m_end y) by (intros y Hy; specialize (Hn y Hy); lia).
  assert (N : is_lang (first (next m ms (fun _ => true))) = true <-> exists x, m_name x = lit "language" /\ just_after ms m x).
  { unfold is_lang. pose proof (fun x => next_In m ms (fun _ => true) x W) as R. destruct (next m ms (fun _ => true)) as [|x l]; cbn [first hd_error].
    - split; [discriminate|]. intros (x & _ & J). exfalso. apply (proj2 (R x)). split; [reflexivity|exact J].
    - destruct (proj1 (R x) (or_introl eq_refl)) as (_ & J). rewrite Bool.andb_true_iff, has_name_iff. split; [intros [_ H]; exists x; split; [exact H|exact J]|].
      intros (y & Ny & Jy). destruct J as (J1 & J2 & J3), Jy as (Y1 & Y2 & Y3). assert (x = y) as -> by (apply Hu; auto; left; specialize (J3 y Y1 Y2); specialize (Y3 x J1 J2); lia).
      split; [|exact Ny]. specialize (Hn y Y1). unfold m_truthy; lia. }
  rewrite P, N. pose proof (Hn m Hm). pose proof (Hi m Hm). split.
  - intros ((_ & _ & _ & L) & V & [(x & H1 & H2)|(x & H1 & H2)]); (split; [exact L|]; split; [exact V|]); exists x; auto.
  - intros (L & V & x & H1 & [H2|H2]); (split; [split; [exact Hm|]; split; [lia|]; split; [lia|exact L]|]; split; [exact V|]); [left|right]; exists x; auto.
Qed.
Print Assumptions C56_undetermined.
Example C56_und_example : RemoveUndetermined (lit "fr.x.subs.y.und") [lg 0 2 "language" "fra"; lg 5 9 "subtitle_language" "und"; simple 10 11 (lit "part") (MvInt 1) []; lg 12 15 "subtitle_language" "und"]
  = [lg 0 2 "language" "fra"; simple 10 11 (lit "part") (MvInt 1) []; lg 12 15 "subtitle_language" "und"].
Proof. reflexivity. Qed.

(** ** a subtitle file *)
Definition hide_weak (m : mt) : mt :=
  if has_name (lit "subtitle_language") m && has_tag (lit "weak-language") m then set_private m else m.
Lemma hide_key m : mkey (hide_weak m) = mkey m.
Proof. unfold hide_weak. destruct (_ && _); reflexivity. Qed.
Lemma hide_map_key ms : map mkey (map hide_weak ms) = map mkey ms.
Proof. rewrite map_map. apply map_ext. apply hide_key. Qed.
(** C56: when the first subtitle container directly follows a language, this language becomes the subtitle language: the undetermined
    subtitle languages are hidden, the sources overlapping it are dropped *)
Definition subtitle_file (m : mt) : Prop := m_name m = lit "container" /\ In (lit "extension") (m_tags m) /\ In (lit "subtitle") (m_tags m).
Theorem C56_extension : forall ms, distinct ms -> nonempty ms ->
  (forall a b, In a ms -> In b ms -> m_name a = lit "language" -> m_name b = lit "language" -> m_end a = m_end b -> a = b) ->
  (forall e1 e e2 l, ms = e1 ++ e :: e2 -> subtitle_file e -> (forall x, In x e1 -> ~ subtitle_file x) -> just_before ms e l -> m_name l = lit "language" ->
     exists keep, SubtitleExtension ms = filter keep (map hide_weak ms) ++ [set_name l (lit "subtitle_language")] /\
       forall y, In y ms -> (keep (hide_weak y) = false <-> y = l \/ m_name y = lit "source" /\ overlapping l y)) /\
  ((~ exists e1 e e2 l, ms = e1 ++ e :: e2 /\ subtitle_file e /\ (forall x, In x e1 -> ~ subtitle_file x) /\ just_before ms e l /\ m_name l = lit "language") ->
     SubtitleExtension ms = ms).
Proof.
  intros ms Hd Hn Hu.
  assert (F : forall m, (has_name (lit "container") m && (has_tag (lit "extension") m && has_tag (lit "subtitle") m)) = true <-> subtitle_file m).
  { intros m. rewrite !Bool.andb_true_iff, has_name_iff, !has_tag_iff. reflexivity. }
  assert (S : forall m, (has_name (lit "container") m && (has_tag (lit "extension") m && has_tag (lit "subtitle") m)) = false <-> ~ subtitle_file m).
  { intros m. rewrite <- F. destruct (_ && _); split; congruence. }
  unfold SubtitleExtension, named. rewrite filter_filter.
  destruct (first (filter _ ms)) as [e|] eqn:Ef.
  2:{ split; [|reflexivity]. intros e1 e e2 l E He H1. exfalso.
      assert (X : first (filter (fun x => has_name (lit "container") x && (has_tag (lit "extension") x && has_tag (lit "subtitle") x)) ms) = Some e); [|congruence].
      apply first_filter. exists e1, e2. split; [exact E|]. split; [apply F; exact He|]. intros y Hy. apply S, H1, Hy. }
  apply first_filter in Ef as (e1 & e2 & Ems & He & H1). apply F in He.
  assert (H1' : forall x, In x e1 -> ~ subtitle_file x) by (intros x Hx; apply S, H1, Hx). clear H1.
  assert (Hin : In e ms) by (rewrite Ems; apply in_app_iff; right; left; reflexivity).
  assert (Te : m_truthy e = true) by (specialize (Hn e Hin); unfold m_truthy; lia). rewrite Te. cbn [negb].
  pose proof (previous_In e ms (has_name (lit "language"))) as R.
  assert (U : forall e1' e' e2', ms = e1' ++ e' :: e2' -> subtitle_file e' -> (forall x, In x e1' -> ~ subtitle_file x) -> e' = e).
  { intros e1' e' e2' E' He' H1.
    assert (X : first (filter (fun x => has_name (lit "container") x && (has_tag (lit "extension") x && has_tag (lit "subtitle") x)) ms) = Some e').
    { apply first_filter. exists e1', e2'. split; [exact E'|]. split; [apply F; exact He'|]. intros y Hy. apply S, H1, Hy. }
    assert (Y : first (filter (fun x => has_name (lit "container") x && (has_tag (lit "extension") x && has_tag (lit "subtitle") x)) ms) = Some e).
    { apply first_filter. exists e1, e2. split; [exact Ems|]. split; [apply F; exact He|]. intros y Hy. apply S, H1', Hy. }
    congruence. }
  destruct (previous e ms (has_name (lit "language"))) as [|l r]; cbn [first hd_error].
  { split; [|reflexivity]. intros e1' e' e2' l E' He' H1 J Nl. exfalso. rewrite (U e1' e' e2' E' He' H1) in J. apply (proj2 (R l)). split; [apply has_name_iff; exact Nl|exact J]. }
  destruct (proj1 (R l) (or_introl eq_refl)) as (Nl & Jl). apply has_name_iff in Nl.
  assert (Tl : m_truthy l = true) by (specialize (Hn l (proj1 Jl)); unfold m_truthy; lia). rewrite Tl. cbn [negb].
  split; [|intros N; exfalso; apply N; exists e1, e, e2, l; auto].
  intros e1' e' e2' l' E' He' H1 J Nl'. rewrite (U e1' e' e2' E' He' H1) in J. clear E' H1 He' e1' e' e2'.
  assert (l' = l) as ->.
  { apply Hu; [exact (proj1 J)|exact (proj1 Jl)|exact Nl'|exact Nl|]. destruct J as (J1 & J2 & J3), Jl as (K1 & K2 & K3). specialize (J3 l K1 K2). specialize (K3 l' J1 J2). lia. }
  change (map (fun m => if has_name (lit "subtitle_language") m && has_tag (lit "weak-language") m then set_private m else m) ms) with (map hide_weak ms).
  set (ms' := map hide_weak ms) in *. assert (Hd' : distinct ms') by (unfold distinct, ms'; rewrite hide_map_key; exact Hd).
  assert (Hl : In l ms').
  { unfold ms'. apply in_map_iff. exists l. split; [|exact (proj1 Jl)]. unfold hide_weak. destruct (has_name (lit "subtitle_language") l) eqn:X; [|reflexivity]. apply has_name_iff in X. rewrite Nl in X. discriminate X. }
  assert (Ps : has_name (lit "source") l = false).
  { destruct (has_name (lit "source") l) eqn:X; [|reflexivity]. apply has_name_iff in X. rewrite Nl in X. discriminate X. }
  assert (Cf : forall y, In y (conflicting l ms' (has_name (lit "source"))) <-> In y ms' /\ m_name y = lit "source" /\ overlapping l y).
  { intros y. rewrite conflicting_In by assumption. rewrite has_name_iff. reflexivity. }
  rewrite remove_all_filter by exact Hd'.
  rewrite rename_all_eq.
  - rewrite filter_filter. eexists. split; [reflexivity|]. intros y Hy.
    assert (Hy' : In (hide_weak y) ms') by (apply in_map; exact Hy).
    rewrite Bool.andb_false_iff, !Bool.negb_false_iff, !mmem_iff. split.
    + intros [(x & Hx & Ex)|(x & [<-|[]] & Ex)].
      * right. apply Cf in Hx as (Hx & N & O). rewrite hide_key in Ex. unfold mkey in Ex. injection Ex as E1 E2 E3 E4 E5. split; [congruence|]. unfold overlapping in *. rewrite <- E1, <- E2. exact O.
      * left. rewrite hide_key in Ex. symmetry. apply (distinct_inj ms); auto. exact (proj1 Jl).
    + intros [->|[N O]].
      * right. exists l. split; [left; reflexivity|]. rewrite hide_key. reflexivity.
      * left. exists (hide_weak y). split; [|reflexivity]. apply Cf. split; [exact Hy'|]. assert (Ek := hide_key y). unfold mkey in Ek. injection Ek as E1 E2 E3 E4 E5. split; [congruence|]. unfold overlapping in *. rewrite E1, E2. exact O.
  - apply distinct_filter. exact Hd'.
  - repeat constructor. intros [].
  - intros m [<-|[]]. apply filter_In. split; [exact Hl|]. apply Bool.negb_true_iff, mmem_false. intros x Hx E. apply Cf in Hx as (_ & N & _). unfold mkey in E. injection E as _ _ E _ _. rewrite Nl, N in E. discriminate E.
  - intros m [<-|[]]. rewrite Nl. discriminate.
Qed.
Print Assumptions C56_extension.
Example C56_extension_example :
  let sub := simple 10 13 (lit "container") (MvStr (lit "srt")) [lit "extension"; lit "subtitle"] in
  let weak := simple 2 5 (lit "subtitle_language") (MvObj (lit "und")) [lit "weak-language"] in
  SubtitleExtension [weak; lg 7 9 "language" "fra"; simple 7 9 (lit "source") (MvStr (lit "Web")) []; sub] = [set_private weak; sub; lg 7 9 "subtitle_language" "fra"].
Proof. reflexivity. Qed.

(** ** prefixes and suffixes *)
Lemma remove1_app_l x a b : (forall y, In y b -> mkey y <> mkey x) -> remove1 x (a ++ b) = remove1 x a ++ b.
Proof.
  intros H. induction a as [|y a IH]; cbn [app remove1].
  - induction b as [|z b IH]; [reflexivity|]. cbn [remove1]. destruct (mt_eqb x z) eqn:E; [apply mt_eqb_eq in E; exfalso; apply (H z); [left; reflexivity|congruence]|]. f_equal. apply IH. intros y Hy; apply H; right; exact Hy.
  - destruct (mt_eqb x y); [reflexivity|]. cbn [app]. f_equal. exact IH.
Qed.
Lemma merge_distinct a b : distinct a -> distinct (merge_new a b).
Proof.
  unfold merge_new. revert a. induction b as [|m b IH]; intros a Ha; cbn [fold_left]; [exact Ha|]. apply IH. destruct (mmem m a) eqn:E; [exact Ha|].
  unfold distinct. rewrite map_app. cbn [map]. apply NoDup_Add with (a := mkey m) (l := map mkey a); [|split; [exact Ha|]].
  - rewrite <- (app_nil_r (map mkey a)) at 1. apply Add_app.
  - intros H. apply in_map_iff in H as (x & Ex & Hx). rewrite mmem_false in E. exact (E x Hx Ex).
Qed.
Lemma conflicting_all m ms x : distinct ms -> In m ms -> m_start m < m_end m ->
  In x (conflicting m ms (fun _ => true)) <-> In x ms /\ x <> m /\ overlapping m x.
Proof.
  intros Hd Hm Hlt. unfold conflicting. rewrite filter_In.
  set (all := fold_left _ _ _).
  assert (Dall : distinct all).
  { unfold all. assert (G : forall l acc, distinct acc -> distinct (fold_left (fun acc i => merge_new acc (at_index i ms)) l acc)).
    { induction l as [|i l IH]; intros acc Ha; cbn [fold_left]; [exact Ha|]. apply IH, merge_distinct, Ha. }
    apply G. constructor. }
  assert (A : In x all <-> In x ms /\ overlapping m x).
  { split.
    - intros H. assert (Hx : In x ms) by (destruct (conflict_sub _ _ _ _ H) as [[]|]; auto). split; [exact Hx|].
      assert (K : exists y, In y all /\ mkey y = mkey x) by (exists x; auto). apply conflict_fold in K as [(y & [] & _)|(y & i & Hi & Hy & C & E)].
      apply in_seq in Hi. unfold covers in C. exists i. unfold mkey in E. injection E as E1 E2 _ _ _. lia.
    - intros [Hx (i & Hi & C)]. assert (K : exists y, In y all /\ mkey y = mkey x).
      { apply conflict_fold. right. exists x, i. split; [apply in_seq; lia|]. split; [exact Hx|]. unfold covers. split; [lia|reflexivity]. }
      destruct K as (y & Hy & E). replace x with y; [exact Hy|]. apply (distinct_inj ms); auto. destruct (conflict_sub _ _ _ _ Hy) as [[]|]; auto. }
  assert (RM : forall l, (fix rm (l : list mt) : list mt := match l with [] => [] | x :: r => if mt_eqb m x then r else x :: rm r end) l = remove1 m l).
  { induction l as [|z l IH]; [reflexivity|]. cbn [remove1]. rewrite <- IH. reflexivity. }
  rewrite RM.
  rewrite remove1_filter by exact Dall. rewrite filter_In, A, Bool.negb_true_iff. split.
  - intros [[[H1 H2] H3] _]. split; [exact H1|]. split; [|exact H2]. intros ->. rewrite mt_eqb_refl in H3. discriminate.
  - intros (H1 & H2 & H3). split; [|reflexivity]. split; [auto|]. destruct (mt_eqb m x) eqn:E; [|reflexivity]. exfalso. apply H2. apply mt_eqb_eq in E. apply (distinct_inj ms); auto.
Qed.

(** the part common to both rules: the list of languages to convert *)
Definition subtitle (l : mt) : mt := set_name l (lit "subtitle_language").
Lemma fold_convert (f : mt -> option mt) : forall rn F R,
  distinct F -> (forall y, In y R -> m_name y = lit "subtitle_language") -> distinct rn ->
  (forall l, In l rn -> In l F /\ m_name l = lit "language") ->
  foldM (fun ms l => to_subtitle (match f l with Some p => remove1 (set_name p (lit "subtitle_language.suffix")) ms | None => ms end) l) rn (F ++ R) =
  Ok (filter (fun y => negb (mmem y rn) && negb (existsb (fun l => match f l with Some p => mt_eqb (set_name p (lit "subtitle_language.suffix")) y | None => false end) rn)) F ++ R ++ map subtitle rn).
Proof.
  induction rn as [|l rn IH]; intros F R HF HR Hd Hin; cbn [foldM].
  - cbn [map]. rewrite app_nil_r. f_equal. f_equal. symmetry. apply filter_id. reflexivity.
  - destruct (Hin l (or_introl eq_refl)) as [Hl Nl]. inversion Hd as [|? ? Hnl Hd']; subst.
    set (tw := fun y => match f l with Some p => mt_eqb (set_name p (lit "subtitle_language.suffix")) y | None => false end).
    assert (E1 : match f l with Some p => remove1 (set_name p (lit "subtitle_language.suffix")) (F ++ R) | None => F ++ R end = filter (fun y => negb (tw y)) F ++ R).
    { unfold tw. destruct (f l) as [p|].
      - rewrite remove1_app_l; [rewrite remove1_filter by exact HF; reflexivity|]. intros y Hy E. apply HR in Hy. unfold mkey in E. cbn in E. injection E as _ _ E _ _. rewrite Hy in E. discriminate E.
      - cbn [negb]. rewrite filter_id by reflexivity. reflexivity. }
    rewrite E1. unfold to_subtitle at 1.
    assert (Tl : forall z, In z (l :: rn) -> tw z = false).
    { intros z Hz. unfold tw. destruct (f l) as [p|]; [|reflexivity]. destruct (mt_eqb _ z) eqn:E; [|reflexivity]. exfalso. apply mt_eqb_eq in E. unfold mkey in E. cbn in E. injection E as _ _ E _ _.
      destruct (Hin z Hz) as [_ Nz]. rewrite Nz in E. discriminate E. }
    rewrite mmem_In by (apply in_app_iff; left; apply filter_In; split; [exact Hl|rewrite (Tl l (or_introl eq_refl)); reflexivity]). cbn [bind].
    rewrite remove1_app_l; [|intros y Hy E; apply HR in Hy; unfold mkey in E; injection E as _ _ E _ _; rewrite Hy, Nl in E; discriminate E].
    rewrite remove1_filter by (apply distinct_filter; exact HF). rewrite filter_filter, <- app_assoc, IH.
    + f_equal. rewrite <- app_assoc. f_equal. rewrite filter_filter. apply filter_ext_In. intros y _. unfold mmem. cbn [existsb]. fold (tw y).
      assert (mt_eqb l y = mt_eqb y l) as ->; [|destruct (tw y), (mt_eqb y l), (existsb (mt_eqb y) rn), (existsb _ rn); reflexivity].
      apply Bool.eq_iff_eq_true. rewrite !mt_eqb_eq. intuition congruence.
    + apply distinct_filter. exact HF.
    + intros y Hy. apply in_app_iff in Hy as [Hy|[<-|[]]]; [auto|reflexivity].
    + exact Hd'.
    + intros z Hz. destruct (Hin z (or_intror Hz)) as [H1 H2]. split; [|exact H2]. apply filter_In. split; [exact H1|]. rewrite (Tl z (or_intror Hz)). cbn [negb andb].
      destruct (mt_eqb l z) eqn:E; [|reflexivity]. exfalso. apply Hnl. apply mt_eqb_eq in E. rewrite E. apply in_map, Hz.
Qed.

(** C56: a language directly followed by a suffix of subtitles becomes a subtitle language *)
Definition suffixed (ms : list mt) (l p : mt) : Prop := just_after ms l p /\ m_name p = lit "subtitle_language.suffix".
Lemma suffix_of_spec ms l : nonempty ms ->
  match suffix_of ms l with Some p => suffixed ms l p | None => ~ exists p, suffixed ms l p end.
Proof.
  intros Hn. assert (W : forall y, In y ms -> m_start y <= m_end y) by (intros y Hy; specialize (Hn y Hy); lia).
  unfold suffix_of. pose proof (fun x => next_In l ms (has_name (lit "subtitle_language.suffix")) x W) as R. destruct (next l ms _) as [|p r]; cbn [first hd_error].
  - intros (p & J & N). apply (proj2 (R p)). split; [apply has_name_iff; exact N|exact J].
  - destruct (proj1 (R p) (or_introl eq_refl)) as (N & J). apply has_name_iff in N. split; assumption.
Qed.
Theorem C56_suffix : forall ms, distinct ms -> nonempty ms ->
  exists out, SubtitleSuffix ms = Ok out /\
    (forall y, m_name y <> lit "subtitle_language.suffix" ->
       (In y out <-> In y ms /\ ~ (m_name y = lit "language" /\ exists p, suffixed ms y p) \/
                     exists l p, In l ms /\ m_name l = lit "language" /\ suffixed ms l p /\ y = subtitle l)) /\
    (forall p, In p out -> m_name p = lit "subtitle_language.suffix" -> exists l, In l ms /\ m_name l = lit "language" /\ suffixed ms l p) /\
    (forall l, In l ms -> m_name l = lit "language" -> (exists p, suffixed ms l p) -> exists p, In p out /\ suffixed ms l p).
Proof.
  intros ms Hd Hn. unfold SubtitleSuffix.
  set (has := fun l => match suffix_of ms l with Some _ => true | None => false end).
  set (used := fun ls p => existsb (fun l => match suffix_of ms l with Some q => mt_eqb q p | None => false end) ls).
  assert (W : forall ls rn P, distinct P -> fold_left (suffix_step ms) ls (rn, P) = (rn ++ filter has ls, filter (fun p => negb (used ls p)) P)).
  { induction ls as [|l ls IH]; intros rn P HP; cbn [fold_left filter].
    - rewrite app_nil_r, filter_id by reflexivity. reflexivity.
    - unfold suffix_step at 2, has at 1. cbn [fst snd]. unfold used. cbn [existsb]. destruct (suffix_of ms l) as [q|].
      + rewrite remove1_filter by exact HP. rewrite IH by (apply distinct_filter; exact HP). rewrite <- app_assoc. cbn [app]. f_equal. rewrite filter_filter. apply filter_ext_In. intros y _. rewrite Bool.negb_orb. reflexivity.
      + rewrite IH by exact HP. reflexivity. }
  rewrite W by (apply distinct_filter; exact Hd). cbn [fst snd app].
  set (L := named (lit "language") ms). set (P := filter (fun p => negb (used L p)) (named (lit "subtitle_language.suffix") ms)).
  assert (SP : forall p, In p P -> In p ms) by (intros p Hp; apply filter_In in Hp as [Hp _]; apply named_In in Hp; tauto).
  rewrite remove_all_filter by exact Hd. set (F := filter (fun x => negb (mmem x P)) ms).
  assert (HF : distinct F) by (apply distinct_filter; exact Hd).
  assert (FI : forall y, In y F <-> In y ms /\ ~ In y P).
  { intros y. unfold F. rewrite filter_In, Bool.negb_true_iff, mmem_false. split; intros [H1 H2]; (split; [exact H1|]); [intros H; exact (H2 y H eq_refl)|].
    intros x Hx E. apply H2. replace y with x; [exact Hx|]. apply (distinct_inj ms); auto. }
  assert (PI : forall p, In p P <-> In p ms /\ m_name p = lit "subtitle_language.suffix" /\ used L p = false).
  { intros p. unfold P. rewrite filter_In, named_In, Bool.negb_true_iff. tauto. }
  assert (Hin : forall l, In l (filter has L) -> In l F /\ m_name l = lit "language").
  { intros l Hl. apply filter_In in Hl as [Hl _]. apply named_In in Hl as [Hl Nl]. split; [|exact Nl]. apply FI. split; [exact Hl|]. intros Hp. apply PI in Hp as (_ & N & _). rewrite Nl in N. discriminate N. }
  pose proof (fold_convert (fun _ => None) (filter has L) F [] HF (fun y H => match H with end) (distinct_filter _ _ (distinct_filter _ _ Hd)) Hin) as C.
  rewrite app_nil_r in C. cbn [app] in C.
  assert (E : foldM to_subtitle (filter has L) F = foldM (fun ms l => to_subtitle ms l) (filter has L) F) by reflexivity. rewrite E, C. clear C E.
  eexists. split; [reflexivity|].
  assert (HasI : forall l, In l (filter has L) <-> In l ms /\ m_name l = lit "language" /\ exists p, suffixed ms l p).
  { intros l. unfold L. rewrite filter_In, named_In. unfold has. pose proof (suffix_of_spec ms l Hn) as S. destruct (suffix_of ms l) as [p|]; [|intuition discriminate].
    split; [intros [[H1 H2] _]; eauto|]. intros (H1 & H2 & _); auto. }
  assert (O : forall y, In y (filter (fun y => negb (mmem y (filter has L)) && negb (existsb (fun _ => false) (filter has L))) F ++ map subtitle (filter has L)) <->
     In y F /\ ~ In y (filter has L) \/ exists l, In l (filter has L) /\ y = subtitle l).
  { intros y. rewrite in_app_iff, filter_In, in_map_iff, Bool.andb_true_iff, !Bool.negb_true_iff.
    assert (X : existsb (fun _ : mt => false) (filter has L) = false) by (clear; generalize (filter has L); intros k; induction k as [|z k IH]; [reflexivity|exact IH]).
    assert (M : In y F -> mmem y (filter has L) = false <-> ~ In y (filter has L)).
    { intros Hy. rewrite mmem_false. split; [intros H H'; exact (H y H' eq_refl)|]. intros H x Hx Ex. apply H. replace y with x; [exact Hx|]. apply (distinct_inj F); auto. apply Hin, Hx. }
    split.
    - intros [[H1 [H2 _]]|(l & <- & Hl)]; [left; split; [exact H1|apply M; auto]|right; eauto].
    - intros [[H1 H2]|(l & Hl & ->)]; [left; split; [exact H1|]; split; [apply M; auto|exact X]|right; eauto]. }
  split; [|split].
  - intros y Ny. rewrite O, FI, HasI. split.
    + intros [[[H1 _] H2]|(l & Hl & ->)]; [left; split; [exact H1|]; intros [H3 H4]; apply H2; auto|]. right. apply HasI in Hl as (H1 & H2 & p & H3). eauto 8.
    + intros [[H1 H2]|(l & p & H1 & H2 & H3 & ->)].
      * left. split; [split; [exact H1|]; rewrite PI; tauto|]. tauto.
      * right. exists l. split; [apply HasI; eauto|reflexivity].
  - intros p Hp Np. apply O in Hp as [[Hp _]|(l & _ & ->)]; [|discriminate Np]. apply FI in Hp as [Hp Hnp].
    assert (U : used L p = true) by (destruct (used L p) eqn:U; [reflexivity|]; exfalso; apply Hnp, PI; auto).
    unfold used in U. apply existsb_exists in U as (l & Hl & U). pose proof (suffix_of_spec ms l Hn) as S. destruct (suffix_of ms l) as [q|]; [|discriminate]. apply mt_eqb_eq in U.
    assert (q = p) as -> by (apply (distinct_inj ms); auto; apply (proj1 (proj1 S))). apply named_In in Hl as [H1 H2]. eauto.
  - intros l Hl Nl (p & Hp). pose proof (suffix_of_spec ms l Hn) as S. destruct (suffix_of ms l) as [q|] eqn:Eq; [|exfalso; eauto]. exists q. split; [|exact S].
    assert (In q ms) as Hq by apply (proj1 (proj1 S)). destruct S as [_ Nq]. apply O. left. split.
    + apply FI. split; [exact Hq|]. rewrite PI. intros (_ & _ & U). unfold used in U. rewrite <- Bool.not_true_iff_false in U. apply U. apply existsb_exists. exists l. split; [apply named_In; auto|]. rewrite Eq. apply mt_eqb_refl.
    + rewrite HasI. intros (_ & N & _). rewrite Nq in N. discriminate N.
Qed.
Print Assumptions C56_suffix.
Example C56_suffix_example :
  let sf a b := simple a b (lit "subtitle_language.suffix") (MvStr (lit "subs")) [] in
  SubtitleSuffix [lg 0 2 "language" "eng"; lg 3 5 "language" "fra"; sf 6 10; sf 11 15] = Ok [lg 0 2 "language" "eng"; sf 6 10; lg 3 5 "subtitle_language" "fra"].
Proof. reflexivity. Qed.

(** a prefix of subtitles announces a language: it is directly before it, or directly before its group, or before it in its group *)
Definition announces (s : str) (markers ms : list mt) (l p : mt) : Prop :=
  m_name p = lit "subtitle_language.prefix" /\
  (just_before ms l p \/ exists g, enclosing markers l g /\ (just_before ms g p \/ In p ms /\ m_start p < m_start l /\ m_start g < m_end p)).
Lemma prefix_of_spec s markers ms l : nonempty ms -> inside s ms -> inside s markers -> In l ms -> whole_groups markers l ->
  match prefix_of s markers ms l with Some p => In p ms /\ announces s markers ms l p | None => ~ exists p, announces s markers ms l p end.
Proof.
  intros Hn Hi Hk Hl Hw. unfold prefix_of, announces.
  assert (Pr : forall g, match first (previous g ms is_prefix) with Some p => just_before ms g p /\ m_name p = lit "subtitle_language.prefix" | None => ~ exists p, just_before ms g p /\ m_name p = lit "subtitle_language.prefix" end).
  { intros g. pose proof (previous_In g ms is_prefix) as R. destruct (previous g ms is_prefix) as [|p r]; cbn [first hd_error].
    - intros (p & J & N). apply (proj2 (R p)). split; [apply has_name_iff; exact N|exact J].
    - destruct (proj1 (R p) (or_introl eq_refl)) as (N & J). apply has_name_iff in N. split; assumption. }
  pose proof (Pr l) as P1. destruct (first (previous l ms is_prefix)) as [p|].
  { destruct P1 as [J N]. split; [exact (proj1 J)|]. auto. }
  pose proof (enclosing_iff markers l) as EI. specialize (EI) . destruct (first (filter (has_name (lit "group")) (at_match l markers))) as [g|] eqn:Eg.
  2:{ intros (p & N & [J|(g & Eg' & _)]); [apply P1; eauto|]. apply EI in Eg'; [discriminate|apply Hn; exact Hl|exact Hw]. }
  assert (En : enclosing markers l g) by (apply EI; [apply Hn; exact Hl|exact Hw|reflexivity]). pose proof En as (l1 & l2 & Em & _ & Cg & _).
  assert (Tg : m_truthy g = true) by (unfold m_truthy; lia). rewrite Tg.
  pose proof (Pr g) as P2. destruct (first (previous g ms is_prefix)) as [p|].
  { destruct P2 as [J N]. split; [exact (proj1 J)|]. split; [exact N|]. right. eauto. }
  assert (Hb : m_start l <= List.length s) by (specialize (Hi l Hl); lia).
  pose proof (range_first s ms (m_start g) (m_start l) is_prefix Hi Hb) as R. destruct (first (range s ms (m_start g) (m_start l) is_prefix)) as [p|].
  { destruct R as [(H1 & H2 & H3 & H4) _]. apply has_name_iff in H4. split; [exact H1|]. split; [exact H4|]. right. exists g. split; [exact En|]. auto. }
  intros (p & N & [J|(g' & Eg' & J)]); [apply P1; eauto|]. apply EI in Eg'; [|apply Hn; exact Hl|exact Hw]. injection Eg' as <-. destruct J as [J|(H1 & H2 & H3)]; [apply P2; eauto|].
  specialize (R p H1 H2 H3). apply has_name_iff in N. unfold is_prefix in R. congruence.
Qed.
(** C56: an announced language becomes a subtitle language; the matches overlapping it, the prefixes that announce nothing and the suffixes
    that were found at the place of an announcing prefix are dropped; nothing else changes *)
Theorem C56_prefix : forall s markers ms,
  distinct ms -> nonempty ms -> inside s ms -> inside s markers -> (forall l, In l ms -> whole_groups markers l) ->
  (forall l x, In l ms -> In x ms -> m_name l = lit "language" -> m_name x = lit "language" \/ m_name x = lit "subtitle_language.prefix" -> overlapping l x -> x = l) ->
  exists out, SubtitlePrefix s markers ms = Ok out /\
    (forall y, m_name y <> lit "subtitle_language.prefix" -> m_name y <> lit "subtitle_language.suffix" ->
       (In y out <->
        In y ms /\ ~ (m_name y = lit "language" /\ exists p, announces s markers ms y p) /\
          ~ (exists l p, In l ms /\ m_name l = lit "language" /\ announces s markers ms l p /\ overlapping l y /\ y <> l) \/
        exists l p, In l ms /\ m_name l = lit "language" /\ announces s markers ms l p /\ y = subtitle l)) /\
    (forall p, In p out -> m_name p = lit "subtitle_language.prefix" -> exists l, In l ms /\ m_name l = lit "language" /\ announces s markers ms l p) /\
    (forall l, In l ms -> m_name l = lit "language" -> (exists p, announces s markers ms l p) -> exists p, In p out /\ announces s markers ms l p) /\
    (forall y, m_name y = lit "subtitle_language.suffix" -> In y ms ->
       (In y out \/ exists l p, In l ms /\ m_name l = lit "language" /\ announces s markers ms l p /\
                       (overlapping l y \/ m_start y = m_start p /\ m_end y = m_end p /\ m_value y = m_value p))).
Proof.
  intros s markers ms Hd Hn Hi Hk Hw Hno. unfold SubtitlePrefix, prefix_when.
  set (pf := prefix_of s markers ms). set (has := fun l => match pf l with Some _ => true | None => false end).
  set (used := fun ls p => existsb (fun l => match pf l with Some q => mt_eqb q p | None => false end) ls).
  set (cf := fun l => conflicting l ms (fun _ => true)).
  set (L := named (lit "language") ms).
  assert (LI : forall l, In l L <-> In l ms /\ m_name l = lit "language") by (intros l; apply named_In).
  assert (PF : forall l, In l L -> match pf l with Some p => In p ms /\ announces s markers ms l p | None => ~ exists p, announces s markers ms l p end).
  { intros l Hl. apply LI in Hl as [Hl _]. apply prefix_of_spec; auto. }
  assert (CF : forall l x, In l L -> In x (cf l) <-> In x ms /\ x <> l /\ overlapping l x).
  { intros l x Hl. apply LI in Hl as [Hl _]. apply conflicting_all; auto. }
  assert (W : forall ls rn P C, (forall l, In l ls -> In l L) -> distinct P -> (forall x, In x C -> m_name x <> lit "subtitle_language.prefix") ->
     fold_left (prefix_step s markers ms) ls (rn, P ++ C) =
     (rn ++ map (fun l => (match pf l with Some p => p | None => l end, l)) (filter has ls), filter (fun p => negb (used ls p)) P ++ C ++ flat_map cf (filter has ls))).
  { induction ls as [|l ls IH]; intros rn P C Hls HP HC; cbn [fold_left filter].
    - cbn [map flat_map]. rewrite !app_nil_r, filter_id by reflexivity. reflexivity.
    - unfold prefix_step at 2. cbn [fst snd]. unfold used. cbn [existsb]. fold pf. pose proof (PF l (Hls l (or_introl eq_refl))) as Pl. destruct (pf l) as [q|] eqn:Eq.
      + assert (Hh : has l = true) by (unfold has; rewrite Eq; reflexivity). rewrite Hh. rewrite <- app_assoc. rewrite remove1_app_l.
        2:{ intros y Hy E. assert (Ny : m_name y = lit "subtitle_language.prefix") by (unfold mkey in E; injection E as _ _ -> _ _; apply Pl).
            apply in_app_iff in Hy as [Hy|Hy]; [exact (HC y Hy Ny)|]. pose proof (Hls l (or_introl eq_refl)) as HlL. fold (cf l) in Hy. apply (CF l y HlL) in Hy as (H1 & H2 & H3). apply H2. apply LI in HlL as [H4 H5]. apply Hno; auto. }
        rewrite remove1_filter by exact HP. fold (cf l). rewrite IH.
        * cbn [map flat_map]. rewrite Eq. rewrite <- !app_assoc. cbn [app]. apply (f_equal2 pair); [reflexivity|]. apply (f_equal2 (@app mt)); [|reflexivity]. rewrite filter_filter. apply filter_ext_In. intros y _. unfold used. rewrite Bool.negb_orb. reflexivity.
        * intros z Hz. apply Hls. right; exact Hz.
        * apply distinct_filter. exact HP.
        * intros x Hx. apply in_app_iff in Hx as [Hx|Hx]; [apply HC, Hx|]. pose proof (Hls l (or_introl eq_refl)) as HlL. apply (CF l x HlL) in Hx as (H1 & H2 & H3). intros Nx. apply H2. apply LI in HlL as [H4 H5]. apply Hno; auto.
      + assert (Hh : has l = false) by (unfold has; rewrite Eq; reflexivity). rewrite Hh. rewrite IH; auto. intros z Hz. apply Hls. right; exact Hz. }
  specialize (W L [] (named (lit "subtitle_language.prefix") ms) [] (fun l H => H) (distinct_filter _ _ Hd) (fun x H => match H with end)).
  rewrite app_nil_r in W. cbn [app] in W. fold L. rewrite W. clear W. cbn [fst snd].
  set (P := filter (fun p => negb (used L p)) (named (lit "subtitle_language.prefix") ms)). set (K := filter has L).
  assert (PI : forall p, In p P <-> In p ms /\ m_name p = lit "subtitle_language.prefix" /\ used L p = false).
  { intros p. unfold P. rewrite filter_In, named_In, Bool.negb_true_iff. tauto. }
  assert (KI : forall l, In l K <-> In l ms /\ m_name l = lit "language" /\ exists p, announces s markers ms l p).
  { intros l. unfold K. rewrite filter_In. unfold has. split.
    - intros [Hl Hh]. pose proof (PF l Hl) as Pl. apply LI in Hl as [H1 H2]. destruct (pf l) as [p|]; [|discriminate]. destruct Pl; eauto.
    - intros (H1 & H2 & H3). assert (Hl : In l L) by (apply LI; auto). split; [exact Hl|]. pose proof (PF l Hl) as Pl. destruct (pf l); [reflexivity|contradiction]. }
  assert (KL : forall l, In l K -> In l L) by (intros l Hl; apply filter_In in Hl; tauto).
  assert (XI : forall x, In x (P ++ flat_map cf K) -> In x ms).
  { intros x Hx. apply in_app_iff in Hx as [Hx|Hx]; [apply PI in Hx; tauto|]. apply in_flat_map in Hx as (l & Hl & Hx). apply (CF l x (KL l Hl)) in Hx. tauto. }
  rewrite remove_all_filter by exact Hd. set (F := filter _ ms).
  assert (FI : forall y, In y F <-> In y ms /\ ~ In y P /\ ~ exists l, In l K /\ overlapping l y /\ y <> l).
  { intros y. unfold F. rewrite filter_In, Bool.negb_true_iff, mmem_false. split; intros [H1 H2]; (split; [exact H1|]).
    - split; [intros H; apply (H2 y); [apply in_app_iff; auto|reflexivity]|]. intros (l & Hl & O & N). apply (H2 y); [|reflexivity]. apply in_app_iff. right. apply in_flat_map. exists l. split; [exact Hl|]. apply (CF l y (KL l Hl)). auto.
    - intros x Hx E. assert (x = y) by (apply (distinct_inj ms); auto). subst x. apply in_app_iff in Hx as [Hx|Hx]; [tauto|]. apply in_flat_map in Hx as (l & Hl & Hx). apply (CF l y (KL l Hl)) in Hx. apply H2. exists l. tauto. }
  assert (HF : distinct F) by (apply distinct_filter; exact Hd).
  assert (Hin : forall l, In l K -> In l F /\ m_name l = lit "language").
  { intros l Hl. pose proof (proj1 (KI l) Hl) as (H1 & H2 & _). split; [|exact H2]. apply FI. split; [exact H1|]. split; [rewrite PI; intros (_ & N & _); rewrite H2 in N; discriminate N|].
    intros (l' & Hl' & O & N). apply N. apply KI in Hl' as (H3 & H4 & _). apply Hno; auto. }
  assert (M : forall rn ms0, (forall l, In l rn -> In l K) ->
     foldM (fun ms pl => to_subtitle (remove1 (set_name (fst pl) (lit "subtitle_language.suffix")) ms) (snd pl)) (map (fun l => (match pf l with Some p => p | None => l end, l)) rn) ms0 =
     foldM (fun ms l => to_subtitle (match pf l with Some p => remove1 (set_name p (lit "subtitle_language.suffix")) ms | None => ms end) l) rn ms0).
  { induction rn as [|l rn IH]; intros ms0 Hr; [reflexivity|]. cbn [map foldM fst snd]. assert (Hl : In l K) by (apply Hr; left; reflexivity). unfold K in Hl. apply filter_In in Hl as [_ Hl]. unfold has in Hl.
    destruct (pf l) as [p|]; [|discriminate]. destruct (to_subtitle _ l); cbn [bind]; [|reflexivity]. apply IH. intros z Hz; apply Hr; right; exact Hz. }
  rewrite M by auto. clear M.
  pose proof (fold_convert pf K F [] HF (fun y H => match H with end) (distinct_filter _ _ (distinct_filter _ _ Hd)) Hin) as C.
  rewrite app_nil_r in C. cbn [app] in C. rewrite C. clear C. eexists. split; [reflexivity|].
  set (tw := fun y => existsb (fun l => match pf l with Some p => mt_eqb (set_name p (lit "subtitle_language.suffix")) y | None => false end) K).
  change (fun y => negb (mmem y K) && negb (existsb (fun l => match pf l with Some p => mt_eqb (set_name p (lit "subtitle_language.suffix")) y | None => false end) K)) with (fun y => negb (mmem y K) && negb (tw y)).
  assert (O : forall y, In y (filter (fun y => negb (mmem y K) && negb (tw y)) F ++ map subtitle K) <->
     In y F /\ ~ In y K /\ tw y = false \/ exists l, In l K /\ y = subtitle l).
  { intros y. rewrite in_app_iff, filter_In, in_map_iff, Bool.andb_true_iff, !Bool.negb_true_iff.
    assert (Mm : In y F -> mmem y K = false <-> ~ In y K).
    { intros Hy. rewrite mmem_false. split; [intros H H'; exact (H y H' eq_refl)|]. intros H x Hx Ex. apply H. replace y with x; [exact Hx|]. apply (distinct_inj F); auto. apply Hin, Hx. }
    split.
    - intros [[H1 [H2 H3]]|(l & <- & Hl)]; [left; split; [exact H1|split; [apply Mm; auto|exact H3]]|right; eauto].
    - intros [[H1 [H2 H3]]|(l & Hl & ->)]; [left; split; [exact H1|]; split; [apply Mm; auto|exact H3]|right; eauto]. }
  assert (TW : forall y, tw y = true -> m_name y = lit "subtitle_language.suffix" /\ exists l p, In l K /\ announces s markers ms l p /\ m_start y = m_start p /\ m_end y = m_end p /\ m_value y = m_value p).
  { intros y H. unfold tw in H. apply existsb_exists in H as (l & Hl & H). pose proof (PF l (KL l Hl)) as Pl. destruct (pf l) as [p|]; [|discriminate]. apply mt_eqb_eq in H. unfold mkey in H; cbn in H. injection H as E1 E2 E3 E4 E5.
    split; [auto|]. exists l, p. destruct Pl as [_ Pl]. auto. }
  split; [|split; [|split]].
  - intros y N1 N2. rewrite O, FI, KI. assert (T : tw y = false) by (destruct (tw y) eqn:T; [apply TW in T; tauto|reflexivity]). split.
    + intros [((H1 & _ & H2) & H3 & _)|(l & Hl & ->)].
      * left. split; [exact H1|]. split; [intros [H4 H5]; apply H3; auto|]. intros (l & p & H4 & H5 & H6 & H7 & H8). apply H2. exists l. split; [apply KI; eauto|auto].
      * right. apply KI in Hl as (H1 & H2 & p & H3). eauto 8.
    + intros [(H1 & H2 & H3)|(l & p & H1 & H2 & H3 & ->)].
      * left. split; [split; [exact H1|]; split; [rewrite PI; tauto|]|split; [tauto|exact T]]. intros (l & Hl & H4 & H5). apply KI in Hl as (H6 & H7 & p & H8). apply H3. exists l, p. auto.
      * right. exists l. split; [apply KI; eauto|reflexivity].
  - intros p Hp Np. apply O in Hp as [[Hp _]|(l & _ & ->)]; [|discriminate Np]. apply FI in Hp as [Hp [Hnp _]].
    assert (U : used L p = true) by (destruct (used L p) eqn:U; [reflexivity|]; exfalso; apply Hnp, PI; auto).
    unfold used in U. apply existsb_exists in U as (l & Hl & U). pose proof (PF l Hl) as S. destruct (pf l) as [q|]; [|discriminate]. apply mt_eqb_eq in U. destruct S as [Sq S].
    assert (q = p) as -> by (apply (distinct_inj ms); auto). apply LI in Hl as [H1 H2]. eauto.
  - intros l Hl Nl (p & Hp). assert (HlL : In l L) by (apply LI; auto). pose proof (PF l HlL) as S. destruct (pf l) as [q|] eqn:Eq; [|exfalso; eauto]. destruct S as [Hq S]. exists q. split; [|exact S].
    pose proof (proj1 S) as Nq. apply O. left. split; [|split].
    + apply FI. split; [exact Hq|]. split.
      * rewrite PI. intros (_ & _ & U). unfold used in U. rewrite <- Bool.not_true_iff_false in U. apply U. apply existsb_exists. exists l. split; [exact HlL|]. rewrite Eq. apply mt_eqb_refl.
      * intros (l' & Hl' & O' & N'). apply N'. apply KI in Hl' as (H3 & H4 & _). apply Hno; auto.
    + rewrite KI. intros (_ & N & _). rewrite Nq in N. discriminate N.
    + destruct (tw q) eqn:T; [|reflexivity]. apply TW in T as [T _]. rewrite Nq in T. discriminate T.
  - intros y Ny Hy. assert (NK : ~ In y K) by (rewrite KI; intros (_ & N & _); rewrite Ny in N; discriminate N).
    assert (NP : ~ In y P) by (rewrite PI; intros (_ & N & _); rewrite Ny in N; discriminate N).
    destruct (tw y) eqn:T.
    + right. apply TW in T as (_ & l & p & Hl & A & E). apply KI in Hl as (H1 & H2 & _). exists l, p. auto.
    + destruct (mmem y (flat_map cf K)) eqn:Ec.
      * right. apply mmem_iff in Ec as (x & Hx & Ex). assert (Hx' := Hx). apply in_flat_map in Hx as (l & Hl & Hx). apply (CF l x (KL l Hl)) in Hx as (H1 & H2 & H3).
        assert (x = y) by (apply (distinct_inj ms); auto). subst x. apply KI in Hl as (H4 & H5 & p & H6). exists l, p. auto.
      * left. apply O. left. split; [|auto]. apply FI. split; [exact Hy|]. split; [exact NP|]. intros (l & Hl & Ho & Hne). rewrite mmem_false in Ec. apply (Ec y); [|reflexivity]. apply in_flat_map. exists l. split; [exact Hl|]. apply (CF l y (KL l Hl)). auto.
Qed.
Print Assumptions C56_prefix.
Definition pfx (a b : nat) : mt := simple a b (lit "subtitle_language.prefix") (MvStr (lit "st")) [].
Definition sfx (a b : nat) : mt := simple a b (lit "subtitle_language.suffix") (MvStr (lit "st")) [].
(** before a language, before a group, in a group, and one that announces nothing *)
Definition px_s : str := lit "st.fr.st[en].[st,x,es].de.st".
Definition px_groups : list mt := [simple 8 12 (lit "group") (MvStr []) []; simple 13 22 (lit "group") (MvStr []) []].
Definition px_ms : list mt := [pfx 0 2; sfx 0 2; lg 3 5 "language" "fra"; pfx 6 8; lg 9 11 "language" "eng"; pfx 14 16; simple 17 18 (lit "part") (MvInt 1) []; lg 19 21 "language" "spa"; lg 23 25 "language" "deu"; pfx 26 28].
Example C56_prefix_example : SubtitlePrefix px_s px_groups px_ms =
  Ok [pfx 0 2; pfx 6 8; pfx 14 16; simple 17 18 (lit "part") (MvInt 1) []; lg 23 25 "language" "deu"; lg 3 5 "subtitle_language" "fra"; lg 9 11 "subtitle_language" "eng"; lg 19 21 "subtitle_language" "spa"].
Proof. reflexivity. Qed.
(** limit: two overlapping languages after a prefix make the rule fail *)
Theorem C56_prefix_limit : exists s ms, SubtitlePrefix s [] ms = Err ValueError.
Proof. exists (lit "st.fr.ca"), [pfx 0 2; lg 3 5 "language" "fra"; lg 3 8 "language" "fra-CA"]. reflexivity. Qed.
Example C56_prefix_met : distinct px_ms /\ nonempty px_ms /\ inside px_s px_ms /\ inside px_s px_groups /\ (forall m, In m px_ms -> whole_groups px_groups m) /\
  (forall l x, In l px_ms -> In x px_ms -> m_name l = lit "language" -> m_name x = lit "language" \/ m_name x = lit "subtitle_language.prefix" -> overlapping l x -> x = l).
Proof.
  split; [repeat constructor; cbn; intuition discriminate|]. split; [each|]. split; [each|]. split; [each|]. split.
  - intros m Hm g Hg _ (i & Hi). revert m Hm Hi. repeat (destruct Hg as [<-|Hg]; [each|]). destruct Hg.
  - intros l x Hl Hx Nl Nx (i & Hi). revert Nl Nx Hi. revert l Hl. repeat (destruct Hx as [<-|Hx]; [intros l Hl; repeat (destruct Hl as [<-|Hl]; [cbn; intros A B C; first [reflexivity|exfalso; lia|discriminate A|exfalso; destruct B; discriminate]|]); destruct Hl|]); destruct Hx.
Qed.
Example C56_undetermined_met : let ms := [lg 0 2 "language" "fra"; lg 5 9 "subtitle_language" "und"; simple 10 11 (lit "part") (MvInt 1) []; lg 12 15 "subtitle_language" "und"] in
  distinct ms /\ nonempty ms /\ inside (lit "fr.x.subs.y.und") ms /\ (forall a b, In a ms -> In b ms -> m_start a = m_start b \/ m_end a = m_end b -> a = b).
Proof.
  split; [repeat constructor; cbn; intuition discriminate|]. split; [each|]. split; [each|].
  intros a b Ha Hb. revert a Ha. repeat (destruct Hb as [<-|Hb]; [intros a Ha; repeat (destruct Ha as [<-|Ha]; [cbn; intros E; first [reflexivity|exfalso; lia]|]); destruct Ha|]); destruct Hb.
Qed.
