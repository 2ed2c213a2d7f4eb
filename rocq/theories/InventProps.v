(** No invention (C99): a value of the result was found by a pattern, apart from the few properties whose values the rules make. *)
From Verif Require Import Py PyFacts Text TextFacts Sort Formatters Common Rebulk RebulkFacts RuleSpec Processors ProcessorsSpec Language Other ScreenSize SmallRules Title EpisodeTitle Episodes EpisodesProofs EpisodeRules EpisodeRulesProps Technical ReleaseGroup WebsiteProps Equivalent EquivalentProps Pipeline PipelineProps SurviveProps.
From Coq Require Import Arith ZifyBool QArith.
Local Open Scope nat_scope.

(** ** Specification *)
(** the properties whose values the rules make *)
Definition invented : list string :=
  ["title"; "alternative_title"; "episode_title"; "film_title"; "bonus_title"; "release_group"; "type"; "mimetype"; "proper_count"; "aspect_ratio"; "frame_rate"; "screen_size"; "source";
   "episode"; "season"; "year"; "absolute_episode"; "disc"; "discMarker"; "episodeSeparator"; "seasonSeparator"]%string.
(** the properties that take the values of another *)
Definition taken_from : list (string * string) :=
  [("language", "subtitle_language"); ("audio_bit_rate", "video_bit_rate"); ("another", "other"); ("count", "episode_count"); ("count", "season_count")]%string.
Definition from_name (n0 n : str) : Prop := n0 = n \/ exists a b, In (a, b) taken_from /\ n0 = lit a /\ n = lit b.
(** the properties whose values a rule may hide *)
Definition hidden_later : list string := ["other"; "another"; "language"; "subtitle_language"]%string.
(** the tags that no rule puts on a match *)
Definition traced : list string := "weak.source"%string :: weak_tags.
(** what a rule did not make *)
Definition found_as (m x : mt) : Prop :=
  value_alike (m_value m) (m_value x) /\ from_name (m_name m) (m_name x) /\
  (m_private x = true -> m_private m = true \/ one_of hidden_later (m_name m)) /\ (forall t, In t traced -> tag t x -> tag t m).
Definition dated : list string := ["year"; "season"]%string.
(** a source renamed by a rule is one of the sources found *)
Definition resourced (m x : mt) : Prop :=
  m_name m = lit "source" /\ (m_private x = true -> m_private m = true) /\ (forall t, In t traced -> tag t x -> tag t m).
Definition special : list string := ["year"; "season"; "source"]%string.

(** ** Proofs *)
Section Back.
  Context (ms : list mt).
  Definition kin (x : mt) : Prop := m_parent x = None \/ (exists m, In m ms /\ m_parent m = m_parent x) \/ exists p, m_parent x = Some p /\ p_name p = lit "screen_size".
  Definition new (x : mt) : Prop := one_of invented (m_name x) /\ (one_of dated (m_name x) -> exists m, In m ms /\ one_of dated (m_name m)) /\
    (m_name x = lit "source" -> exists m, In m ms /\ resourced m x).
  Definition good (x : mt) : Prop := kin x /\ (new x \/ exists m, In m ms /\ found_as m x).
  Definition back (ms' : list mt) : Prop := forall x, In x ms' -> good x.
  Lemma found_refl m : found_as m m.
  Proof. split; [apply alike_refl|]. split; [left; reflexivity|]. auto. Qed.
  Lemma good_self x : In x ms -> good x.
  Proof. intros H. split; [right; left; exists x; auto|right; exists x; split; [exact H|apply found_refl]]. Qed.
  Lemma back_sub l : (forall x, In x l -> In x ms) -> back l.
  Proof. intros H x Hx. apply good_self; auto. Qed.
  Lemma back_self : back ms. Proof. apply back_sub. auto. Qed.
  Lemma back_remove l base : back base -> back (remove_all l base).
  Proof. intros H x Hx. apply H. eapply remove_sub; exact Hx. Qed.
  Lemma back_append l base : back base -> (forall x, In x l -> good x) -> back (append_all l base).
  Proof. intros H L x Hx. apply append_sub in Hx as [Hx|Hx]; auto. Qed.
  Lemma back_change c base : back base -> (forall x, In x (snd c) -> good x) -> back (apply_change c base).
  Proof. intros H L x Hx. apply change_sub in Hx as [Hx|Hx]; auto. Qed.
  Lemma back_change_ms c : (forall x, In x (snd c) -> good x) -> back (apply_change c ms).
  Proof. apply back_change, back_self. Qed.
  Lemma back_rename n l base : back base -> (forall m, In m l -> mmem m base = true -> good (set_name m n)) -> back (rename_all n l base).
  Proof. intros H L x Hx. apply rename_sub in Hx as [Hx|(m & Hm & K & ->)]; auto. Qed.
  Lemma new_name n x : In n invented -> ~ In n special -> m_name x = lit n -> new x.
  Proof.
    intros H N E. split; [exists n; auto|].
    assert (G : forall t, In t special -> lit n = lit t -> False).
    { intros t T E2. apply N. clear - H T E2. cbn [In special] in *. destruct T as [<-|[<-|[<-|[]]]]; repeat (destruct H as [<-|H]; [first [discriminate E2|auto]|]); destruct H. }
    split.
    - intros (t & T & E2). exfalso. apply (G t); [cbn [In dated special] in *; tauto|congruence].
    - intros E2. exfalso. apply (G "source"%string); [cbn [In special]; auto|congruence].
  Qed.
  Lemma kin_new x : m_parent x = None -> kin x. Proof. left. assumption. Qed.
  Lemma kin_of m x : In m ms -> m_parent x = m_parent m -> kin x. Proof. intros H E. right. left. exists m. auto. Qed.
  Lemma good_new n x : In n invented -> ~ In n special -> m_name x = lit n -> kin x -> good x.
  Proof. intros H N E K. split; [exact K|left; eapply new_name; eauto]. Qed.
  Lemma good_dated m n x : In m ms -> one_of dated (m_name m) -> In n dated -> m_name x = lit n -> kin x -> good x.
  Proof.
    intros H D N E K. split; [exact K|left]. split; [exists n; split; [|exact E]|split; [intros _; exists m; auto|intros E2; exfalso]]; cbn [In dated] in N; destruct N as [<-|[<-|[]]]; try (cbn; auto 30; fail); rewrite E in E2; discriminate E2.
  Qed.
  Lemma good_copy m x : In m ms -> m_name x = m_name m -> value_alike (m_value m) (m_value x) -> (m_private x = true -> m_private m = true \/ one_of hidden_later (m_name m)) -> (forall t, In t traced -> tag t x -> tag t m) -> m_parent x = m_parent m -> good x.
  Proof. intros H E1 E2 E3 E4 E5. split; [right; left; exists m; auto|]. right. exists m. split; [exact H|]. split; [exact E2|]. split; [left; auto|]. auto. Qed.
  Lemma good_taken a b m : In (a, b) taken_from -> In m ms -> m_name m = lit a -> good (set_name m (lit b)).
  Proof. intros T H E. split; [right; left; exists m; split; [exact H|reflexivity]|]. right. exists m. split; [exact H|]. split; [apply alike_refl|]. split; [right; exists a, b; auto|]. split; [auto|auto]. Qed.
  Lemma mmem_kin m x : mmem m ms = true -> m_parent x = m_parent m -> kin x.
  Proof. intros H E. apply mmem_iff in H as (y & Hy & K). apply key_facts in K as (_ & _ & _ & _ & K). right. left. exists y. split; [exact Hy|congruence]. Qed.
  (** a rule that names something else *)
  Lemma good_named m n : In n invented -> ~ In n special -> In m ms -> good (set_name m (lit n)).
  Proof. intros H N Hm. eapply good_new; [exact H|exact N|reflexivity|]. apply (kin_of m); auto. Qed.
  Lemma good_simple n a b v tags : In n invented -> ~ In n special -> good (simple a b (lit n) v tags).
  Proof. intros H N. eapply good_new; [exact H|exact N|reflexivity|]. left. reflexivity. Qed.
End Back.
Lemma from_hidden n0 n : from_name n0 n -> one_of hidden_later n -> one_of hidden_later n0.
Proof.
  intros [->|(a & b & T & -> & ->)] H; [exact H|]. destruct H as (t & U & E). cbn [In taken_from hidden_later] in T, U.
  repeat (destruct T as [T|T]; [injection T as <- <-; first [eexists; split; [|reflexivity]; cbn [In hidden_later]; solve [auto]|exfalso; repeat (destruct U as [<-|U]; [discriminate E|]); destruct U]|]). destruct T.
Qed.
Lemma from_trans n0 n1 n2 : from_name n0 n1 -> from_name n1 n2 -> from_name n0 n2.
Proof.
  intros [->|(a & b & T & -> & ->)] H; [exact H|]. destruct H as [<-|(c & d & U & E & ->)]; [right; exists a, b; auto|]. exfalso. cbn [In taken_from] in T, U.
  repeat (destruct T as [T|T]; [injection T as <- <-; repeat (destruct U as [U|U]; [injection U as <- <-; discriminate E|]); destruct U|]). destruct T.
Qed.
Lemma hidden_handled n : one_of hidden_later n -> one_of handled n.
Proof. intros (t & T & ->). cbn [In hidden_later] in T. destruct T as [<-|[<-|[<-|[<-|[]]]]]; (eexists; split; [|reflexivity]; hd). Qed.
Lemma found_trans a b c : found_as a b -> found_as b c -> found_as a c.
Proof.
  intros (A1 & A2 & A3 & A4) (B1 & B2 & B3 & B4). split; [eapply alike_trans; eauto|]. split; [eapply from_trans; eauto|]. split; [|auto].
  intros H. destruct (B3 H) as [H1|H1]; [auto|right; eapply from_hidden; eauto].
Qed.
Lemma from_source n0 n : from_name n0 n -> n = lit "source" -> n0 = lit "source".
Proof. intros [->|(a & b & T & -> & ->)] E; [exact E|]. exfalso. cbn [In taken_from] in T. repeat (destruct T as [T|T]; [injection T as <- <-; discriminate E|]). destruct T. Qed.
Lemma source_seen n : one_of hidden_later n -> n <> lit "source".
Proof. intros (t & T & ->) E. cbn [In hidden_later] in T. destruct T as [<-|[<-|[<-|[<-|[]]]]]; discriminate E. Qed.
Lemma from_invented n0 n : from_name n0 n -> one_of invented n0 -> n0 = n.
Proof.
  intros [->|(a & b & T & -> & ->)] (t & I & E); [reflexivity|]. exfalso. cbn [In taken_from invented] in T, I. repeat (destruct T as [T|T]; [injection T as <- <-; repeat (destruct I as [<-|I]; [discriminate E|]); destruct I|]). destruct T.
Qed.
Ltac nd := let K := fresh in intros K; cbn [In special] in K; destruct K as [K|[K|[K|[]]]]; discriminate K.
Ltac iv := cbn [In invented]; repeat (first [left; reflexivity|right]).
Section Rules.
  Context (context : dict) (s : str) (markers ms : list mt) (P : forall m, In m ms -> placed s m) (Q : forall g, In g markers -> m_parent g = None).
  Notation back := (back ms).
  Notation good := (good ms).
  Notation self := (back_self ms).
  Lemma ins' : inside s ms. Proof. intros m Hm. destruct (P m Hm) as (A & B & _). lia. Qed.
  Lemma b_remove l : back (remove_all l ms). Proof. apply back_remove, self. Qed.
  Lemma b_unless n rule ms' : back (rule ms) -> unless_disabled context n rule ms = Ok ms' -> back ms'.
  Proof. intros H. unfold unless_disabled. destruct (is_disabled context n) as [d|]; [|discriminate]. cbn [bind]. intros E. injection E as <-. destruct d; [apply self|exact H]. Qed.
  Lemma concat_In {A B} (f : A -> list B) l x : In x (List.concat (map f l)) -> exists y, In y l /\ In x (f y).
  Proof. intros H. apply in_concat in H as (u & U & H). apply in_map_iff in U as (y & <- & Hy). exists y. auto. Qed.
  Lemma good_tags m t : In m ms -> (forall u, In u traced -> In (lit u) t -> tag u m) -> good (set_tags m t).
  Proof. intros H T. apply (good_copy ms m); [exact H|reflexivity|apply alike_refl|auto|exact T|reflexivity]. Qed.
  (** *** episodes *)
  Lemma b_weak_conflict ini kids : back (WeakConflictSolver context s ini kids markers ms).
  Proof.
    unfold WeakConflictSolver. destruct (type_is _ _); [apply self|]. apply back_change_ms. unfold weak_conflict. set (an := is_anime s markers ms).
    assert (G : forall parts st, (forall x, In x (snd st) -> good x) -> forall x, In x (snd (fold_left (weak_conflict_part s ini kids an ms) parts st)) -> good x); [|apply (G _ ([], [])); intros x []].
    induction parts as [|p parts IH]; intros st H; [exact H|]. cbn [fold_left]. apply IH. clear IH. intros x. unfold weak_conflict_part.
    assert (R : forall f y, In y (in_part_of s ms p f) -> In y ms) by (intros f y Hy; apply range_In in Hy; apply Hy).
    destruct an.
    - destruct (nonnil (in_part_of _ _ _ _)); [|apply H]. cbn [snd]. intros Hx. apply in_app_iff in Hx as [Hx|Hx]; [auto|]. apply in_map_iff in Hx as (y & <- & Hy). apply R in Hy. unfold add_tag. apply good_tags; [exact Hy|].
      intros u U T. apply in_app_iff in T as [T|[T|[]]]; [exact T|]. exfalso. cbn [In traced weak_tags] in U. repeat (destruct U as [<-|U]; [discriminate T|]). destruct U.
    - destruct (nonnil (in_part_of s ms p (fun m => has_name (lit "weak_duplicate") (ini m)))); [|apply H].
      assert (G : forall st', (forall x, In x (snd st') -> good x) -> In x (snd (if nonnil (snd st') then (fst st' ++ in_part_of s ms p (fun m => has_name (lit "weak_duplicate") (ini m)), snd st') else st')) -> good x).
      { intros st' H'. destruct (nonnil (snd st')); cbn [snd]; apply H'. }
      apply G. destruct (negb _ && negb _); cbn [snd]; [apply H|]. intros y Hy. apply in_app_iff in Hy as [Hy|Hy]; [auto|]. apply in_map_iff in Hy as (z & <- & Hz). apply R in Hz. apply good_tags; [exact Hz|intros u _ []].
  Qed.
  Lemma copies_name nx a b x : In x (copies nx a b) -> m_name x = m_name nx /\ m_parent x = m_parent nx.
  Proof. intros Hx. unfold copies in Hx. apply in_map_iff in Hx as (z & <- & _). split; reflexivity. Qed.
  Lemma next_facts m p x : In x (next m ms p) -> In x ms /\ p x = true.
  Proof. intros H. apply next_In in H; [tauto|]. intros y Hy. apply ins'; exact Hy. Qed.
  Lemma b_see seps : back (SeePatternRange seps ms).
  Proof.
    apply back_change_ms. intros x Hx. rewrite joins_snd, map_map in Hx. apply concat_In in Hx as (sep & _ & Hx). unfold see_one in Hx. destruct (first (next sep ms _)) as [n1|]; [|destruct Hx]. destruct (m_truthy n1); [|destruct Hx].
    destruct (first (previous sep ms _)) as [p|]; [|destruct Hx]. destruct (first (next n1 ms _)) as [nx|] eqn:E; [|destruct Hx]. destruct (_ && _ && _); [|destruct Hx]. cbn [snd] in Hx. apply first_sub, next_facts in E as [E1 E2]. apply copies_name in Hx as [H1 H2].
    unfold is_see in E2. apply andb_true_iff in E2 as [E2 _]. apply has_name_iff in E2. apply (good_new ms "episode"); [iv|nd|congruence|apply (kin_of ms nx); auto].
  Qed.
  Lemma b_range n ini seps can : In n ["episode"; "season"]%string -> lit n ++ lit "Separator" = lit (n ++ "Separator") -> back (apply_change (separator_range s ini seps (lit n) can ms) ms).
  Proof.
    intros Hn Hs. apply back_change_ms. intros x Hx. unfold separator_range, join in Hx. cbn [snd] in Hx.
    assert (C : forall nx y, In nx ms -> m_name nx = lit n -> m_name y = m_name nx -> m_parent y = m_parent nx -> good y).
    { intros nx y H1 H2 H3 H4. cbn [In] in Hn. destruct Hn as [<-|[<-|[]]]; [apply (good_new ms "episode"); [iv|nd|congruence|apply (kin_of ms nx); auto]|apply (good_dated ms nx "season"); [exact H1|exists "season"%string; cbn; auto|cbn; auto|congruence|apply (kin_of ms nx); auto]]. }
    apply in_app_iff in Hx as [Hx|Hx].
    - rewrite joins_snd, map_map in Hx. apply concat_In in Hx as (sep & _ & Hx). unfold sep_one in Hx. destruct (first (previous sep ms _)) as [p|]; [|destruct Hx]. destruct (first (next sep ms _)) as [nx|] eqn:E; [|destruct Hx]. destruct (_ && _ && _); [|destruct Hx]. apply first_sub, next_facts in E as [E1 E2]. apply has_name_iff in E2. cbn [snd] in Hx.
      apply in_app_iff in Hx as [Hx|[<-|[]]]; [apply copies_name in Hx as [H1 H2]; eauto|apply good_self; exact E1].
    - rewrite joins_snd in Hx. apply concat_In in Hx as (c & Hc & Hx). apply pairs_name in Hc as (p & nx & Hnx & ->).
      assert (N : In nx ms /\ m_name nx = lit n) by (unfold by_start in Hnx; apply (Permutation.Permutation_in _ (Permutation.Permutation_sym (isort_perm _ _))) in Hnx || apply (Permutation.Permutation_in _ (isort_perm _ _)) in Hnx; apply named_In in Hnx; exact Hnx). destruct N as [N1 N2].
      unfold pair_one in Hx. cbn [snd] in Hx. apply in_app_iff in Hx as [Hx|[<-|[]]]; [|apply good_self; exact N1]. destruct (joined_text s ini seps p nx); [|destruct Hx]. apply in_app_iff in Hx as [Hx|[<-|[]]]; [apply copies_name in Hx as [H1 H2]; eauto|].
      cbn [In] in Hn. destruct Hn as [<-|[<-|[]]]; [apply (good_new ms "episodeSeparator")|apply (good_new ms "seasonSeparator")]; try iv; try nd; try (left; reflexivity); exact Hs.
  Qed.
  Lemma b_weak words : back (RemoveWeak s words markers ms).
  Proof.
    apply back_change_ms. intros x Hx. rewrite joins_snd, map_map in Hx. apply concat_In in Hx as (part & _ & Hx). unfold remove_weak_part in Hx. destruct (in_part_of s ms part weak_ep) as [|w rest] eqn:E; [destruct Hx|].
    assert (W : In w ms) by (assert (In w (in_part_of s ms part weak_ep)) as H by (rewrite E; left; reflexivity); apply range_In in H; tauto).
    destruct (first (previous w ms _)) as [p|]; [|destruct Hx]. destruct (m_truthy p && _); [|destruct Hx]. cbn [snd] in Hx. destruct (smem _ words); [|destruct Hx]. unfold worded in Hx. destruct (int_value (m_value w)) as [z|]; [|destruct Hx]. destruct Hx as [<-|[]].
    apply (good_new ms "episode"); [iv|nd|reflexivity|]. first [apply (kin_of ms w); [exact W|reflexivity]|left; reflexivity].
  Qed.
  Lemma b_absolute ini kids : back (RenameToAbsoluteEpisode s ini kids markers ms).
  Proof.
    unfold RenameToAbsoluteEpisode. apply back_remove, back_rename; [apply self|]. intros m _ K. apply (good_new ms "absolute_episode"); [iv|nd|reflexivity|]. eapply mmem_kin; [exact K|reflexivity].
  Qed.
  Lemma b_count : back (CountValidator ms).
  Proof.
    assert (C : forall o m, In m (counts_as ms o) -> In m ms /\ m_name m = lit "count") by (intros o m H; apply filter_In in H as [H _]; apply named_In in H; exact H).
    unfold CountValidator. apply back_rename; [apply back_rename; [apply b_remove|]|]; intros m Hm _; apply C in Hm as [H1 H2]; eapply good_taken; eauto; cbn; auto 10.
  Qed.
  Lemma b_disc ini kids ms' : RenameToDiscMatch context ini kids ms = Ok ms' -> back ms'.
  Proof.
    unfold RenameToDiscMatch. destruct (is_disabled context (lit "disc")) as [d|]; [|discriminate]. cbn [bind]. intros E. injection E as <-. destruct d; [apply b_remove|]. apply back_rename; [apply back_rename; [apply self|]|].
    - intros m _ K. apply (good_new ms "disc"); [iv|nd|reflexivity|]. eapply mmem_kin; [exact K|reflexivity].
    - intros m Hm _. apply filter_In in Hm as [Hm _]. apply named_In in Hm as [H1 H2]. apply good_named; [iv|nd|exact H1].
  Qed.
  (** *** source, screen size *)
  Lemma b_ultra : back (UltraHdBluray s markers ms).
  Proof.
    assert (Blu : forall m, blu_ray m = true -> m_name m = lit "source") by (intros m H; unfold blu_ray in H; apply andb_true_iff in H as [H _]; apply andb_true_iff in H as [_ H]; apply has_name_iff; exact H).
    assert (UO : forall l part m o b, uhd_other s l part m = (b, Some o) -> m_name o = lit "other").
    { assert (U : forall x, ultra_hd x = true -> m_name x = lit "other") by (intros x H; unfold ultra_hd in H; apply andb_true_iff in H as [H _]; apply andb_true_iff in H as [_ H]; apply has_name_iff; exact H).
      assert (T : forall o' x, Technical.truthy_o o' = Some x -> o' = Some x) by (intros [y|] x H; [|discriminate]; unfold Technical.truthy_o in H; destruct (m_truthy y); [exact H|discriminate]).
      assert (UA : forall l part m o b, uhd_after s l part m = (b, Some o) -> m_name o = lit "other").
      { intros l part m o b. unfold uhd_after. destruct (Technical.truthy_o _) as [x|] eqn:F; [|discriminate]. apply T, first_sub, range_In in F. intros H. apply U. destruct (uhd_range _ _ _ _); injection H as _ <-; apply F. }
      intros l part m o b. unfold uhd_other. destruct (Technical.truthy_o _) as [x|] eqn:F; [|apply UA]. apply T, last_sub, range_In in F. destruct (uhd_range _ _ _ _); [|apply UA]. intros H. injection H as _ <-. apply U, F. }
    set (Q0 := fun st : list mt * change => back (fst st) /\ (forall x, In x (snd (snd st)) -> good x)).
    assert (S1 : forall part l st, (forall x, In x l -> good x /\ m_name x = lit "source") -> Q0 st -> Q0 (fold_left (uhd_step s part) l st)).
    { intros part. induction l as [|m l IH]; intros st L H; [exact H|]. cbn [fold_left]. apply IH; [intros x Hx; apply L; right; exact Hx|]. destruct H as [H1 H2]. unfold uhd_step. destruct (uhd_other s (fst st) part m) as [[|] o] eqn:O; [|split; auto]. split; cbn [fst snd].
      - destruct o as [o|]; [|exact H1]. apply UO in O. intros x Hx. unfold make_private in Hx. apply in_map_iff in Hx as (y & <- & Hy). destruct (mt_eqb o y) eqn:E; [|auto]. apply mt_eqb_eq, key_facts in E as (_ & _ & E & _).
        destruct (H1 y Hy) as [K [N|(m0 & Hm & V & F & _ & T)]]; (split; [exact K|]); [left; destruct N as (N1 & N2 & _); split; [exact N1|]; split; [exact N2|]; intros E2; exfalso; cbn in E2; rewrite E2 in E; rewrite E in O; discriminate O|]. right. exists m0. split; [exact Hm|]. split; [exact V|]. split; [exact F|]. split; [|exact T]. intros _. right. apply (from_hidden (m_name m0) (m_name y)); [exact F|]. exists "other"%string. split; [cbn; auto|congruence].
      - intros x Hx. apply in_app_iff in Hx as [Hx|[<-|[]]]; [auto|]. destruct (L m (or_introl eq_refl)) as [[K G] N]. split; [exact K|]. left. split; [exists "source"%string; split; [iv|exact N]|]. split.
        + intros (t & T & E2). exfalso. cbn [In dated] in T. change (m_name m = lit t) in E2. destruct T as [<-|[<-|[]]]; rewrite N in E2; discriminate E2.
        + intros _. destruct G as [(_ & _ & G)|(m0 & Hm & V & F & Pr & Tg)]; [destruct (G N) as (m0 & Hm & R); exists m0; split; [exact Hm|exact R]|].
          exists m0. split; [exact Hm|]. pose proof (from_source _ _ F N) as E0. split; [exact E0|]. split; [|exact Tg]. intros Pm. destruct (Pr Pm) as [J|J]; [exact J|]. exfalso. apply (source_seen _ J E0). }
    assert (S2 : forall parts st, Q0 st -> Q0 (fold_left (uhd_part s) parts st)).
    { induction parts as [|p parts IH]; intros st H; [exact H|]. cbn [fold_left]. apply IH. unfold uhd_part. apply S1; [|exact H]. intros x Hx. apply range_In in Hx as (Hx & _ & _ & B). split; [apply (proj1 H); exact Hx|apply Blu; exact B]. }
    unfold UltraHdBluray. destruct (S2 (parts_of markers) (ms, ([], []))) as [A B]; [split; cbn [fst snd]; [apply self|intros x []]|]. apply back_change; auto.
  Qed.
  Lemma b_screen standard lo hi ms' : PostProcess context s standard lo hi ms = Ok ms' -> back ms'.
  Proof.
    unfold PostProcess. destruct (mapM _ ms) as [l|] eqn:E; [|discriminate]. cbn [bind]. intros H. injection H as <-.
    assert (G : forall p, In p l -> good (fst p) /\ forall x, In x (snd p) -> good x).
    { intros [y new'] Hp. cbn [fst snd]. destruct (mapM_In _ _ _ E _ Hp) as (m & Hm & F). destruct (has_name (lit "screen_size") m) eqn:N; [|injection F as <- <-; split; [apply good_self; exact Hm|intros x []]].
      apply has_name_iff in N. unfold post_one in F. destruct (frame_rates context s m) as [rates|] eqn:R; [|discriminate]. cbn [bind] in F.
      assert (FR : forall x, In x rates -> good x).
      { unfold frame_rates in R. destruct (is_disabled context (lit "frame_rate")) as [off|]; [|discriminate]. cbn [bind] in R. destruct off; [injection R as <-; intros x []|]. intros x Hx. destruct (mapM_In _ _ _ R _ Hx) as (c & Hc & Fc). apply filter_In in Hc as [Hc Nc]. apply str_eqb_eq in Nc.
        unfold frame_rate_match in Fc. destruct (Quantity.fromstring _ _) as [q|]; [|discriminate]. cbn [bind] in Fc. injection Fc as <-. apply (good_new ms "frame_rate"); [iv|nd|exact Nc|]. right. right. eexists. split; [reflexivity|exact N]. }
      assert (SV : forall v, good (set_value m v)) by (intros v; apply (good_new ms "screen_size"); [iv|nd|exact N|apply (kin_of ms m); [exact Hm|reflexivity]]).
      destruct (child_text s m (lit "height")) as [h|]; [|injection F as <- <-; split; [apply good_self; exact Hm|exact FR]].
      destruct (child_text s m (lit "width")) as [w|]; [|injection F as <- <-; split; [apply SV|exact FR]].
      destruct (_ =? 0)%Z; [discriminate|]. destruct (is_disabled context (lit "aspect_ratio")) as [off|]; [|discriminate]. cbn [bind] in F.
      assert (AR : forall x, In x (if off then rates else rates ++ [simple (m_start m) (m_end m) (lit "aspect_ratio") (MvFloat (round3 (Numeral.dec w) (Numeral.dec h))) []]) -> good x).
      { intros x Hx. destruct off; [auto|]. apply in_app_iff in Hx as [Hx|[<-|[]]]; [auto|]. apply good_simple; [iv|nd]. }
      destruct (_ && _); injection F as <- <-; (split; [apply SV|exact AR]). }
    apply back_append.
    - intros x Hx. apply in_map_iff in Hx as (p & <- & Hp). apply G. exact Hp.
    - intros x Hx. apply in_flat_map in Hx as (p & Hp & Hx). apply (G p Hp). exact Hx.
  Qed.

  (** *** titles *)
  Definition is_title (x : mt) : Prop := one_of ["title"; "alternative_title"; "episode_title"; "film_title"; "bonus_title"]%string (m_name x) /\ m_parent x = None.
  Lemma good_title x : is_title x -> good x.
  Proof. intros [(n & N & E) K]. apply (good_new ms n); [| |exact E|left; exact K]; cbn [In] in N; repeat (destruct N as [<-|N]; [first [solve [iv]|nd]|]); destruct N. Qed.
  Lemma hole_titles_title r part hole ts rm : one_of ["title"; "alternative_title"; "episode_title"]%string (tr_name r) -> (forall a, tr_alternative r = Some a -> a = lit "alternative_title") ->
    hole_titles r s context ms part hole = Ok (Some (ts, rm)) -> forall t, In t ts -> is_title t.
  Proof.
    intros A1 A2. unfold hole_titles. destruct (negb _ || negb _); [discriminate|]. destruct (trim s ms part hole _) as [hole' to_keep]. destruct (snd hole' <? fst hole'); [discriminate|]. destruct ((fst hole' <? snd hole') && _); [|discriminate]. intros E. injection E as <- _.
    intros t Ht. apply in_map_iff in Ht as ([n h] & <- & Hh). unfold to_match. cbn [fst snd].
    assert (A1' : one_of ["title"; "alternative_title"; "episode_title"; "film_title"; "bonus_title"]%string (tr_name r)) by (destruct A1 as (a & A & E); exists a; split; [cbn [In] in *; tauto|exact E]).
    assert (G : one_of ["title"; "alternative_title"; "episode_title"; "film_title"; "bonus_title"]%string n); [|split; [exact G|reflexivity]].
    destruct (tr_alternative r) as [alt|]; [|destruct Hh as [Hh|[]]; injection Hh as <- <-; exact A1']. specialize (A2 alt eq_refl).
    unfold split_titles in Hh. destruct (filter _ (runs _ _ _ _)) as [|q qs]; [destruct Hh|]. apply in_rev in Hh.
    assert (F : forall l acc, (forall x, In x acc -> one_of ["title"; "alternative_title"; "episode_title"; "film_title"; "bonus_title"]%string (fst x)) -> forall x, In x (fold_left (merge_title s alt) l acc) -> one_of ["title"; "alternative_title"; "episode_title"; "film_title"; "bonus_title"]%string (fst x)).
    { induction l as [|q' l IH]; intros acc H; [exact H|]. cbn [fold_left]. apply IH. assert (Al : one_of ["title"; "alternative_title"; "episode_title"; "film_title"; "bonus_title"]%string alt) by (exists "alternative_title"%string; split; [cbn; auto|exact A2]). unfold merge_title. destruct acc as [|[n1 p] r0].
      - intros x [<-|[]]. exact Al.
      - destruct (_ && _ && _); intros x [<-|Hx]; cbn [fst]; [apply (H _ (or_introl eq_refl))|apply H; right; exact Hx|exact Al|apply H; exact Hx]. }
    apply (F qs [(tr_name r, q)]) in Hh; [exact Hh|]. intros x [<-|[]]. exact A1'.
  Qed.
  Lemma check_title r extra part ts rm : one_of ["title"; "alternative_title"; "episode_title"]%string (tr_name r) -> (forall a, tr_alternative r = Some a -> a = lit "alternative_title") ->
    check_titles r s context markers ms extra part = Ok (Some (ts, rm)) -> forall t, In t ts -> is_title t.
  Proof.
    intros A1 A2. unfold check_titles.
    set (hs := holes_process _ _). clearbody hs. induction hs as [|h hs IH]; cbn [first_titles]; [discriminate|]. destruct (hole_titles r s context ms part h) as [[[ts0 rm0]|]|] eqn:E; cbn [bind]; try discriminate.
    - intros H. injection H as -> ->. eapply hole_titles_title; eauto.
    - exact IH.
  Qed.
  Lemma title_new r w : one_of ["title"; "alternative_title"; "episode_title"]%string (tr_name r) -> (forall a, tr_alternative r = Some a -> a = lit "alternative_title") ->
    title_when r s context markers ms = Ok w -> forall t, In t (fst w) -> is_title t.
  Proof.
    intros A1 A2. unfold title_when. destruct (existsb (has_tag (lit "expected")) _); [intros H; injection H as <-; intros t []|].
    set (parts := filter _ _). destruct (serie_titles r s context markers ms (serie_part s ms parts)) as [serie|] eqn:ES; [|discriminate]. cbn [bind].
    destruct (main_part r s context markers ms parts _) as [[years main]|] eqn:EM; [|discriminate]. cbn [bind].
    destruct (mapM _ years) as [others|] eqn:EO; [|discriminate]. cbn [bind]. intros H. injection H as <-. cbn [fst]. intros t Ht. apply in_app_iff in Ht as [Ht|Ht]; [|apply in_app_iff in Ht as [Ht|Ht]].
    - destruct serie as [[x rm]|]; [|destruct Ht]. destruct Ht as [<-|[]]. unfold serie_titles in ES. destruct (serie_part s ms parts) as [p|]; [|discriminate]. destruct (m_truthy p); [|discriminate].
      destruct (check_titles r s context markers ms weak p) as [[[l rm']|]|] eqn:E; cbn [bind] in ES; try discriminate. destruct l as [|y [|]]; try discriminate. injection ES as -> ->. eapply (check_title r); eauto. left. reflexivity.
    - apply in_map_iff in Ht as (y & <- & Hy).
      assert (FY : is_title y).
      { destruct main as [[l rm]|]; [|destruct Hy]. cbn [titles_of fst] in Hy. clear - A1 A2 EM Hy. revert EM. generalize (filter (with_year s ms) parts). induction parts as [|p ps IH]; cbn [main_part]; intros years0 EM; [discriminate|].
        destruct (check_titles r s context markers ms never p) as [[[l' rm']|]|] eqn:E; cbn [bind] in EM; try discriminate; [|apply (IH _ EM)]. injection EM as _ -> ->.
        eapply check_title; eauto. }
      unfold rename_title. destruct serie as [[x rm]|]; [|exact FY]. destruct (_ && _); [|exact FY]. destruct FY as [_ K]. split; [exists "episode_title"%string; split; [cbn; auto|reflexivity]|exact K].
    - apply in_flat_map in Ht as (o & Ho & Ht). destruct (mapM_In _ _ _ EO _ Ho) as (p & _ & E). destruct o as [[l rm]|]; [|destruct Ht]. eapply (check_title r); eauto.
  Qed.
  Lemma b_title_base r ms' : one_of ["title"; "alternative_title"; "episode_title"]%string (tr_name r) -> (forall a, tr_alternative r = Some a -> a = lit "alternative_title") -> title_base r s context markers ms = Ok ms' -> back ms'.
  Proof.
    intros A1 A2. unfold title_base. destruct (title_when r s context markers ms) as [w|] eqn:E; [|discriminate]. cbn [bind]. intros H. injection H as <-. unfold title_then. apply back_remove, back_append; [apply self|]. intros x Hx. apply good_title. eapply title_new; eauto.
  Qed.
  Lemma b_title ms' : TitleFromPosition s context markers ms = Ok ms' -> back ms'.
  Proof. apply b_title_base; [exists "title"%string; cbn; auto|]. cbn. intros a E. injection E as <-. reflexivity. Qed.
  Lemma b_episode_title ms' : EpisodeTitleFromPosition s context markers ms = Ok ms' -> back ms'.
  Proof. unfold EpisodeTitleFromPosition. destruct (nonnil _); [intros H; injection H as <-; apply self|]. apply b_title_base; [exists "episode_title"%string; cbn; auto|discriminate]. Qed.
  Lemma b_title_year : back (PreferTitleWithYear s markers ms).
  Proof.
    unfold PreferTitleWithYear. destruct (prefer_year s markers ms) as [rm tg] eqn:E. unfold append_tags. apply back_append; [do 2 apply back_remove; apply self|]. intros x Hx. apply in_map_iff in Hx as (y & <- & Hy). apply removed_sub in Hy as [Hy _]. unfold prefer_year in E. injection E as _ <-.
    assert (In y ms). { destruct (nonnil _) in Hy; apply filter_In in Hy as [Hy _]; apply filter_In in Hy as [Hy _]; exact Hy. }
    apply good_tags; [assumption|]. intros u U T. apply in_app_iff in T as [T|[T|[]]]; [exact T|]. exfalso. cbn [In traced weak_tags] in U. repeat (destruct U as [<-|U]; [discriminate T|]). destruct U.
  Qed.
  Lemma b_rename_now n l ms' : In n invented -> ~ In n special -> (forall m, In m l -> In m ms) -> foldM (rename_now (lit n)) l ms = Ok ms' -> back ms'.
  Proof.
    intros N D L. apply (foldM_inv (rename_now (lit n)) back); [|apply self].
    intros a b c Hb Ha F. unfold rename_now in F. destruct (mmem b a); [|discriminate]. injection F as <-. intros x Hx. apply in_app_iff in Hx as [Hx|[<-|[]]]; [apply Ha; eapply remove1_sub; exact Hx|]. apply good_named; auto.
  Qed.
  Lemma b_to_episode_title ms' : TitleToEpisodeTitle ms = Ok ms' -> back ms'.
  Proof. apply b_rename_now; [iv|nd|]. intros m Hm. unfold to_episode_title in Hm. destruct (_ <? _); [destruct Hm|]. apply filter_In in Hm as [Hm _]. apply named_In in Hm. tauto. Qed.
  Lemma b_rename_title ms' : RenameEpisodeTitle ms = Ok ms' -> back ms'.
  Proof. unfold RenameEpisodeTitle. destruct (_ && _); [|intros E; injection E as <-; apply self]. apply b_rename_now; [iv|nd|intros m Hm; apply named_In in Hm; tauto]. Qed.
  Lemma b_alternative ms' : AlternativeTitleReplace s ms = Ok ms' -> back ms'.
  Proof.
    unfold AlternativeTitleReplace. destruct (alternative_found s ms) as [a|]; [|intros H; injection H as <-; apply self]. destruct (mmem a ms) eqn:K; [|discriminate]. intros H. injection H as <-. intros x Hx. apply in_app_iff in Hx as [Hx|[<-|[]]]; [apply good_self; eapply remove1_sub; exact Hx|].
    apply (good_new ms "episode_title"); [iv|nd|reflexivity|]. eapply mmem_kin; [exact K|reflexivity].
  Qed.
  Lemma b_append_named n x : In n invented -> ~ In n special -> m_parent x = None -> back (append_named (lit n) x ms).
  Proof. intros N D K y Hy. unfold append_named in Hy. destruct (mmem _ ms); [apply good_self; exact Hy|]. apply in_app_iff in Hy as [Hy|[<-|[]]]; [apply good_self; exact Hy|]. apply (good_new ms n); auto. left. exact K. Qed.
  Lemma b_filepart3 : back (Filepart3EpisodeTitle s markers ms).
  Proof. unfold Filepart3EpisodeTitle. destruct (nonnil _); [apply self|]. destruct (rev _) as [|f [|d [|sd r]]]; try apply self. destruct (_ && _); [|apply self]. destruct (folder_hole s ms sd); [|apply self]. apply b_append_named; [iv|nd|reflexivity]. Qed.
  Lemma b_filepart2 : back (Filepart2EpisodeTitle s markers ms).
  Proof. unfold Filepart2EpisodeTitle. destruct (nonnil _); [apply self|]. destruct (rev _) as [|f [|d r]]; try apply self. destruct (_ && _); [|apply self]. destruct (folder_hole s ms d); [|apply self]. apply b_append_named; [iv|nd|reflexivity]. Qed.
  Lemma b_number n tn zone ms' : In tn invented -> ~ In tn special -> number_title n (lit tn) zone s markers ms = Ok ms' -> back ms'.
  Proof.
    intros N D. unfold number_title. destruct (first (filter public (named n ms))) as [b|]; [|intros H; injection H as <-; apply self]. destruct (m_truthy b); [|intros H; injection H as <-; apply self].
    destruct (first (filter _ (at_match _ _))) as [p|]; [|discriminate]. destruct (first (holes _ _ _ _ _ _)) as [h|]; [|intros H; injection H as <-; apply self]. destruct (snd h <? fst h); [discriminate|]. destruct ((fst h <? snd h) && _); intros H; [|injection H as <-; apply self].
    intros x Hx. injection H as H. rewrite <- H in Hx. apply (append_sub [clean_hole s (lit tn) [] h]) in Hx as [Hx|[<-|[]]]; [apply good_self; exact Hx|]. apply (good_new ms tn); auto. left. reflexivity.
  Qed.
  (** *** languages *)
  Lemma good_sub m : In m ms -> m_name m = lit "language" -> good (set_name m (lit "subtitle_language")).
  Proof. intros H E. apply (good_taken ms "language" "subtitle_language"); [cbn; auto|exact H|exact E]. Qed.
  Lemma b_sub_prefix ms' : SubtitlePrefix s markers ms = Ok ms' -> back ms'.
  Proof.
    unfold SubtitlePrefix. assert (L : forall pl, In pl (fst (prefix_when s markers ms)) -> In (snd pl) ms /\ m_name (snd pl) = lit "language").
    { unfold prefix_when. assert (G : forall l st, (forall m, In m l -> In m ms /\ m_name m = lit "language") -> (forall pl : mt * mt, In pl (fst st) -> In (snd pl) ms /\ m_name (snd pl) = lit "language") ->
        forall pl, In pl (fst (fold_left (prefix_step s markers ms) l st)) -> In (snd pl) ms /\ m_name (snd pl) = lit "language").
      { induction l as [|m l IH]; intros st L H; [exact H|]. cbn [fold_left]. apply IH; [intros y Hy; apply L; right; exact Hy|]. unfold prefix_step. destruct (prefix_of s markers ms m) as [p|]; [|exact H]. cbn [fst]. intros pl Hpl. apply in_app_iff in Hpl as [Hpl|[<-|[]]]; [auto|cbn [snd]; apply L; left; reflexivity]. }
      apply G; [|intros pl []]. intros m Hm. apply named_In in Hm. tauto. }
    revert L. generalize (fst (prefix_when s markers ms)). intros l L. apply (foldM_inv _ back); [|apply back_remove, self].
    intros a b c Hb Ha F. unfold to_subtitle in F. destruct (mmem (snd b) _); [|discriminate]. injection F as <-. intros x Hx. apply in_app_iff in Hx as [Hx|[<-|[]]]; [do 2 apply remove1_sub in Hx; auto|]. destruct (L b Hb). apply good_sub; auto.
  Qed.
  Lemma b_sub_suffix ms' : SubtitleSuffix ms = Ok ms' -> back ms'.
  Proof.
    unfold SubtitleSuffix.
    assert (L : forall m, In m (fst (fold_left (suffix_step ms) (named (lit "language") ms) ([], named (lit "subtitle_language.suffix") ms))) -> In m ms /\ m_name m = lit "language").
    { assert (G : forall l st, (forall m, In m l -> In m ms /\ m_name m = lit "language") -> (forall m, In m (fst st) -> In m ms /\ m_name m = lit "language") -> forall m, In m (fst (fold_left (suffix_step ms) l st)) -> In m ms /\ m_name m = lit "language").
      { induction l as [|m l IH]; intros st L H; [exact H|]. cbn [fold_left]. apply IH; [intros y Hy; apply L; right; exact Hy|]. unfold suffix_step. destruct (suffix_of ms m) as [p|]; [|exact H]. cbn [fst]. intros y Hy. apply in_app_iff in Hy as [Hy|[<-|[]]]; [auto|apply L; left; reflexivity]. }
      apply G; [intros m Hm; apply named_In in Hm; tauto|intros m []]. }
    revert L. generalize (fst (fold_left (suffix_step ms) (named (lit "language") ms) ([], named (lit "subtitle_language.suffix") ms))) as l0. generalize (snd (fold_left (suffix_step ms) (named (lit "language") ms) ([], named (lit "subtitle_language.suffix") ms))) as rm. intros rm l0 L.
    apply (foldM_inv _ back); [|apply back_remove, self]. intros a b c Hb Ha F. unfold to_subtitle in F. destruct (mmem b _); [|discriminate]. injection F as <-. intros x Hx. apply in_app_iff in Hx as [Hx|[<-|[]]]; [apply remove1_sub in Hx; auto|]. destruct (L b Hb). apply good_sub; auto.
  Qed.
  Lemma b_sub_extension : back (SubtitleExtension ms).
  Proof.
    unfold SubtitleExtension. destruct (first (filter _ _)) as [e|]; [|apply self]. destruct (negb (m_truthy e)); [apply self|]. destruct (first (previous e ms _)) as [l|] eqn:E; [|apply self]. destruct (negb (m_truthy l)); [apply self|].
    apply first_sub, previous_sub in E as [E1 E2]. apply has_name_iff in E2. cbv zeta. apply back_rename; [|intros m [<-|[]] _; apply good_sub; auto]. apply back_remove. intros x Hx. apply in_map_iff in Hx as (y & <- & Hy). destruct (_ && _) eqn:C; [|apply good_self; exact Hy].
    apply andb_true_iff in C as [C _]. apply has_name_iff in C. apply (good_copy ms y); [exact Hy|reflexivity|apply alike_refl| |auto|reflexivity]. intros _. right. exists "subtitle_language"%string. split; [cbn; auto|exact C].
  Qed.
  (** *** other, bit rates *)
  Lemma b_another : back (RenameAnother ms).
  Proof. apply back_rename; [apply self|]. intros m Hm _. apply named_In in Hm as [H1 H2]. apply (good_taken ms "another" "other"); [cbn; auto|exact H1|exact H2]. Qed.
  Lemma b_proper ms' : ProperCount s ms = Ok ms' -> back ms'.
  Proof.
    unfold ProperCount. destruct (filter is_proper ms) as [|p ps]; [intros E; injection E as <-; apply self|]. destruct (raws s _) as [d|]; [|discriminate]. cbn [bind]. cbv zeta. intros E x Hx. injection E as E. rewrite <- E in Hx.
    apply (append_sub [_]) in Hx as [Hx|[<-|[]]]; [apply good_self; exact Hx|]. apply good_simple; [iv|nd].
  Qed.
  Lemma b_bit_rate ms' : BitRateType context s ms = Ok ms' -> back ms'.
  Proof.
    unfold BitRateType, bit_rate_split. destruct (is_disabled context (lit "audio_bit_rate")) as [a|]; [|discriminate]. cbn [bind]. destruct a; [intros E; injection E as <-; cbn [fst snd]; apply back_remove, back_rename; [apply self|intros m []]|].
    destruct (is_disabled context (lit "video_bit_rate")) as [v|]; [|discriminate]. cbn [bind]. intros E. injection E as <-. destruct v; cbn [fst snd]; apply back_remove, back_rename; try apply self; [intros m []|].
    intros m Hm _. apply filter_In in Hm as [Hm _]. apply named_In in Hm as [H1 H2]. apply (good_taken ms "audio_bit_rate" "video_bit_rate"); [cbn; auto|exact H1|exact H2].
  Qed.
  (** *** release groups *)
  Lemma good_group x : m_name x = lit "release_group" -> m_parent x = None -> good x.
  Proof. intros N K. apply (good_new ms "release_group"); [iv|nd|exact N|left; exact K]. Qed.
  Lemma b_dash clean : back (DashSeparatedReleaseGroup clean s markers ms).
  Proof.
    unfold DashSeparatedReleaseGroup. destruct (nonnil _); [apply self|]. apply back_change_ms. intros x Hx. induction (parts_of markers) as [|p ps IH]; cbn [dash_parts] in Hx; [destruct Hx|]. destruct (nonnil (fst (dash_part clean s markers ms p)) || _); [|auto]. clear IH.
    unfold dash_part in Hx. destruct (detect_end s markers ms p) as [c|]; [|destruct (detect_start s markers ms p) as [c|]; [|destruct Hx]]; cbn [snd] in Hx; (destruct (nonnil _); [|destruct Hx]); destruct Hx as [<-|[]]; apply good_group; reflexivity.
  Qed.
  Lemma b_scene clean : back (SceneReleaseGroup clean s markers ms).
  Proof.
    unfold SceneReleaseGroup. assert (G : forall parts st, back (fst st) -> (forall x, In x (snd st) -> good x) -> let st' := fold_left (scene_step clean s markers) parts st in back (fst st') /\ (forall x, In x (snd st') -> good x)).
    { induction parts as [|p ps IH]; intros st H1 H2; [auto|]. cbn [fold_left]. apply IH; unfold scene_step; destruct (scene_part clean s markers (fst st) p) as [[g rem]|] eqn:E; auto; cbn [fst snd]; [apply back_remove; exact H1|].
      intros x Hx. apply in_app_iff in Hx as [Hx|[<-|[]]]; [auto|]. unfold scene_part in E. destruct (nonnil _); [discriminate|]. destruct (scene_hole clean s (fst st) p) as [h|]; [|discriminate]. destruct (_ && _ && _); [|discriminate]. injection E as <- _.
      unfold scene_match. destruct (truthy_o _) as [g|]; [|apply good_group; reflexivity]. destruct (str_eqb _ _); apply good_group; reflexivity. }
    destruct (G (marker_sorted s ms comparator_predicate (parts_of markers)) (ms, [])) as [A B]; [apply self|intros x []|]. apply back_append; auto.
  Qed.
  Lemma b_anime : back (AnimeReleaseGroup s markers ms).
  Proof.
    unfold AnimeReleaseGroup. destruct (nonnil _); [apply self|]. apply back_change_ms. intros x Hx. rewrite joins_snd, map_map in Hx. apply concat_In in Hx as (p & _ & Hx).
    unfold anime_part in Hx. destruct (truthy_o _) as [g|] eqn:F; [|destruct Hx]. destruct Hx as [<-|[]]. apply good_group; [reflexivity|]. unfold truthy_o in F. destruct (first _) as [y|] eqn:Y; [|discriminate]. destruct (m_truthy y); [|discriminate]. injection F as ->. apply first_sub, range_In in Y as [Y _]. cbn. apply Q; exact Y.
  Qed.
  (** *** processors *)
  Lemma b_enlarge : back (EnlargeGroupMatches markers ms).
  Proof.
    assert (R : forall f l base, back base -> (forall x, In x l -> good (f x)) -> back (replace_each f l base)).
    { intros f. induction l as [|m l IH]; intros base H1 H2; [exact H1|]. unfold replace_each. cbn [fold_left]. apply IH; [|intros x Hx; apply H2; right; exact Hx]. intros x Hx. apply in_app_iff in Hx as [Hx|[<-|[]]]; [apply H1; eapply remove1_sub; exact Hx|apply H2; left; reflexivity]. }
    assert (Sp : forall x a b, In x ms -> good (set_span x a b)) by (intros x a b Hx; apply (good_copy ms x); [exact Hx|reflexivity|apply alike_refl|auto|auto|reflexivity]).
    unfold EnlargeGroupMatches. cbv zeta. apply R; [apply R|].
    - apply self.
    - intros x Hx. unfold enlarge_starting in Hx. apply in_flat_map in Hx as (g & _ & Hx). apply filter_In in Hx as [Hx _]. apply Sp; exact Hx.
    - intros x Hx. apply in_map_iff in Hx as (m & <- & Hm). unfold enlarge_ending in Hm. apply in_flat_map in Hm as (g & Hg & Hm). apply filter_In in Hm as [Hm _]. destruct (mmem m (enlarge_starting markers ms)); [|apply Sp; exact Hm].
      apply (good_copy ms m); [exact Hm|reflexivity|apply alike_refl|auto|auto|reflexivity].
  Qed.
  Lemma b_equivalent names : back (EquivalentHoles names s markers ms).
  Proof.
    unfold EquivalentHoles.
    assert (RD : forall l, Forall2 recased ms l -> back l).
    { intros l F x Hx. destruct (all2_in _ _ F x Hx) as (m & Hm & [->|(t & t' & V & _ & C & ->)]); [apply good_self; exact Hm|]. apply (good_copy ms m); [exact Hm|reflexivity| |auto|auto|reflexivity]. right. exists t, t'. auto. }
    assert (G : forall parts st, Forall2 recased ms (e_ms st) -> (forall x, In x (e_new st) -> good x) -> let st' := fold_left (eq_part names s) parts st in Forall2 recased ms (e_ms st') /\ (forall x, In x (e_new st') -> good x)).
    { induction parts as [|p ps IH]; intros st H1 H2; [auto|]. cbn [fold_left].
      pose proof (eq_names_spec (fun _ => True) ms names (mk_eq (map (fun h => (h, cleaned (Title.raw s h))) (holes s (e_ms st) (m_start p) (m_end p) never None)) (e_ms st) (e_new st)) H1 (fun _ _ _ _ => Logic.I) (fun _ _ => Logic.I)) as X.
      cbv zeta in X. cbn [e_holes e_new] in X. destruct X as (F & _ & l & E & L & _). apply IH; [exact F|]. intros x Hx. unfold eq_part in Hx. rewrite E in Hx. apply in_app_iff in Hx as [Hx|Hx]; [auto|]. destruct (L x Hx) as (h & Hh & n & (l1 & l2 & _ & (m & t & Hm & Mn & Mv & SC & _) & _) & (v & V & _ & ->)).
      split; [left; reflexivity|]. right. exists m. split; [exact Hm|]. unfold same_but_case in *. split; [right; exists t, v; cbn; repeat split; auto; congruence|]. split; [left; exact Mn|]. split; [discriminate|]. intros u U [T|[]]. exfalso. cbn [In traced weak_tags] in U. repeat (destruct U as [<-|U]; [discriminate T|]). destruct U. }
    destruct (G (marker_sorted s ms comparator_predicate (parts_of markers)) (mk_eq [] ms [])) as [A B]; [apply all2_refl|intros x []|]. apply back_append; auto.
  Qed.
  Lemma b_season_year : back (SeasonYear context ms).
  Proof.
    apply back_append; [apply self|]. intros x Hx. unfold season_year in Hx. destruct (named (lit "year") ms); [|destruct Hx]. apply in_map_iff in Hx as (m & <- & Hm). apply filter_In in Hm as [Hm _]. apply named_In in Hm as [H1 H2].
    apply (good_dated ms m "year"); [exact H1|exists "season"%string; cbn; auto|cbn; auto|reflexivity|apply (kin_of ms m); [exact H1|reflexivity]].
  Qed.
  Lemma b_year_season : back (YearSeason context ms).
  Proof.
    apply back_append; [apply self|]. intros x Hx. unfold year_season in Hx. destruct (named (lit "season") ms); [|destruct Hx]. destruct (named (lit "episode") ms) as [|e0 r0]; [destruct Hx|]. apply in_map_iff in Hx as (m & <- & Hm). apply named_In in Hm as [H1 H2].
    apply (good_dated ms m "season"); [exact H1|exists "year"%string; cbn; auto|cbn; auto|reflexivity|apply (kin_of ms m); [exact H1|reflexivity]].
  Qed.
  Lemma b_strip ms' : StripSeparators s ms = Ok ms' -> back ms'.
  Proof.
    intros E x Hx. destruct (mapM_In _ _ _ E _ Hx) as (m & Hm & F). destruct (strip_raw _ _) as [ab|]; [|discriminate]. cbn [bind] in F. injection F as <-. apply (good_copy ms m); [exact Hm|reflexivity|apply alike_refl|auto|auto|reflexivity].
  Qed.
End Rules.

(** One rule: what it makes *)
Lemma step_back context s markers ms ms' : (forall m, In m ms -> placed s m) -> (forall g, In g markers -> m_parent g = None) -> step context s markers ms ms' -> back ms ms'.
Proof.
  intros P Q H. destruct H.
  - eapply b_weak_conflict; eauto.
  - apply b_remove.
  - apply b_remove.
  - eapply b_see; eauto.
  - eapply b_range; eauto; cbn; auto.
  - eapply b_range; eauto; cbn; auto.
  - unfold RemoveWeakIfMovie. destruct (type_is _ _); [apply back_self|apply b_remove].
  - apply b_remove.
  - apply b_remove.
  - apply b_remove.
  - unfold RemoveDetachedEpisodeNumber. destruct (detached ms); [apply b_remove|apply back_self].
  - apply b_remove.
  - eapply b_weak; eauto.
  - eapply b_absolute; eauto.
  - eapply b_count; eauto.
  - apply b_remove.
  - eapply b_disc; eauto.
  - apply b_remove.
  - apply b_remove.
  - eapply b_ultra; eauto.
  - eapply b_unless; [|eassumption]; cbv beta; apply b_remove.
  - eapply b_unless; [|eassumption]; cbv beta; apply b_remove.
  - eapply b_unless; [|eassumption]; cbv beta; apply b_remove.
  - apply b_remove.
  - eapply b_unless; [|eassumption]; cbv beta; apply b_remove.
  - eapply b_unless; [|eassumption]; cbv beta; apply b_remove.
  - eapply b_screen; eauto.
  - apply b_remove.
  - apply b_remove.
  - apply b_remove.
  - apply b_remove.
  - unfold KeepMarkedYear. destruct (1 <? _); [apply b_remove|apply back_self].
  - eapply b_title; eauto.
  - eapply b_title_year; eauto.
  - apply b_remove.
  - eapply b_episode_title; eauto.
  - eapply b_alternative; eauto.
  - eapply b_to_episode_title; eauto.
  - eapply b_filepart3; eauto.
  - eapply b_filepart2; eauto.
  - eapply b_rename_title; eauto.
  - eapply b_sub_extension; eauto.
  - eapply b_sub_prefix; eauto.
  - eapply b_sub_suffix; eauto.
  - unfold RemoveLanguage. destruct off; [apply b_remove|apply back_self].
  - apply b_remove.
  - apply b_remove.
  - eapply b_dash; eauto.
  - eapply b_scene; eauto.
  - eapply b_anime; eauto.
  - apply b_remove.
  - eapply b_another; eauto.
  - apply b_remove.
  - apply b_remove.
  - apply b_remove.
  - apply b_remove.
  - apply b_remove.
  - apply b_remove.
  - apply b_remove.
  - apply b_remove.
  - apply b_remove.
  - eapply b_proper; eauto.
  - eapply b_bit_rate; eauto.
  - eapply (b_number s markers ms _ "bonus_title"); [iv|nd|eassumption].
  - eapply (b_number s markers ms _ "film_title"); [iv|nd|eassumption].
  - eapply b_enlarge; eauto.
  - eapply b_equivalent; eauto.
  - apply b_remove.
  - apply b_remove.
  - eapply b_season_year; eauto.
  - eapply b_year_season; eauto.
  - eapply b_strip; eauto.
  - unfold Mimetype. destruct mime as [t|]; [destruct (nonnil t)|]; try apply back_self. intros x Hx. apply in_app_iff in Hx as [Hx|[<-|[]]]; [apply good_self; exact Hx|apply good_simple; [iv|nd]].
  - unfold TypeProcessor in *. destruct (is_disabled _ _) as [d|]; [|discriminate]. cbn [bind] in *. destruct d; match goal with H : Ok _ = Ok _ |- _ => injection H as <- end; [apply back_self|]. intros x Hx. apply in_app_iff in Hx as [Hx|[<-|[]]]; [apply good_self; exact Hx|apply good_simple; [iv|nd]].
Qed.
Lemma dated_kept n0 n : from_name n0 n -> one_of dated n -> one_of dated n0.
Proof.
  intros [->|(a & b & T & -> & ->)] H; [exact H|]. exfalso. destruct H as (t & D & E). cbn [In taken_from dated] in T, D. repeat (destruct T as [T|T]; [injection T as <- <-; repeat (destruct D as [<-|D]; [discriminate E|]); destruct D|]). destruct T.
Qed.
Lemma dated_invented n : one_of dated n -> one_of invented n.
Proof. intros (t & D & ->). cbn [In dated] in D. destruct D as [<-|[<-|[]]]; eexists; (split; [|reflexivity]); iv. Qed.
Lemma dated_back a b m1 : back a b -> In m1 b -> one_of dated (m_name m1) -> exists m, In m a /\ one_of dated (m_name m).
Proof. intros B H1 D. destruct (B m1 H1) as [_ [(_ & J & _)|(m & Hm & _ & F & _)]]; [auto|]. exists m. split; [exact Hm|]. eapply dated_kept; eauto. Qed.
(** a source comes from a source, shown if it was shown *)
Lemma source_back a b m1 : back a b -> In m1 b -> m_name m1 = lit "source" -> exists m, In m a /\ resourced m m1.
Proof.
  intros B H1 D. destruct (B m1 H1) as [_ [(_ & _ & J)|(m & Hm & _ & F & Pr & Tg)]]; [auto|]. exists m. split; [exact Hm|]. pose proof (from_source _ _ F D) as E0. split; [exact E0|]. split; [|exact Tg].
  intros Pm. destruct (Pr Pm) as [K|K]; [exact K|]. exfalso. exact (source_seen _ K E0).
Qed.
Lemma resourced_trans a b c : resourced a b -> resourced b c -> resourced a c.
Proof. intros (A1 & A2 & A3) (B1 & B2 & B3). split; [exact A1|]. split; auto. Qed.
Lemma back_trans a b c : back a b -> back b c -> back a c.
Proof.
  intros R1 R2 x Hx. destruct (R2 x Hx) as [K N]. split.
  - destruct K as [K|[(m1 & H1 & K)|K]]; [left; exact K| |right; right; exact K]. destruct (R1 m1 H1) as [J _]. unfold kin in *. rewrite K in J. exact J.
  - destruct N as [(N1 & N2 & N3)|(m1 & H1 & F)].
    + left. split; [exact N1|]. split; [intros Dx; destruct (N2 Dx) as (m1 & H1 & D1); eapply dated_back; eauto|].
      intros Dx. destruct (N3 Dx) as (m1 & H1 & D1). destruct (source_back a b m1 R1 H1 (proj1 D1)) as (m & Hm & D2). exists m. split; [exact Hm|eapply resourced_trans; eauto].
    + destruct (R1 m1 H1) as [_ [(J1 & J2 & J3)|(m & Hm & F2)]]; [left|right; exists m; split; [exact Hm|eapply found_trans; eauto]].
      destruct F as (_ & F & Pr & Tg). pose proof (from_invented _ _ F J1) as E. rewrite E in J1, J2, J3. split; [exact J1|]. split; [exact J2|]. intros Dx. destruct (J3 Dx) as (m & Hm & D2). exists m. split; [exact Hm|].
      apply (resourced_trans m m1 x D2). split; [congruence|]. split; [|exact Tg]. intros Pm. destruct (Pr Pm) as [G|G]; [exact G|]. exfalso. apply (source_seen _ G). congruence.
Qed.
Lemma runs_back context s markers ms ms' : markers_ok s markers -> (forall m, In m ms -> placed s m) -> (forall g, In g markers -> m_parent g = None) -> runs_rules context s markers ms ms' -> back ms ms'.
Proof.
  intros M P Q R. induction R as [|ms1 ms2 R IH S]; [apply back_self|]. eapply back_trans; [exact IH|]. exact (step_back context s markers ms1 ms2 (C82_placed _ _ _ _ _ M P R) Q S).
Qed.

(** ** Properties *)
(** C99. Whatever rules take place, every value in the result was found by a pattern for that property, or for the property it is taken from,
    up to the case of a text; only the properties that are [invented] have values made by a rule *)
Theorem C99_run context s markers ms ms' : markers_ok s markers -> (forall m, In m ms -> placed s m) -> (forall g, In g markers -> m_parent g = None) -> runs_rules context s markers ms ms' ->
  forall x, In x ms' -> ~ one_of invented (m_name x) -> exists m, In m ms /\ value_alike (m_value m) (m_value x) /\ from_name (m_name m) (m_name x).
Proof. intros M P Q R x Hx N. destruct (runs_back _ _ _ _ _ M P Q R x Hx) as [_ [[K _]|(m & Hm & V & F & _)]]; [contradiction|]. exists m. auto. Qed.
Print Assumptions C99_run.
(** A property that no pattern found, and that no rule makes or takes from another, is not in the result *)
Corollary C99_absent context s markers ms ms' n : markers_ok s markers -> (forall m, In m ms -> placed s m) -> (forall g, In g markers -> m_parent g = None) -> runs_rules context s markers ms ms' ->
  ~ one_of invented n -> (forall m, In m ms -> ~ from_name (m_name m) n) -> forall x, In x ms' -> m_name x <> n.
Proof. intros M P Q R N F x Hx E. destruct (C99_run _ _ _ _ _ M P Q R x Hx) as (m & Hm & _ & G); [congruence|]. apply (F m Hm). congruence. Qed.
Print Assumptions C99_absent.
(** Years and seasons are only made from years and seasons *)
Corollary C99_dated context s markers ms ms' : markers_ok s markers -> (forall m, In m ms -> placed s m) -> (forall g, In g markers -> m_parent g = None) -> runs_rules context s markers ms ms' ->
  (forall m, In m ms -> ~ one_of ["year"; "season"]%string (m_name m)) -> forall x, In x ms' -> ~ one_of ["year"; "season"]%string (m_name x).
Proof.
  intros M P Q R N x Hx D. destruct (runs_back _ _ _ _ _ M P Q R x Hx) as [_ [[_ [K _]]|(m & Hm & _ & F & _)]]; [destruct (K D) as (m & Hm & Dm); exact (N m Hm Dm)|]. apply (N m Hm). eapply dated_kept; eauto.
Qed.
Print Assumptions C99_dated.
(** A source is only made from a source: with no source found, none is in the result *)
Corollary C99_source context s markers ms ms' : markers_ok s markers -> (forall m, In m ms -> placed s m) -> (forall g, In g markers -> m_parent g = None) -> runs_rules context s markers ms ms' ->
  (forall m, In m ms -> m_name m <> lit "source") -> forall x, In x ms' -> m_name x <> lit "source".
Proof. intros M P Q R N x Hx E. destruct (source_back _ _ x (runs_back _ _ _ _ _ M P Q R) Hx E) as (m & Hm & E2 & _). exact (N m Hm E2). Qed.
Print Assumptions C99_source.
(** The two together (C98, C99): the value of a property that has no rule of its own is never lost when it is the only value for this property,
    has no other writing, and stands in a name without dash, year, season, language and audio profile *)
Theorem C98_stays context s markers ms ms' m : markers_ok s markers -> (forall x, In x ms -> placed s x) -> (forall g, In g markers -> m_parent g = None) -> runs_rules context s markers ms ms' ->
  In m ms -> ~ one_of handled (m_name m) -> ~ one_of invented (m_name m) -> ~ one_of (map snd taken_from) (m_name m) ->
  m_parent m = None -> (forall v, value_alike (m_value m) v -> v = m_value m) ->
  (forall x, In x ms -> m_name x = m_name m -> m_value x = m_value m /\ m_private x = false /\ forall t, In t weak_tags -> ~ tag t x) ->
  (forall x p, In x ms -> m_parent x = Some p -> p_name p <> m_name m) ->
  (forall x, In x ms -> ~ one_of ["year"; "season"; "language"; "audio_profile"]%string (m_name x)) -> ~ In 45%N s ->
  exists x, In x ms' /\ same_fact m x.
Proof.
  intros M P Q R Hm N1 N2 N3 Pa V Same Par None D. destruct (C98_plain _ _ _ _ _ _ M P R Hm N1 Pa D) as [K|(ms1 & x & R1 & _ & X1 & X2 & K)]; [exact K|]. exfalso.
  pose proof (runs_back _ _ _ _ _ M P Q R1) as B.
  assert (F : forall y, In y ms1 -> m_name y = m_name m -> m_value y = m_value m /\ m_private y = false /\ forall t, In t weak_tags -> ~ tag t y).
  { intros y Hy E. destruct (B y Hy) as [_ [[Iy _]|(m0 & H0 & (A1 & A2 & A3 & A4))]]; [rewrite E in Iy; contradiction|].
    assert (E0 : m_name m0 = m_name m) by (destruct A2 as [A2|(a & b & T & _ & A2)]; [congruence|]; exfalso; apply N3; exists b; split; [apply (in_map snd) in T; exact T|congruence]).
    destruct (Same m0 H0 E0) as (S1 & S2 & S3). rewrite S1 in A1. split; [apply V; exact A1|]. split; [|intros t T G; apply (S3 t T), A4; [right; exact T|exact G]]. destruct (m_private y); [|reflexivity]. destruct (A3 eq_refl) as [G|G]; [congruence|]. apply hidden_handled in G. rewrite E0 in G. contradiction. }
  destruct X2 as (E1 & _). destruct (F x X1 E1) as (Fx1 & Fx2 & Fx3). destruct K as [(r & t & H1 & H2 & H3 & H4)|[(y & p & H1 & H2 & H3)|[(y & H1 & H2 & _)|(y & H1 & H2 & H3)]]].
  - apply key_facts in H2 as (_ & _ & H2 & _). destruct (F r H1) as (_ & _ & G); [congruence|]. exact (G t H3 H4).
  - destruct (B y H1) as [[K|[(m0 & H0 & K)|(q & K1 & K2)]] _]; [congruence|apply (Par m0 p H0); congruence|]. apply N2. exists "screen_size"%string. split; [iv|congruence].
  - destruct H2 as (t & T & E). cbn [In] in T. destruct (B y H1) as [_ [(Iy & Dy & _)|(m0 & H0 & (_ & A2 & _))]].
    + destruct T as [<-|T].
      * destruct Dy as (m0 & H0 & (u & U & G)); [exists "year"%string; cbn; auto|]. apply (None m0 H0). exists u. split; [cbn [In dated] in *; tauto|exact G].
      * destruct Iy as (u & U & G). rewrite E in G. cbn [In invented] in U. destruct T as [<-|[<-|[]]]; repeat (destruct U as [<-|U]; [discriminate G|]); destruct U.
    + destruct A2 as [A2|(a & b & TF & _ & A2)].
      * apply (None m0 H0). exists t. split; [cbn [In]; tauto|congruence].
      * rewrite E in A2. cbn [In taken_from] in TF. destruct T as [<-|[<-|[<-|[]]]]; repeat (destruct TF as [TF|TF]; [injection TF as <- <-; discriminate A2|]); destruct TF.
  - destruct (F y H1 H2) as (G1 & G2 & _). destruct H3 as [[_ H3]|H3]; congruence.
Qed.
Print Assumptions C98_stays.

(** ** Examples *)
(** a film number alone with an edition and a size: it stays, and the title is found *)
Example C98_stays_ex : let s := lit "Film [f7] Extended.700MB.mkv" in
  let film := simple 7 8 (lit "film") (MvInt 7) [] in
  let ms := [film; simple 10 18 (lit "edition") (MvStr (lit "Extended")) []; simple 19 24 (lit "size") (MvQuant (inject_Z 700) (lit "MB")) []; simple 24 28 (lit "container") (MvStr (lit "mkv")) [lit "extension"]] in
  let markers := [simple 0 28 (lit "path") (MvStr []) []] in
  let size := simple 19 24 (lit "size") (MvQuant (inject_Z 700) (lit "MB")) [] in
  exists ms', runs_rules [] s markers ms ms' /\ ms' <> ms /\ exists x, In x ms' /\ same_fact size x.
Proof.
  cbv zeta. eexists. split; [eapply runs_one; [apply runs_none|apply st_title; [reflexivity|reflexivity|vm_compute; reflexivity]]|]. split; [intros E; vm_compute in E; discriminate|].
  eapply (C98_stays [] (lit "Film [f7] Extended.700MB.mkv") [simple 0 28 (lit "path") (MvStr []) []] [simple 7 8 (lit "film") (MvInt 7) []; simple 10 18 (lit "edition") (MvStr (lit "Extended")) []; simple 19 24 (lit "size") (MvQuant (inject_Z 700) (lit "MB")) []; simple 24 28 (lit "container") (MvStr (lit "mkv")) [lit "extension"]]).
  - marking.
  - placing.
  - intros g [<-|[]]. reflexivity.
  - eapply runs_one; [apply runs_none|apply st_title; [reflexivity|reflexivity|vm_compute; reflexivity]].
  - cbn; auto.
  - intros (t & T & E). cbn [In handled] in T. repeat (destruct T as [<-|T]; [discriminate E|]). destruct T.
  - intros (t & T & E). cbn [In invented] in T. repeat (destruct T as [<-|T]; [discriminate E|]). destruct T.
  - intros (t & T & E). cbn [In map snd taken_from] in T. repeat (destruct T as [<-|T]; [discriminate E|]). destruct T.
  - reflexivity.
  - intros v [<-|(a & b & E & _)]; [reflexivity|discriminate E].
  - intros x Hx E. cbn [In] in Hx. repeat (destruct Hx as [<-|Hx]; [first [discriminate E|repeat split; intros t _ []]|]). destruct Hx.
  - intros x p Hx E. cbn [In] in Hx. repeat (destruct Hx as [<-|Hx]; [discriminate E|]). destruct Hx.
  - intros x Hx (t & T & E). cbn [In] in Hx, T. repeat (destruct Hx as [<-|Hx]; [repeat (destruct T as [<-|T]; [discriminate E|]); destruct T|]). destruct Hx.
  - intros H. vm_compute in H. repeat (destruct H as [H|H]; [discriminate|]). destruct H.
Qed.
(** Limit: the list of the properties that rules make is needed. "S01E02-04" has an episode 3 that no pattern found *)
Theorem C99_limit : let s := lit "S01E02-04" in
  let ms := [simple 1 3 (lit "season") (MvInt 1) []; simple 4 6 (lit "episode") (MvInt 2) []; mk_mt 6 7 (lit "episodeSeparator") (MvStr (lit "-")) [] true 6 7 None []; simple 7 9 (lit "episode") (MvInt 4) []] in
  let markers := [simple 0 9 (lit "path") (MvStr []) []] in
  exists ms', step [] s markers ms ms' /\ exists x, In x ms' /\ m_name x = lit "episode" /\ m_value x = MvInt 3.
Proof.
  cbv zeta. eexists. split; [apply (st_episode_range [] _ _ _ (fun m => m) [lit "-"])|].
  - split; [|intros i k []]. intros m Hm. cbn [In] in Hm. repeat (destruct Hm as [<-|Hm]; [reflexivity|]). destruct Hm.
  - intros m Hm. lia.
  - intros [H|[]]. discriminate H.
  - vm_compute. eexists. split; [right; right; left; reflexivity|split; reflexivity].
Qed.
Print Assumptions C99_limit.
(** a film number, an edition and a size: no audio codec is in the result, although a title, which no pattern found, is *)
Example C99_absent_ex : let s := lit "Film [f7] Extended.700MB.mkv" in
  let ms := [simple 7 8 (lit "film") (MvInt 7) []; simple 10 18 (lit "edition") (MvStr (lit "Extended")) []; simple 19 24 (lit "size") (MvQuant (inject_Z 700) (lit "MB")) []; simple 24 28 (lit "container") (MvStr (lit "mkv")) [lit "extension"]] in
  exists ms', runs_rules [] s [simple 0 28 (lit "path") (MvStr []) []] ms ms' /\ (exists t, In t ms' /\ m_name t = lit "title") /\ forall x, In x ms' -> m_name x <> lit "audio_codec".
Proof.
  cbv zeta. eexists. match goal with |- ?A /\ _ => assert (R : A) by (eapply runs_one; [apply runs_none|apply st_title; [reflexivity|reflexivity|vm_compute; reflexivity]]) end.
  split; [exact R|]. split; [|refine (C99_absent _ _ _ _ _ (lit "audio_codec") _ _ _ R _ _)].
  - vm_compute. eexists. split; [do 4 right; left; reflexivity|reflexivity].
  - marking.
  - placing.
  - intros g [<-|[]]. reflexivity.
  - intros (t & T & E). cbn [In invented] in T. repeat (destruct T as [<-|T]; [discriminate E|]). destruct T.
  - intros m Hm F. cbn [In] in Hm. destruct F as [F|(a & b & T & _ & F)].
    + repeat (destruct Hm as [<-|Hm]; [discriminate F|]). destruct Hm.
    + clear Hm. cbn [In taken_from] in T. repeat (destruct T as [T|T]; [injection T as <- <-; discriminate F|]). destruct T.
Qed.
