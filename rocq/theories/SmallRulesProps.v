(** C34 (type), C35 (years), C41 (bit rates) *)
From Verif Require Import Py PyFacts Text Common CommonProofs Sort Rebulk RebulkFacts RuleSpec SmallRules.
From Coq Require Import Arith Lia Permutation Sorted ZifyBool QArith.
Local Open Scope nat_scope.

(** ** C34 *)
Definition exists_named (n : string) (ms : list mt) : Prop := exists m, In m ms /\ m_name m = lit n.
Lemma some_named_iff n ms : some_named (lit n) ms = true <-> exists_named n ms.
Proof.
  unfold some_named, exists_named. split.
  - destruct (named (lit n) ms) as [|m r] eqn:E; [discriminate|]. intros _. exists m. apply named_In. rewrite E; left; reflexivity.
  - intros (m & H). apply named_In in H. destruct (named (lit n) ms); [destruct H|reflexivity].
Qed.
Definition looks_episode (ms : list mt) : Prop :=
  exists_named "episode" ms \/ exists_named "season" ms \/ exists_named "absolute_episode" ms \/ exists_named "episode_details" ms \/
  (~ exists_named "film" ms /\
   ((~ exists_named "year" ms /\ (exists_named "date" ms \/ exists_named "bonus" ms)) \/
    (exists_named "crc32" ms /\ exists g, In g ms /\ m_name g = lit "release_group" /\ In (lit "anime") (m_tags g)))).
Lemma anime_iff ms : match filter (has_tag (lit "anime")) (named (lit "release_group") ms) with [] => false | _ => true end = true <->
  exists g, In g ms /\ m_name g = lit "release_group" /\ In (lit "anime") (m_tags g).
Proof.
  split.
  - destruct (filter _ _) as [|m r] eqn:E; [discriminate|]. intros _. assert (H : In m (m :: r)) by (left; reflexivity). rewrite <- E in H.
    apply filter_In in H as [H T]. apply named_In in H. apply has_tag_iff in T. exists m; tauto.
  - intros (g & H & N & T). assert (I : In g (filter (has_tag (lit "anime")) (named (lit "release_group") ms))).
    { apply filter_In. split; [apply named_In; auto|apply has_tag_iff; exact T]. }
    destruct (filter _ _); [destruct I|reflexivity].
Qed.
Theorem C34_decision : forall context ms,
  (forall t, dget context (KS (lit "type")) = Some (VStr t) -> t <> [] -> decide_type context ms = t) /\
  (dget context (KS (lit "type")) = None ->
     (looks_episode ms -> decide_type context ms = lit "episode") /\ (~ looks_episode ms -> decide_type context ms = lit "movie")).
Proof.
  intros context ms. unfold decide_type, type_option. split.
  - intros t -> Ht. destruct t; [congruence|reflexivity].
  - intros ->. unfold looks_episode. rewrite <- !some_named_iff, <- anime_iff.
    destruct (some_named (lit "episode") ms), (some_named (lit "season") ms), (some_named (lit "episode_details") ms), (some_named (lit "absolute_episode") ms);
      cbn [orb]; try (split; [reflexivity|intros H; exfalso; apply H; auto 10]).
    destruct (some_named (lit "film") ms); [split; [intros H; exfalso; intuition discriminate|reflexivity]|].
    destruct (some_named (lit "date") ms), (some_named (lit "bonus") ms), (some_named (lit "year") ms); cbn [negb andb orb];
      try (split; [reflexivity|intros H; exfalso; apply H; do 4 right; split; [discriminate|]; left; split; [discriminate|auto]]);
      destruct (some_named (lit "crc32") ms); cbn [andb]; destruct (filter _ (named (lit "release_group") ms));
      first [ split; [reflexivity|intros H; exfalso; apply H; do 4 right; split; [discriminate|]; right; split; reflexivity]
            | split; [intros H; exfalso; intuition discriminate|reflexivity] ].
Qed.
Print Assumptions C34_decision.
(** the rule adds this one match, at the end of the input; with [type] excluded it does nothing *)
Theorem C34_one_type : forall context s ms out, TypeProcessor context s ms = Ok out -> ~ exists_named "type" ms ->
  (is_disabled context (lit "type") = Ok true /\ out = ms) \/
  (is_disabled context (lit "type") = Ok false /\
   exists t, out = ms ++ [t] /\ named (lit "type") out = [t] /\ m_value t = MvStr (decide_type context ms) /\
     m_start t = List.length s /\ m_end t = List.length s).
Proof.
  intros context s ms out H Hno. unfold TypeProcessor in H. destruct (is_disabled context (lit "type")) as [[]|]; cbn [bind] in H; [| |discriminate].
  - left. injection H as <-. auto.
  - right. split; [reflexivity|]. injection H as <-. eexists. split; [reflexivity|]. split; [|repeat split].
    unfold named at 1. rewrite filter_app. cbn [filter]. replace (filter (has_name (lit "type")) ms) with (@nil mt); [reflexivity|].
    symmetry. apply filter_nil. intros m Hm. destruct (has_name (lit "type") m) eqn:E; [|reflexivity]. exfalso; apply Hno. exists m. apply has_name_iff in E. auto.
Qed.
Print Assumptions C34_one_type.
(** limit: any text given as type is reported *)
Theorem C34_unvalidated : forall t s ms, t <> [] -> exists out,
  TypeProcessor [(KS (lit "type"), VStr t)] s ms = Ok (out ++ [simple (List.length s) (List.length s) (lit "type") (MvStr t) []]).
Proof.
  intros [|c t] s ms H; [congruence|]. exists ms. reflexivity.
Qed.
Print Assumptions C34_unvalidated.
Example C34_example :
  let m n v := simple 0 1 n (MvInt v) [] in
  decide_type [] [m (lit "season") 1%Z] = lit "episode" /\ decide_type [] [m (lit "film") 1%Z; m (lit "date") 1%Z] = lit "movie" /\
  decide_type [] [m (lit "bonus") 1%Z] = lit "episode" /\ decide_type [] [m (lit "bonus") 1%Z; m (lit "year") 1%Z] = lit "movie" /\
  decide_type [] [m (lit "crc32") 1%Z; m (lit "year") 1%Z; simple 0 1 (lit "release_group") (MvStr (lit "g")) [lit "anime"]] = lit "episode".
Proof. repeat split; reflexivity. Qed.

(** ** C35 *)
(** the year is in a bracket group: some group covers its first or its last character *)
Definition bracketed (markers : list mt) (y : mt) : Prop :=
  exists g, In g markers /\ m_name g = lit "group" /\
    (m_start g <= m_start y < m_end g \/ (0 < m_end y /\ m_start g <= m_end y - 1 < m_end g)).
Lemma in_group_iff markers y : in_group markers y = true <-> bracketed markers y.
Proof.
  unfold in_group, bracketed. rewrite <- at_match_iff. split.
  - destruct (filter _ (at_match y markers)) as [|m r] eqn:E; [discriminate|]. intros _. exists m.
    assert (H : In m (m :: r)) by (left; reflexivity). rewrite <- E in H. apply filter_In in H. rewrite has_name_iff in H. exact H.
  - intros (x & H & E). assert (I : In x (filter (has_name (lit "group")) (at_match y markers))) by (apply filter_In; rewrite has_name_iff; auto).
    destruct (filter _ (at_match y markers)); [destruct I|reflexivity].
Qed.
(** [ys] are the years in the part [k], in the order of the input *)
Definition years_of (ms : list mt) (k : mt) (ys : list mt) : Prop :=
  StronglySorted (fun a b => m_start a < m_start b) ys /\
  forall y, In y ys <-> In y ms /\ m_name y = lit "year" /\ m_start y < m_end k /\ m_start k < m_end y.
(** which year of a part having at least two is dropped *)
Definition dropped (markers : list mt) (ys : list mt) (y : mt) : Prop :=
  In y ys /\ 2 <= List.length ys /\
  ((exists b u, In b ys /\ In u ys /\ bracketed markers b /\ ~ bracketed markers u) /\
     (bracketed markers y -> exists b, In b ys /\ bracketed markers b /\ m_start b < m_start y)
   \/
   (forall x, In x ys -> ~ bracketed markers x) /\ nth_error ys 1 <> Some y).
Lemma years_in_eq s ms k ys : inside s ms -> distinct ms -> m_end k <= List.length s -> years_of ms k ys -> years_in s ms k = ys.
Proof.
  intros Hm Hd Hk [Hs Hy]. symmetry. apply sorted_lt_unique; [exact Hs|unfold years_in, range; apply filter_sorted, filter_sorted, msorted_sorted|].
  apply NoDup_Permutation; [apply sorted_NoDup; exact Hs|unfold years_in, range; apply NoDup_filter, NoDup_filter, distinct_NoDup, distinct_msorted; exact Hd|].
  intros x. rewrite Hy. unfold years_in. rewrite range_In' by assumption. rewrite has_name_iff. tauto.
Qed.
Lemma year_removed_spec markers ys y : StronglySorted (fun a b => m_start a < m_start b) ys ->
  In y (year_removed markers ys) <-> dropped markers ys y.
Proof.
  intros Hs. unfold year_removed, dropped.
  destruct (Nat.ltb_spec 1 (List.length ys)) as [Hl|Hl]; [|split; [intros []|intros (_ & H & _); lia]].
  assert (U : forall x, negb (in_group markers x) = true <-> ~ bracketed markers x) by (intros x; rewrite <- in_group_iff; destruct (in_group markers x); split; cbn; congruence).
  assert (GI : forall x, In x (filter (in_group markers) ys) <-> In x ys /\ bracketed markers x) by (intros x; rewrite filter_In, in_group_iff; reflexivity).
  assert (UI : forall x, In x (filter (fun y => negb (in_group markers y)) ys) <-> In x ys /\ ~ bracketed markers x) by (intros x; rewrite filter_In, U; reflexivity).
  pose proof (filter_sorted _ (in_group markers) ys Hs) as GS.
  destruct (filter (in_group markers) ys) as [|g gs] eqn:EG.
  - assert (N : forall x, In x ys -> ~ bracketed markers x) by (intros x Hx Hb; apply (proj2 (GI x)); auto).
    replace (filter (fun y => negb (in_group markers y)) ys) with ys in * by (symmetry; apply filter_id; intros x Hx; apply U; auto).
    destruct ys as [|a [|b r]]; cbn [List.length] in Hl; [lia|lia|]. cbn [tl nth_error].
    inversion Hs as [|? ? Hs' Ha]; subst. inversion Hs' as [|? ? Hs'' Hb]; subst. rewrite Forall_forall in Ha, Hb. split.
    + intros Hy. split; [cbn in *; tauto|]. split; [cbn; lia|]. right. split; [exact N|]. intros E; injection E as ->.
      destruct Hy as [->|Hy]; [specialize (Ha y (or_introl eq_refl)); lia|specialize (Hb y Hy); lia].
    + intros (Hy & _ & [[(b0 & u & Hb0 & _ & Hbr & _) _]|[_ Hn]]); [exfalso; exact (N b0 Hb0 Hbr)|].
      destruct Hy as [->|[->|Hy]]; [left; reflexivity|congruence|right; exact Hy].
  - destruct (filter (fun y => negb (in_group markers y)) ys) as [|u us] eqn:EU.
    + split; [intros []|]. intros (Hy & _ & [[(b & w & _ & Hw & _ & Hnb) _]|[Hn _]]); [exact (proj2 (UI w) (conj Hw Hnb))|].
      destruct (proj1 (GI g) (or_introl eq_refl)) as [Hg Hb]. exact (Hn g Hg Hb).
    + inversion GS as [|? ? _ Hg]; subst. rewrite Forall_forall in Hg.
      assert (Ex : exists b w, In b ys /\ In w ys /\ bracketed markers b /\ ~ bracketed markers w).
      { exists g, u. destruct (proj1 (GI g) (or_introl eq_refl)). destruct (proj1 (UI u) (or_introl eq_refl)). auto. }
      rewrite in_app_iff. split.
      * intros [Hy|Hy].
        -- apply UI in Hy as [Hy Hn]. split; [exact Hy|]. split; [lia|]. left. split; [exact Ex|]. intros Hb; contradiction.
        -- assert (In y (g :: gs)) as Hy' by (right; exact Hy). apply GI in Hy' as [Hy' Hb]. split; [exact Hy'|]. split; [lia|].
           left. split; [exact Ex|]. intros _. exists g. destruct (proj1 (GI g) (or_introl eq_refl)). auto.
      * intros (Hy & _ & [[_ H]|[Hn _]]).
        -- destruct (in_group markers y) eqn:Eg; [|left; apply UI; split; [exact Hy|rewrite <- in_group_iff; congruence]].
           apply in_group_iff in Eg. right. assert (In y (g :: gs)) as Hy' by (apply GI; auto). destruct Hy' as [->|Hy']; [|exact Hy'].
           exfalso. destruct (H Eg) as (b & Hb & Hbr & Hlt). assert (In b (y :: gs)) as Hb' by (apply GI; auto).
           destruct Hb' as [->|Hb']; [lia|]. specialize (Hg b Hb'). lia.
        -- exfalso. destruct (proj1 (GI g) (or_introl eq_refl)) as [Hg' Hb]. exact (Hn g Hg' Hb).
Qed.
(** years do not overlap, hence start at different places; every part has its list of years *)
Theorem C35_years s markers ms : inside s ms -> inside s markers -> distinct ms ->
  (forall k, In k markers -> exists ys, years_of ms k ys) ->
  exists keep, KeepMarkedYear s markers ms = filter keep ms /\
    forall y, In y ms -> (keep y = false <-> exists k ys, In k markers /\ m_name k = lit "path" /\ years_of ms k ys /\ dropped markers ys y).
Proof.
  intros Hm Hk Hd Hys.
  assert (D : forall k ys y, In k markers -> years_of ms k ys -> In y (year_removed markers (years_in s ms k)) <-> dropped markers ys y).
  { intros k ys y Hin HY. rewrite (years_in_eq s ms k ys Hm Hd (proj2 (Hk k Hin)) HY). apply year_removed_spec. apply HY. }
  assert (L : forall y, In y (flat_map (fun k => year_removed markers (years_in s ms k)) (named (lit "path") markers)) <->
              exists k ys, In k markers /\ m_name k = lit "path" /\ years_of ms k ys /\ dropped markers ys y).
  { intros y. rewrite in_flat_map. split.
    - intros (k & Hin & H). apply named_In in Hin as [Hin E]. destruct (Hys k Hin) as (ys & HY). exists k, ys. split; [exact Hin|]. split; [exact E|]. split; [exact HY|]. apply (D k ys); auto.
    - intros (k & ys & Hin & E & HY & H). exists k. split; [apply named_In; auto|]. apply (D k ys); auto. }
  unfold KeepMarkedYear. destruct (Nat.ltb_spec 1 (List.length (named (lit "year") ms))) as [Hl|Hl].
  - exists (fun x => negb (mmem x (flat_map (fun k => year_removed markers (years_in s ms k)) (named (lit "path") markers)))).
    split; [apply remove_all_filter; exact Hd|]. intros y Hy. rewrite Bool.negb_false_iff, <- L. split; [|apply mmem_In].
    intros H. apply mmem_iff in H as (x & Hx & E). assert (x = y); [|subst; exact Hx]. apply (distinct_inj ms); auto.
    apply L in Hx as (k & ys & _ & _ & HY & (Hx & _)). apply HY in Hx. tauto.
  - exists (fun _ => true). split; [symmetry; apply filter_id; auto|]. intros y Hy. split; [discriminate|].
    intros (k & ys & _ & _ & HY & (_ & H2 & _)). exfalso.
    assert (incl ys (named (lit "year") ms)) by (intros x Hx; apply HY in Hx; apply named_In; tauto).
    pose proof (NoDup_incl_length (sorted_NoDup ys (proj1 HY)) H). lia.
Qed.
Print Assumptions C35_years.
Definition yr (a : nat) (v : Z) : mt := simple a (a + 4) (lit "year") (MvInt v) [].
Definition yr_s : str := lit "2001 2002 (2003) (2004)/2005.2006".
Definition yr_markers : list mt :=
  [simple 0 23 (lit "path") (MvStr []) []; simple 24 33 (lit "path") (MvStr []) []; simple 10 16 (lit "group") (MvStr []) []; simple 17 23 (lit "group") (MvStr []) []].
Example C35_example : KeepMarkedYear yr_s yr_markers [yr 0 2001; yr 5 2002; yr 11 2003; yr 18 2004; yr 24 2005; yr 29 2006] = [yr 11 2003; yr 29 2006].
Proof. reflexivity. Qed.
Example C35_example_years : years_of [yr 0 2001; yr 5 2002; yr 24 2005] (simple 0 23 (lit "path") (MvStr []) []) [yr 0 2001; yr 5 2002].
Proof.
  split; [repeat constructor|]. intros y. cbn. split.
  - intros [<-|[<-|[]]]; cbn; repeat split; auto; lia.
  - intros ([<-|[<-|[<-|[]]]] & _ & H & _); auto. cbn in H; lia.
Qed.

(** ** C41 *)
Definition video_part (m : mt) : Prop := m_name m = lit "source" \/ m_name m = lit "screen_size" \/ m_name m = lit "video_codec".
(** a small bit rate: in Kbps, or below 10 Mbps *)
Definition small (v : mval) : Prop :=
  exists q u, v = MvQuant q u /\ (u = lit "Kbps" \/ (u = lit "Mbps" /\ (q < 10)%Q)).
Lemma small_iff v : small_rate v = true <-> small v.
Proof.
  unfold small, small_rate. destruct v as [z|t|q u|i|f]; try (split; [discriminate|intros (q & u & E & _); discriminate]).
  rewrite Bool.orb_true_iff, Bool.andb_true_iff, !str_eqb_eq, Bool.negb_true_iff. split.
  - intros H. exists q, u. split; [reflexivity|]. destruct H as [H|[H H']]; [left; exact H|right; split; [exact H|]].
    apply Qnot_le_lt. intros L. apply Qle_bool_iff in L. congruence.
  - intros (q' & u' & E & H). injection E as <- <-. destruct H as [H|[H H']]; [left; exact H|right; split; [exact H|]].
    destruct (Qle_bool 10 q) eqn:L; [|reflexivity]. apply Qle_bool_iff in L. exfalso. apply (Qlt_not_le _ _ H' L).
Qed.
(** the bit rate directly follows a source, a screen size or a video codec, and it is not a small one directly followed by an audio codec *)
Definition video_rate (s : str) (ms : list mt) (m : mt) : Prop :=
  (exists p, just_before ms m p /\ video_part p /\ adjacent s ms (m_end p) (m_start m)) /\
  ~ (small (m_value m) /\ exists a, just_after ms m a /\ m_name a = lit "audio_codec" /\ adjacent s ms (m_end m) (m_start a)).
Lemma video_part_iff m : before_bit_rate m = true <-> video_part m.
Proof. unfold before_bit_rate, video_part. rewrite smem_In. cbn. intuition. Qed.
Lemma is_video_rate_iff s ms m : nonempty ms -> inside s ms -> In m ms -> is_video_rate s ms m = true <-> video_rate s ms m.
Proof.
  intros Hn Hi Hm. unfold is_video_rate, video_rate.
  assert (Ho : forall y, In y ms -> m_start y <= m_end y) by (intros y Hy; apply Hn in Hy; lia).
  assert (Hs : m_start m <= List.length s) by (pose proof (Hi m Hm); lia).
  assert (Tr : forall x, In x ms -> m_truthy x = true) by (intros x Hx; apply Hn in Hx; unfold m_truthy; lia).
  (* all the matches just before end at the same place *)
  assert (SameB : forall p q, just_before ms m p -> just_before ms m q -> m_end p = m_end q).
  { intros p q (H1 & H2 & H3) (H4 & H5 & H6). specialize (H3 q H4 H5). specialize (H6 p H1 H2). lia. }
  assert (SameA : forall p q, just_after ms m p -> just_after ms m q -> m_start p = m_start q).
  { intros p q (H1 & H2 & H3) (H4 & H5 & H6). specialize (H3 q H4 H5). specialize (H6 p H1 H2). lia. }
  assert (A : (match first (next m ms (has_name (lit "audio_codec"))) with
               | None => false | Some a => m_truthy a && negb (text_between s ms (m_end m) (m_start a)) && small_rate (m_value m) end = true) <->
              (small (m_value m) /\ exists a, just_after ms m a /\ m_name a = lit "audio_codec" /\ adjacent s ms (m_end m) (m_start a))).
  { pose proof (first_spec (next m ms (has_name (lit "audio_codec")))) as F. destruct (first _) as [a|].
    - apply (next_In m ms _ a Ho) in F as (F0 & F1 & F2 & F3). apply has_name_iff in F0.
      rewrite (Tr a F1). cbn [andb]. rewrite Bool.andb_true_iff, small_iff, not_text by (auto; pose proof (Hi a F1); lia). split.
      + intros [X Y]. split; [exact Y|]. exists a. unfold just_after. auto.
      + intros [Y (b & J & _ & X)]. split; [|exact Y]. rewrite (SameA a b); [exact X|unfold just_after; auto|exact J].
    - split; [discriminate|]. intros (_ & a & (J1 & J2 & J3) & E & _). assert (In a []) as []. rewrite <- F. apply next_In; [exact Ho|]. rewrite has_name_iff. auto. }
  pose proof (first_spec (previous m ms before_bit_rate)) as F. destruct (first (previous m ms before_bit_rate)) as [p|].
  - apply previous_In in F as (F0 & F1 & F2 & F3). apply video_part_iff in F0. rewrite (Tr p F1). cbn [andb].
    rewrite Bool.andb_true_iff, not_text by auto. rewrite <- A.
    match goal with |- _ /\ negb ?x = true <-> _ => generalize x end. intros x. split.
    + intros [X Y]. split; [exists p; unfold just_before; auto|intros E; rewrite E in Y; discriminate].
    + intros [(q & J & _ & X) Y]. split; [|destruct x; [exfalso; apply Y; reflexivity|reflexivity]]. rewrite (SameB p q); [exact X|unfold just_before; auto|exact J].
  - split; [discriminate|]. intros [(p & (J1 & J2 & J3) & V & _) _]. assert (In p []) as []. rewrite <- F. apply previous_In. rewrite video_part_iff. auto.
Qed.
(** what happens to every match, whatever the includes/excludes options; the renamed ones come last, in their order *)
Theorem C41_bit_rate context s ms audio_off video_off : nonempty ms -> inside s ms -> distinct ms ->
  is_disabled context (lit "audio_bit_rate") = Ok audio_off -> is_disabled context (lit "video_bit_rate") = Ok video_off ->
  exists video, (forall m, In m ms -> (video m = true <-> m_name m = lit "audio_bit_rate" /\ video_rate s ms m)) /\
  BitRateType context s ms = Ok (
    if audio_off then filter (fun m => negb (has_name (lit "audio_bit_rate") m)) ms
    else filter (fun m => negb (video m)) ms ++ (if video_off then [] else map (fun m => set_name m (lit "video_bit_rate")) (filter video ms))).
Proof.
  intros Hn Hi Hd Ha Hv. exists (fun m => has_name (lit "audio_bit_rate") m && is_video_rate s ms m). split.
  - intros m Hm. rewrite Bool.andb_true_iff, has_name_iff, is_video_rate_iff by auto. reflexivity.
  - unfold BitRateType, bit_rate_split. rewrite Ha. cbn [bind].
    assert (Rem : forall p, remove_all (filter p ms) ms = filter (fun m => negb (p m)) ms).
    { intros p. rewrite remove_all_filter by exact Hd. apply filter_ext_In. intros x Hx. f_equal.
      apply Bool.eq_iff_eq_true. rewrite mmem_iff. split.
      - intros (y & Hy & E). apply filter_In in Hy as [Hy Py]. replace x with y; [exact Py|]. apply (distinct_inj ms); auto.
      - intros Px. exists x. split; [apply filter_In; auto|reflexivity]. }
    destruct audio_off; cbn [bind fst snd].
    + f_equal. unfold named. rewrite <- Rem. reflexivity.
    + rewrite Hv. cbn [bind]. unfold named. rewrite !filter_filter.
      assert (E0 : forall l, rename_all (lit "video_bit_rate") [] l = l) by reflexivity.
      destruct video_off; cbn [fst snd].
      * rewrite E0, Rem, app_nil_r. reflexivity.
      * rewrite remove_all_nil. f_equal. rewrite rename_all_eq; auto.
        -- f_equal. apply filter_ext_In. intros x Hx. f_equal. apply Bool.eq_iff_eq_true. rewrite mmem_iff. split.
           ++ intros (y & Hy & E). apply filter_In in Hy as [Hy Py]. replace x with y; [exact Py|]. apply (distinct_inj ms); auto.
           ++ intros Px. exists x. split; [apply filter_In; auto|reflexivity].
        -- apply distinct_filter; exact Hd.
        -- intros m Hm. apply filter_In in Hm; tauto.
        -- intros m Hm. apply filter_In in Hm as [_ Hm]. apply andb_prop in Hm as [Hm _]. apply has_name_iff in Hm. rewrite Hm. discriminate.
Qed.
Print Assumptions C41_bit_rate.
(** no disabled property is left when the detection gave only audio bit rates *)
Theorem C41_disabled context s ms out audio_off video_off : nonempty ms -> inside s ms -> distinct ms ->
  is_disabled context (lit "audio_bit_rate") = Ok audio_off -> is_disabled context (lit "video_bit_rate") = Ok video_off ->
  (forall m, In m ms -> m_name m <> lit "video_bit_rate") -> BitRateType context s ms = Ok out ->
  (audio_off = true -> forall m, In m out -> m_name m <> lit "audio_bit_rate") /\
  (video_off = true -> forall m, In m out -> m_name m <> lit "video_bit_rate").
Proof.
  intros Hn Hi Hd Ha Hv Hno H. destruct (C41_bit_rate context s ms audio_off video_off Hn Hi Hd Ha Hv) as (video & _ & E).
  rewrite E in H. injection H as <-. split; intros ->.
  - intros m Hm. apply filter_In in Hm as [_ Hm]. intros N. apply has_name_iff in N. rewrite N in Hm. discriminate.
  - intros m Hm. destruct audio_off; [apply filter_In in Hm as [Hm _]; auto|]. rewrite app_nil_r in Hm. apply filter_In in Hm as [Hm _]. auto.
Qed.
Print Assumptions C41_disabled.
Definition br_s : str := lit "1080p 8 Mbps AAC 320 Kbps".
Definition br_ms (v : mval) : list mt := [simple 0 5 (lit "screen_size") (MvStr (lit "1080p")) []; simple 6 12 (lit "audio_bit_rate") v [];
  simple 13 16 (lit "audio_codec") (MvStr (lit "AAC")) []; simple 17 25 (lit "audio_bit_rate") (MvQuant 320 (lit "Kbps")) []].
Example C41_example :
  res_map (map m_name) (BitRateType [] br_s (br_ms (MvQuant 8 (lit "Mbps")))) = Ok [lit "screen_size"; lit "audio_bit_rate"; lit "audio_codec"; lit "audio_bit_rate"] /\
  res_map (map m_name) (BitRateType [] br_s (br_ms (MvQuant 18 (lit "Mbps")))) = Ok [lit "screen_size"; lit "audio_codec"; lit "audio_bit_rate"; lit "video_bit_rate"].
Proof. split; reflexivity. Qed.
(** limit: excluding the audio bit rate also loses what is a video bit rate *)
Theorem C41_exclude_audio_refuted : exists s ms, nonempty ms /\ inside s ms /\ distinct ms /\
  (exists m, In m ms /\ m_name m = lit "audio_bit_rate" /\ video_rate s ms m) /\
  exists out, BitRateType [(KS (lit "excludes"), VList [VStr (lit "audio_bit_rate")])] s ms = Ok out /\
    is_disabled [(KS (lit "excludes"), VList [VStr (lit "audio_bit_rate")])] (lit "video_bit_rate") = Ok false /\
    forall m, In m out -> m_name m <> lit "video_bit_rate".
Proof.
  exists br_s, (br_ms (MvQuant 18 (lit "Mbps"))).
  assert (N : nonempty (br_ms (MvQuant 18 (lit "Mbps")))) by (intros m Hm; cbn in Hm; repeat (destruct Hm as [<-|Hm]; [cbn; lia|]); destruct Hm).
  assert (I : inside br_s (br_ms (MvQuant 18 (lit "Mbps")))) by (intros m Hm; cbn in Hm; repeat (destruct Hm as [<-|Hm]; [cbn; lia|]); destruct Hm).
  assert (D : distinct (br_ms (MvQuant 18 (lit "Mbps")))) by (repeat (constructor; [cbn; intuition discriminate|]); constructor).
  split; [exact N|]. split; [exact I|]. split; [exact D|]. split.
  - exists (simple 6 12 (lit "audio_bit_rate") (MvQuant 18 (lit "Mbps")) []). split; [right; left; reflexivity|]. split; [reflexivity|].
    apply is_video_rate_iff; auto; right; left; reflexivity.
  - eexists. split; [reflexivity|]. split; [reflexivity|]. intros m Hm. cbn in Hm. repeat (destruct Hm as [<-|Hm]; [discriminate|]). destruct Hm.
Qed.
Print Assumptions C41_exclude_audio_refuted.
