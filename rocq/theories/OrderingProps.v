(** Lists of seasons and episodes are ordered (C37) *)
From Verif Require Import Py PyFacts Text TextFacts Sort Formatters Rebulk RebulkFacts RuleSpec Title TitleProofs TitleProps TitleMore EpisodeTitle EpisodeTitleProps HolesMore TitleConflictProps Episodes EpisodesProofs EpisodesProps.
From Coq Require Import Arith ZifyBool Sorted Permutation.

(** ** specification *)
(** a number that comes after a greater one was already there before *)
Definition natural_order (l : list Z) : Prop :=
  forall u x v y w, l = u ++ x :: v ++ y :: w -> (y < x)%Z -> In y u.
(** the numbers of the property, in the order of the text *)
Definition numbers_in_text (n : str) (kids : list mt) : list Z := values n (msorted kids).
(** [p] and [c] are neighbours in the list of the numbers of the property *)
Definition neighbour (n : str) (kids : list mt) (p c : mt) : Prop := exists u v, filter (has_name n) kids = u ++ p :: c :: v.
(** a separator with the text [t] is just before [c] *)
Definition separator_before (s : str) (n : str) (kids : list mt) (c : mt) (t : str) : Prop :=
  exists sep, just_before kids c sep /\ m_name sep = sepname n /\ slice (m_raw_start sep) (m_raw_end sep) s = t.
Definition close (gap : Z) (p c : mt) : Prop := (0 < num c - num p <= gap + 1)%Z.
Definition well_separated (s : str) (range_seps weak strong : list str) (gap : Z) (n : str) (kids : list mt) : Prop :=
  (exists p c t, neighbour n kids p c /\ separator_before s n kids c t /\ In t strong) \/
  (forall p c t, neighbour n kids p c -> separator_before s n kids c t -> In t weak -> ~ In t range_seps -> close gap p c).
Definition kids_ok (n : str) (kids : list mt) : Prop :=
  nonempty kids /\ forall a b, In a kids -> In b kids -> m_name a = sepname n -> m_name b = sepname n -> m_end a = m_end b -> a = b.

(** ** the order *)
Lemma no_repeat_spec : forall l seen, exists sub, no_repeat l seen = sub /\
  (forall u x v, l = u ++ x :: v -> ~ In x u -> ~ In x seen -> exists a b, sub = a ++ x :: b /\ (forall z, In z a <-> In z u /\ ~ In z seen)) .
Proof.
  induction l as [|x l IH]; intros seen; cbn [no_repeat].
  - exists []. split; [reflexivity|]. intros [|? ?] x v E; discriminate.
  - destruct (existsb (Z.eqb x) seen) eqn:E.
    + destruct (IH seen) as (sub & E1 & H). exists sub. split; [exact E1|]. intros u y v El Hu Hs.
      assert (Hx : In x seen) by (apply existsb_exists in E as (z & Hz & Ez); apply Z.eqb_eq in Ez; subst; exact Hz).
      destruct u as [|x' u]; cbn [app] in El; injection El as <- El; [contradiction|].
      destruct (H u y v El) as (a & b & Es & Ha); [intros C; apply Hu; right; exact C|exact Hs|]. exists a, b. split; [exact Es|]. intros z. rewrite Ha. cbn [In]. split; [tauto|].
      intros [[<-|Hz] Hn]; [contradiction|auto].
    + destruct (IH (x :: seen)) as (sub & E1 & H). exists (x :: sub). split; [rewrite E1; reflexivity|]. intros u y v El Hu Hs.
      assert (Hx : ~ In x seen) by (intros C; enough (existsb (Z.eqb x) seen = true) by congruence; apply existsb_exists; exists x; split; [exact C|apply Z.eqb_refl]).
      destruct u as [|x' u]; cbn [app] in El; injection El as <- El.
      * exists [], sub. split; [reflexivity|]. intros z. cbn [In]. tauto.
      * destruct (H u y v El) as (a & b & Es & Ha); [intros C; apply Hu; right; exact C|intros [->|C]; [apply Hu; left; reflexivity|exact (Hs C)]|].
        exists (x :: a), b. split; [rewrite Es; reflexivity|]. intros z. cbn [In]. rewrite Ha. cbn [In]. destruct (Z.eq_dec x z) as [->|Hxz]; [tauto|]. tauto.
Qed.
Lemma no_repeat_sub : forall l seen a x b, no_repeat l seen = a ++ x :: b -> exists u v, l = u ++ x :: v /\ ~ In x u /\ ~ In x seen /\ (forall z, In z a <-> In z u /\ ~ In z seen).
Proof.
  induction l as [|y l IH]; intros seen a x b E; cbn [no_repeat] in E; [destruct a; discriminate|].
  destruct (existsb (Z.eqb y) seen) eqn:Ey.
  - assert (Hy : In y seen) by (apply existsb_exists in Ey as (z & Hz & Ez); apply Z.eqb_eq in Ez; subst; exact Hz).
    destruct (IH seen a x b E) as (u & v & -> & Hu & Hs & Ha). exists (y :: u), v. split; [reflexivity|]. split; [intros [->|C]; [exact (Hs Hy)|exact (Hu C)]|]. split; [exact Hs|].
    intros z. rewrite Ha. cbn [In]. split; [tauto|]. intros [[<-|Hz] Hn]; [contradiction|auto].
  - assert (Hy : ~ In y seen) by (intros C; enough (existsb (Z.eqb y) seen = true) by congruence; apply existsb_exists; exists y; split; [exact C|apply Z.eqb_refl]).
    destruct a as [|y' a]; cbn [app] in E; injection E as <- E.
    + exists [], l. cbn [app In]. repeat split; auto; tauto.
    + destruct (IH (y :: seen) a x b E) as (u & v & -> & Hu & Hs & Ha). exists (y :: u), v. split; [reflexivity|]. cbn [In] in *. split; [intros [->|C]; [apply Hs; left; reflexivity|exact (Hu C)]|].
      split; [tauto|]. intros z. rewrite Ha. cbn [In]. destruct (Z.eq_dec y z) as [->|Hyz]; tauto.
Qed.
Lemma no_repeat_nodup l seen : NoDup (no_repeat l seen).
Proof.
  revert seen. induction l as [|y l IH]; intros seen; cbn [no_repeat]; [constructor|]. destruct (existsb (Z.eqb y) seen) eqn:Ey; [apply IH|]. constructor; [|apply IH].
  intros H. apply in_split in H as (a & b & E). apply no_repeat_sub in E as (u & v & _ & _ & Hs & _). apply Hs. left; reflexivity.
Qed.
Lemma sorted_isort l : StronglySorted (fun a b => Z.leb a b = true) l -> isort Z.leb l = l.
Proof.
  induction 1 as [|x l S IH F]; cbn [isort]; [reflexivity|]. rewrite IH. destruct l as [|y l]; cbn [insert]; [reflexivity|]. inversion F; subst. rewrite H1. reflexivity.
Qed.
Lemma zsorted_iff l : zsorted l = true <-> StronglySorted (fun a b => Z.leb a b = true) l.
Proof.
  unfold zsorted. destruct (list_eq_dec Z.eq_dec (isort Z.leb l) l) as [E|E].
  - split; [intros _|reflexivity]. rewrite <- E. apply isort_sorted; intros; lia.
  - split; [discriminate|]. intros S. destruct E. apply sorted_isort. exact S.
Qed.
Lemma dict_sorted l : StronglySorted (fun a b => Z.leb a b = true) (no_repeat l []) <-> natural_order l.
Proof.
  split.
  - intros S u x v y w El L. destruct (in_dec Z.eq_dec y u) as [Hy|Hy]; [exact Hy|]. exfalso.
    assert (Hfirst : forall z t, In z t -> exists a b : list Z, t = a ++ z :: b /\ ~ In z a).
    { clear. intros z. induction t as [|q t IH]; intros Hz; [destruct Hz|]. destruct (Z.eq_dec q z) as [->|Hq]; [exists [], t; split; [reflexivity|intros []]|].
      destruct Hz as [->|Hz]; [contradiction|]. destruct (IH Hz) as (a & b & -> & Ha). exists (q :: a), b. split; [reflexivity|]. intros [C|C]; [contradiction|exact (Ha C)]. }
    (* the first y *)
    destruct (Hfirst y l) as (a & b & Ea & Hya); [rewrite El; apply in_app_iff; right; right; apply in_app_iff; right; left; reflexivity|].
    destruct (no_repeat_spec l []) as (sub & E & H). destruct (H a y b Ea Hya (fun C => C)) as (a' & b' & Es & Ha').
    assert (Hxa : In x a).
    { assert (Hc : u ++ x :: v ++ y :: w = a ++ y :: b) by congruence. clear -Hc Hy L Hya. revert a Hc Hya. induction u as [|q u IH]; intros a Hc Hya; cbn [app] in Hc.
      - destruct a as [|q a]; cbn [app] in Hc; injection Hc as -> Hc; [lia|left; reflexivity].
      - destruct a as [|q' a]; cbn [app] in Hc; injection Hc as -> Hc; [destruct Hy; left; reflexivity|]. right. apply IH; auto; [intros C; apply Hy; right; exact C|intros C; apply Hya; right; exact C]. }
    rewrite E, Es in S. assert (In x a') by (apply Ha'; split; [exact Hxa|intros []]). apply in_split in H0 as (a1 & a2 & ->). rewrite <- app_assoc in S. cbn [app] in S.
    pose proof (sorted_pair _ _ _ _ _ _ S) as C. cbv beta in C. lia.
  - intros H. pose proof (no_repeat_nodup l []) as ND.
    assert (G : forall p q, no_repeat l [] = p ++ q -> StronglySorted (fun a b => Z.leb a b = true) q).
    { intros p q; revert p. induction q as [|x q IH]; intros p E; constructor.
      - apply (IH (p ++ [x])). rewrite <- app_assoc. exact E.
      - apply Forall_forall. intros y Hy. destruct (Z.leb_spec x y) as [C|C]; [reflexivity|]. exfalso. apply in_split in Hy as (q1 & q2 & ->).
        assert (E2 : no_repeat l [] = (p ++ x :: q1) ++ y :: q2) by (rewrite <- app_assoc; exact E).
        apply no_repeat_sub in E2 as (u & v & El & Hu & _ & Ha). assert (Hx : In x u) by (apply Ha; apply in_app_iff; right; left; reflexivity).
        apply in_split in Hx as (u1 & u2 & ->). rewrite <- app_assoc in El. cbn [app] in El. pose proof (H u1 x u2 y v El C) as Hin. apply Hu. apply in_app_iff. left; exact Hin. }
    apply (G [] _ eq_refl).
Qed.

(** ** the separators *)
Section Separators.
Variables (s : str) (kids : list mt) (n : str) (range_seps weak strong : list str) (gap : Z).
Hypothesis W : kids_ok n kids.
Lemma sep_before c : match first (previous c kids (has_name (n ++ lit "Separator"))) with
  | Some sep => m_truthy sep = true /\ (forall t, separator_before s n kids c t <-> t = m_raw s sep)
  | None => forall t, ~ separator_before s n kids c t end.
Proof.
  destruct W as [Wn Wu]. destruct (first (previous c kids (has_name (n ++ lit "Separator")))) as [sep|] eqn:E.
  - apply hd_error_In in E. apply previous_In in E as (E1 & E2 & E3 & E4). apply has_name_iff in E1. split; [unfold m_truthy; apply Nat.ltb_lt; apply Wn; exact E2|].
    intros t. split.
    + intros (sep' & (P1 & P2 & P3) & P4 & <-). assert (sep' = sep) as ->; [|reflexivity]. apply Wu; auto. specialize (P3 sep E2 E3). specialize (E4 sep' P1 P2). lia.
    + intros ->. exists sep. split; [split; auto|]. split; [exact E1|reflexivity].
  - intros t (sep & (P1 & P2 & P3) & P4 & _). assert (H : In sep (previous c kids (has_name (n ++ lit "Separator")))).
    { apply previous_In. split; [apply has_name_iff; exact P4|]. auto. }
    destruct (previous c kids (has_name (n ++ lit "Separator"))); [destruct H|discriminate].
Qed.
Definition pair_in (l : list mt) (p c : mt) : Prop := exists u v, l = u ++ p :: c :: v.
Lemma pair_cons a l p c : pair_in (a :: l) p c <-> (exists r, p = a /\ l = c :: r) \/ pair_in l p c.
Proof.
  split.
  - intros ([|b u] & v & E); cbn [app] in E; injection E as -> E; [left; exists v; auto|right; exists u, v; exact E].
  - intros [(r & -> & ->)|(u & v & ->)]; [exists [], r; reflexivity|exists (a :: u), v; reflexivity].
Qed.
Definition strong_in (l : list mt) : Prop := exists p c t, pair_in l p c /\ separator_before s n kids c t /\ In t strong.
Definition weak_ok (l : list mt) : Prop := forall p c t, pair_in l p c -> separator_before s n kids c t -> In t weak -> ~ In t range_seps -> close gap p c.
Lemma consecutive_spec : forall l p valid,
  consecutive s kids n range_seps weak strong gap l (Some p) valid = true <-> strong_in (p :: l) \/ (valid = true /\ weak_ok (p :: l)).
Proof.
  induction l as [|c l IH]; intros p valid; cbn [consecutive].
  - split.
    + intros ->. right. split; [reflexivity|]. intros q c t ([|? [|? ?]] & v & E); discriminate.
    + intros [(q & c & t & ([|? [|? ?]] & v & E) & _)|[H _]]; [discriminate|discriminate|discriminate|exact H].
  - assert (St : strong_in (p :: c :: l) <-> (exists t, separator_before s n kids c t /\ In t strong) \/ strong_in (c :: l)).
    { split.
      - intros (q & d & t & Hp & Hs & Ht). apply pair_cons in Hp as [(r & -> & E)|Hp]; [injection E as <- <-; left; exists t; auto|right; exists q, d, t; auto].
      - intros [(t & Hs & Ht)|(q & d & t & Hp & Hs & Ht)]; [exists p, c, t|exists q, d, t]; (split; [apply pair_cons; eauto|auto]). }
    assert (Wk : weak_ok (p :: c :: l) <-> (forall t, separator_before s n kids c t -> In t weak -> ~ In t range_seps -> close gap p c) /\ weak_ok (c :: l)).
    { split.
      - intros H. split; [intros t; apply H; apply pair_cons; eauto|]. intros q d t Hp. apply H. apply pair_cons; auto.
      - intros [H1 H2] q d t Hp Hs Hw Hr. apply pair_cons in Hp as [(r & -> & E)|Hp]; [injection E as <- <-; apply (H1 t); auto|apply (H2 q d t); auto]. }
    rewrite St, Wk. pose proof (sep_before c) as Sb. destruct (first (previous c kids (has_name (n ++ lit "Separator")))) as [sep|].
    + destruct Sb as [Tr Sb]. rewrite Tr. cbn [negb]. cbv zeta.
      assert (Wk1 : (forall t, separator_before s n kids c t -> In t weak -> ~ In t range_seps -> close gap p c) <->
        (negb (smem (m_raw s sep) range_seps) && smem (m_raw s sep) weak && negb ((0 <? num c - num p) && (num c - num p <=? gap + 1))%Z) = false).
      { split.
        - intros H. destruct (smem (m_raw s sep) range_seps) eqn:E1; [reflexivity|]. destruct (smem (m_raw s sep) weak) eqn:E2; [|reflexivity]. cbn [negb andb].
          apply smem_In in E2. assert (C : close gap p c) by (apply (H (m_raw s sep)); [apply Sb; reflexivity|exact E2|intros C; apply smem_In in C; congruence]). unfold close in C. lia.
        - intros H t Ht Hw Hr. apply Sb in Ht as ->. apply smem_In in Hw. rewrite Hw in H. destruct (smem (m_raw s sep) range_seps) eqn:E1; [apply smem_In in E1; contradiction|].
          cbn [negb andb] in H. unfold close. lia. }
      destruct (smem (m_raw s sep) strong) eqn:Es.
      * split; [intros _|reflexivity]. left. left. exists (m_raw s sep). split; [apply Sb; reflexivity|apply smem_In; exact Es].
      * rewrite IH, Wk1. assert (NS : ~ exists t, separator_before s n kids c t /\ In t strong) by (intros (t & Ht & Hs); apply Sb in Ht as ->; apply smem_In in Hs; congruence).
        destruct (negb (smem (m_raw s sep) range_seps) && smem (m_raw s sep) weak && negb ((0 <? num c - num p) && (num c - num p <=? gap + 1))%Z).
        -- split; [intros [H|[C _]]; [auto|discriminate]|]. intros [[H|H]|[_ [C _]]]; [contradiction|auto|discriminate].
        -- split; [intros [H|[H1 H2]]; auto|]. intros [[H|H]|[H1 [_ H2]]]; [contradiction|auto|auto].
    + rewrite IH. assert (NS : ~ exists t, separator_before s n kids c t /\ In t strong) by (intros (t & Ht & _); exact (Sb t Ht)).
      assert (NW : forall t, separator_before s n kids c t -> In t weak -> ~ In t range_seps -> close gap p c) by (intros t Ht; destruct (Sb t Ht)).
      tauto.
Qed.
Lemma is_consecutive_spec : is_consecutive s kids range_seps weak strong gap n = true <-> well_separated s range_seps weak strong gap n kids.
Proof.
  unfold is_consecutive, well_separated, neighbour. fold (pair_in (filter (has_name n) kids)).
  change (named n kids) with (filter (has_name n) kids). destruct (filter (has_name n) kids) as [|p l] eqn:E; cbn [consecutive].
  - split; [intros _|reflexivity]. right. intros p c t (u & v & C). destruct u; discriminate.
  - rewrite consecutive_spec. unfold strong_in, weak_ok, pair_in. split; [intros [H|[_ H]]; auto|intros [H|H]; auto].
Qed.
End Separators.

(** ** C37 *)
Theorem C37_accepted s range_seps weak strong gap kids : kids_ok (lit "episode") kids -> kids_ok (lit "season") kids ->
  ordering_validator s range_seps weak strong gap kids = true <->
  natural_order (numbers_in_text (lit "season") kids) /\ natural_order (numbers_in_text (lit "episode") kids) /\
  well_separated s range_seps weak strong gap (lit "episode") kids /\ well_separated s range_seps weak strong gap (lit "season") kids.
Proof.
  intros We Ws. unfold ordering_validator.
  assert (D : forall n, zsorted (dict_values n kids) = true <-> natural_order (numbers_in_text n kids)) by (intros n; rewrite zsorted_iff; apply dict_sorted).
  rewrite <- !D, <- (is_consecutive_spec s kids (lit "episode") range_seps weak strong gap We), <- (is_consecutive_spec s kids (lit "season") range_seps weak strong gap Ws).
  destruct (zsorted (dict_values (lit "season") kids)); cbn [negb]; [|split; [discriminate|intros (C & _); discriminate]].
  destruct (zsorted (dict_values (lit "episode") kids)); cbn [negb]; [|split; [discriminate|intros (_ & C & _); discriminate]].
  rewrite Bool.andb_true_iff. tauto.
Qed.
(** a chain never holds neighbours that are too far apart *)
Definition near (n : str) (max : Z) (l : list mt) : Prop := forall p c, neighbour n l p c -> (Z.abs (num c - num p) <= max)%Z.
Lemma too_far_iff max l : too_far max l = true <-> exists u x y, l = u ++ [x; y] /\ (max < Z.abs (num y - num x))%Z.
Proof.
  unfold too_far. split.
  - destruct (rev l) as [|y [|x r]] eqn:E; try discriminate. intros H. exists (rev r), x, y. split; [|lia].
    rewrite <- (rev_involutive l), E. cbn [rev]. rewrite <- app_assoc. reflexivity.
  - intros (u & x & y & -> & H). rewrite rev_app_distr. cbn [rev app]. lia.
Qed.
Lemma near_grow n max cur part : near n max cur -> List.length (filter (has_name n) part) <= 1 -> too_far max (named n (cur ++ part)) = false -> near n max (cur ++ part).
Proof.
  intros H L T p c (u & v & E). unfold named in T. rewrite filter_app in T, E. destruct (filter (has_name n) part) as [|y [|? ?]]; cbn [List.length] in L; [|clear L|lia].
  - rewrite app_nil_r in E. apply H. exists u, v. exact E.
  - destruct v as [|z v _] using rev_ind.
    + assert (E2 : filter (has_name n) cur ++ [y] = (u ++ [p]) ++ [c]) by (rewrite E, <- app_assoc; reflexivity). apply app_inj_tail in E2 as [E2 <-].
      destruct (Z.leb_spec (Z.abs (num y - num p)) max) as [C|C]; [exact C|]. exfalso. enough (too_far max (filter (has_name n) cur ++ [y]) = true) by congruence.
      apply too_far_iff. exists u, p, y. rewrite E2, <- app_assoc. split; [reflexivity|exact C].
    + assert (E2 : filter (has_name n) cur ++ [y] = (u ++ p :: c :: v) ++ [z]) by (rewrite E, <- app_assoc; reflexivity). apply app_inj_tail in E2 as [E2 _].
      apply H. exists u, v. exact E2.
Qed.
Theorem C37_chain episode_max season_max parts :
  (forall part, In part parts -> List.length (filter (has_name (lit "episode")) part) <= 1 /\ List.length (filter (has_name (lit "season")) part) <= 1) ->
  let chain := grow_chain (chain_breaker episode_max season_max) parts in
  near (lit "episode") episode_max chain /\ near (lit "season") season_max chain.
Proof.
  intros H. unfold grow_chain. cbv zeta.
  assert (G : forall l cur, (forall part, In part l -> List.length (filter (has_name (lit "episode")) part) <= 1 /\ List.length (filter (has_name (lit "season")) part) <= 1) ->
    near (lit "episode") episode_max cur /\ near (lit "season") season_max cur ->
    let r := fold_left (fun cur part => if chain_breaker episode_max season_max (cur ++ part) then cur else cur ++ part) l cur in
    near (lit "episode") episode_max r /\ near (lit "season") season_max r).
  { induction l as [|part l IH]; intros cur Hl Hc; cbn [fold_left]; [exact Hc|]. apply IH; [intros q Hq; apply Hl; right; exact Hq|].
    destruct (chain_breaker episode_max season_max (cur ++ part)) eqn:E; [exact Hc|]. unfold chain_breaker in E. destruct (Hl part (or_introl eq_refl)) as [L1 L2], Hc as [C1 C2].
    destruct (too_far episode_max (named (lit "episode") (cur ++ part))) eqn:E1; [discriminate|]. split; apply near_grow; assumption. }
  apply G; [exact H|]. split; intros p c (u & v & E); destruct u; discriminate.
Qed.
(** and it holds every part when no two neighbours are too far apart *)
Theorem C37_whole episode_max season_max parts :
  near (lit "episode") episode_max (List.concat parts) -> near (lit "season") season_max (List.concat parts) ->
  grow_chain (chain_breaker episode_max season_max) parts = List.concat parts.
Proof.
  intros N1 N2. unfold grow_chain.
  assert (G : forall l cur, near (lit "episode") episode_max (cur ++ List.concat l) -> near (lit "season") season_max (cur ++ List.concat l) ->
    fold_left (fun cur part => if chain_breaker episode_max season_max (cur ++ part) then cur else cur ++ part) l cur = cur ++ List.concat l).
  { induction l as [|part l IH]; intros cur M1 M2; cbn [fold_left List.concat] in *; [rewrite app_nil_r; reflexivity|]. rewrite app_assoc in M1, M2.
    assert (K : forall n max, near n max ((cur ++ part) ++ List.concat l) -> too_far max (named n (cur ++ part)) = false).
    { intros n max M. destruct (too_far max (named n (cur ++ part))) eqn:E; [|reflexivity]. exfalso. apply too_far_iff in E as (u & x & y & E & C).
      specialize (M x y). assert (Z.abs (num y - num x) <= max)%Z; [|lia]. apply M. exists u, (filter (has_name n) (List.concat l)).
      rewrite filter_app. unfold named in E. rewrite E, <- app_assoc. reflexivity. }
    unfold chain_breaker. rewrite (K _ _ M1), (K _ _ M2). rewrite IH by assumption. rewrite app_assoc. reflexivity. }
  apply (G parts []); assumption.
Qed.

(** *** examples *)
(** the separators of the configuration: weak ones are single characters *)
Example C37_weak t : In t (weak_discrete dash_seps) -> exists c, t = [c] /\ is_sep c = true /\ ~ In t dash_seps.
Proof.
  unfold weak_discrete. rewrite filter_In, in_map_iff. intros [(c & <- & Hc) E]. exists c. split; [reflexivity|]. unfold seps_no_fs in Hc. apply filter_In in Hc as [Hc _].
  split; [apply cmem_In; exact Hc|]. intros C. apply smem_In in C. rewrite C in E. discriminate.
Qed.
Definition kid (a b : nat) (n : string) (v : mval) : mt := simple a b (lit n) v [].
Definition list37 (y : Z) (sep : string) : list mt := [kid 1 2 "episode" (MvInt 1); kid 2 3 "episodeSeparator" (MvStr (lit sep)); kid 3 4 "episode" (MvInt y)].
Definition strong37 : list str := [lit "+"; lit "&"; lit "and"; lit "et"].
Example C37_ex : ordering_validator (lit "E1.2") dash_seps (weak_discrete dash_seps) strong37 1 (list37 2 ".") = true /\
  ordering_validator (lit "E1.5") dash_seps (weak_discrete dash_seps) strong37 1 (list37 5 ".") = false /\
  ordering_validator (lit "E1-5") dash_seps (weak_discrete dash_seps) strong37 1 (list37 5 "-") = true /\
  ordering_validator (lit "E1&5") dash_seps (weak_discrete dash_seps) strong37 1 (list37 5 "&") = true /\
  ordering_validator (lit "E1&0") dash_seps (weak_discrete dash_seps) strong37 1 (list37 0 "&") = false.
Proof. vm_compute. auto. Qed.
Example C37_ex_ok y sep : kids_ok (lit "episode") (list37 y sep) /\ kids_ok (lit "season") (list37 y sep).
Proof.
  assert (N : nonempty (list37 y sep)) by (intros m [<-|[<-|[<-|[]]]]; cbn; lia).
  split; (split; [exact N|]); intros a b [<-|[<-|[<-|[]]]] [<-|[<-|[<-|[]]]] Na Nb; try discriminate; reflexivity.
Qed.
(** *** limit: a number may come back after a greater one, as the list of the values has it once *)
Theorem C37_limit : exists s kids, kids_ok (lit "episode") kids /\ kids_ok (lit "season") kids /\
  ordering_validator s dash_seps (weak_discrete dash_seps) strong37 1 kids = true /\ numbers_in_text (lit "episode") kids = [1; 2; 1]%Z.
Proof.
  exists (lit "E1E2E1"), [kid 1 2 "episode" (MvInt 1); kid 2 3 "episodeSeparator" (MvStr (lit "E")); kid 3 4 "episode" (MvInt 2); kid 4 5 "episodeSeparator" (MvStr (lit "E")); kid 5 6 "episode" (MvInt 1)].
  assert (N : nonempty [kid 1 2 "episode" (MvInt 1); kid 2 3 "episodeSeparator" (MvStr (lit "E")); kid 3 4 "episode" (MvInt 2); kid 4 5 "episodeSeparator" (MvStr (lit "E")); kid 5 6 "episode" (MvInt 1)]).
  { intros m [<-|[<-|[<-|[<-|[<-|[]]]]]]; cbn; lia. }
  split; [|split; [|split; vm_compute; reflexivity]]; (split; [exact N|]); intros a b [<-|[<-|[<-|[<-|[<-|[]]]]]] [<-|[<-|[<-|[<-|[<-|[]]]]]] Na Nb E; try discriminate; reflexivity.
Qed.
Print Assumptions C37_accepted.
Print Assumptions C37_chain.
Print Assumptions C37_whole.
Print Assumptions C37_limit.
