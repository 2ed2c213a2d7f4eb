(** Equivalent values (C81). *)
From Verif Require Import Py PyFacts Text TextFacts Sort Formatters FormattersProofs FormattersProps Common Rebulk RebulkFacts RuleSpec Processors ProcessorsSpec ProcessorsProps Language Title TitleProofs TitleConflictProps HolesMore HolesCut EpisodeTitle Episodes EpisodesProofs EpisodeRules EpisodeRulesProps EpisodeWeakProps EpisodeSolverProps Technical TechnicalProps UltraProps ReleaseGroup AnimeGroupProps SceneGroupProps DashGroupProps Equivalent.
From Coq Require Import Arith ZifyBool Sorted.

(** ** Specification *)
(** the same match, but for the case of its text value *)
Definition recased (m m' : mt) : Prop :=
  m' = m \/ exists t t', m_value m = MvStr t /\ ~ tag "equivalent-ignore" m /\ same_but_case t t' /\ m' = set_value m (MvStr t').
(** some match with that name has that text as its value, ignoring case *)
Definition alike (ms : list mt) (n v : str) : Prop :=
  exists m t, In m ms /\ m_name m = n /\ m_value m = MvStr t /\ same_but_case t v /\ ~ tag "equivalent-ignore" m.
(** the first of the names with a match that has that value *)
Definition first_alike (ms : list mt) (names : list str) (v n : str) : Prop :=
  exists l1 l2, names = l1 ++ n :: l2 /\ alike ms n v /\ forall n', In n' l1 -> ~ alike ms n' v.
(** the clean text of a maximal stretch of a path component that no match covers *)
Definition gap (s : str) (markers ms : list mt) (h : nat * nat) (v : str) : Prop :=
  exists part, path_part markers part /\ free_run ms (m_start part) (m_end part) h /\ cleanup (slice (fst h) (snd h) s) = Ok v.
(** a text that was already there: the value of a match or a gap *)
Definition there (s : str) (markers ms : list mt) (v : str) : Prop :=
  (exists m, In m ms /\ m_value m = MvStr v) \/ exists h, gap s markers ms h v.

(** ** Proofs *)
Lemma recased_refl m : recased m m. Proof. left. reflexivity. Qed.
Lemma recased_trans a b c : recased a b -> recased b c -> recased a c.
Proof.
  intros [->|(t & t' & H1 & H2 & H3 & ->)]; [auto|]. intros [->|(u & u' & G1 & G2 & G3 & ->)]; [right; exists t, t'; auto|].
  right. exists t, u'. destruct a; cbn in *. injection G1 as <-. unfold same_but_case in *. repeat split; auto. congruence.
Qed.
Lemma recased_sym a b : recased a b -> recased b a.
Proof.
  intros [->|(t & t' & H1 & H2 & H3 & ->)]; [left; reflexivity|]. right. exists t', t. destruct a; cbn in *. subst. unfold same_but_case in *. repeat split; auto.
Qed.
Lemma recased_same a b : recased a b -> m_start b = m_start a /\ m_end b = m_end a /\ m_name b = m_name a /\ m_tags b = m_tags a.
Proof. intros [->|(t & t' & _ & _ & _ & ->)]; [auto|]. destruct a; cbn; auto. Qed.
Lemma all2_refl ms : Forall2 recased ms ms. Proof. induction ms; constructor; auto using recased_refl. Qed.
Lemma all2_trans a : forall b c, Forall2 recased a b -> Forall2 recased b c -> Forall2 recased a c.
Proof. induction a; intros b c H G; inversion H; subst; inversion G; subst; constructor; eauto using recased_trans. Qed.
Lemma all2_sym a b : Forall2 recased a b -> Forall2 recased b a.
Proof. induction 1; constructor; auto using recased_sym. Qed.
Lemma all2_in a b : Forall2 recased a b -> forall x, In x b -> exists m, In m a /\ recased m x.
Proof. induction 1 as [|m m' l l' H HF IH]; intros x []; [subst; exists m; cbn; auto|]. destruct (IH x H0) as (y & Hy & E). exists y; cbn; auto. Qed.
Lemma alike_all2 a b n v w : Forall2 recased a b -> same_but_case v w -> alike b n v -> alike a n w.
Proof.
  intros F E (m & t & Hm & N & V & S & T). destruct (all2_in _ _ F _ Hm) as (m0 & H0 & R). unfold same_but_case in *.
  exists m0. destruct (recased_same _ _ R) as (_ & _ & E1 & E2). destruct R as [->|(u & u' & U1 & U2 & U3 & ->)].
  - exists t. repeat split; auto. congruence.
  - exists u. destruct m0; cbn in *. injection V as <-. unfold same_but_case in *. repeat split; auto; congruence.
Qed.
Definition alikeb (ms : list mt) (n v : str) : bool := existsb (fun m => match eq_one n v m with Some _ => true | None => false end) ms.
Lemma eq_one_spec n v m : match eq_one n v m with
  | Some w => exists t, m_name m = n /\ m_value m = MvStr t /\ same_but_case v t /\ ~ tag "equivalent-ignore" m /\ (w = v \/ w = t) /\ same_but_case v w
  | None => ~ (exists t, m_name m = n /\ m_value m = MvStr t /\ same_but_case t v /\ ~ tag "equivalent-ignore" m) end.
Proof.
  unfold eq_one. destruct (has_name n m) eqn:N; [apply has_name_iff in N|apply has_name_false in N; intros (t & E & _); auto].
  destruct (m_value m) as [z|t|a b|o|f] eqn:V; try (intros (t & _ & E & _); discriminate).
  destruct (str_eqb (lower v) (lower t) && negb (has_tag (lit "equivalent-ignore") m)) eqn:C.
  - apply andb_true_iff in C as [C1 C2]. apply str_eqb_eq in C1. apply negb_true_iff in C2. apply has_tag_false in C2. exists t. repeat split; auto.
    + unfold preferred. destruct (C32_one_of_both v t C1) as (w & -> & W). exact W.
    + unfold preferred. destruct (C32_one_of_both v t C1) as (w & -> & [->| ->]); [reflexivity|exact C1].
  - intros (u & _ & E & S & T). injection E as <-. apply andb_false_iff in C as [C|C].
    + unfold same_but_case in S. rewrite S, str_eqb_refl in C. discriminate.
    + apply negb_false_iff in C. apply has_tag_iff in C. auto.
Qed.
Lemma alikeb_iff ms n v : alikeb ms n v = true <-> alike ms n v.
Proof.
  unfold alikeb. rewrite existsb_exists. split.
  - intros (m & Hm & E). pose proof (eq_one_spec n v m) as S. destruct (eq_one n v m); [|discriminate]. destruct S as (t & A & B & C & D & _). exists m, t. unfold same_but_case in *. auto.
  - intros (m & t & Hm & A & B & C & D). exists m. split; [exact Hm|]. pose proof (eq_one_spec n v m) as S. destruct (eq_one n v m); [reflexivity|]. exfalso. apply S. exists t. auto.
Qed.
Section Text.
  Context (P : str -> Prop).
  Definition texts (ms : list mt) : Prop := forall m t, In m ms -> m_value m = MvStr t -> P t.
  Lemma eq_scan_spec n ms : forall v, P v -> texts ms -> let '(w, f, ms') := eq_scan n v ms in
    same_but_case v w /\ Forall2 recased ms ms' /\ f = alikeb ms n v /\ P w /\ texts ms' /\ (f = false -> w = v /\ ms' = ms).
  Proof.
    induction ms as [|m r IH]; intros v Pv Pm; cbn [eq_scan]; [repeat split; auto; constructor|].
    pose proof (eq_one_spec n v m) as S. assert (Pr : texts r) by (intros x t Hx; apply Pm; right; exact Hx).
    unfold alikeb. cbn [existsb]. destruct (eq_one n v m) as [w|] eqn:E.
    - destruct S as (t & A & B & C & D & W & F). assert (Pw : P w) by (destruct W as [->| ->]; [exact Pv|apply (Pm m); [left; reflexivity|exact B]]).
      specialize (IH w Pw Pr). destruct (eq_scan n w r) as [[h g] r']. destruct IH as (I1 & I2 & I3 & I4 & I5 & _).
      unfold same_but_case in *. repeat split; auto; try congruence; try discriminate.
      + constructor; [|exact I2]. right. exists t, w. unfold same_but_case. repeat split; auto; congruence.
      + intros x u [<-|Hx] Eu; [cbn in Eu; injection Eu as <-; exact Pw|apply (I5 x); auto].
    - specialize (IH v Pv Pr). destruct (eq_scan n v r) as [[h g] r']. destruct IH as (I1 & I2 & I3 & I4 & I5 & I6).
      repeat split; auto.
      + constructor; [apply recased_refl|exact I2].
      + intros x u [<-|Hx] Eu; [apply (Pm m); auto; left; reflexivity|apply (I5 x); auto].
      + apply I6; assumption.
      + f_equal. apply I6; assumption.
  Qed.
  (** what comes of a hole: the matched name and a text which is the same but for its case *)
  Definition made (n : str) (h : span * str) (x : mt) : Prop :=
    exists v, same_but_case (snd h) v /\ P v /\ x = simple (fst (fst h)) (snd (fst h)) n (MvStr v) [lit "equivalent"].
  Lemma eq_hole_spec ms0 n st h : Forall2 recased ms0 (e_ms st) -> texts (e_ms st) -> P (snd h) ->
    exists ms', Forall2 recased ms0 ms' /\ texts ms' /\
    if alikeb ms0 n (snd h) then exists x, made n h x /\ eq_hole n st h = mk_eq (e_holes st) ms' (e_new st ++ [x])
    else eq_hole n st h = mk_eq (e_holes st ++ [h]) ms' (e_new st).
  Proof.
    intros F T Ph. unfold eq_hole. pose proof (eq_scan_spec n (e_ms st) (snd h) Ph T) as S. destruct (eq_scan n (snd h) (e_ms st)) as [[w f] ms'].
    destruct S as (S1 & S2 & S3 & S4 & S5 & S6). exists ms'. split; [eapply all2_trans; eassumption|]. split; [exact S5|].
    assert (E : alikeb ms0 n (snd h) = f).
    { rewrite S3. apply eq_iff_eq_true. rewrite !alikeb_iff. split; apply alike_all2; try reflexivity; [apply all2_sym|]; exact F. }
    rewrite E. destruct f; [|reflexivity]. eexists. split; [|reflexivity]. exists w. auto.
  Qed.
  Definition takes (ms0 : list mt) (n : str) (h : span * str) : bool := alikeb ms0 n (snd h).
  Lemma eq_name_spec ms0 n st : Forall2 recased ms0 (e_ms st) -> texts (e_ms st) -> (forall h, In h (e_holes st) -> P (snd h)) ->
    exists ms' l, Forall2 recased ms0 ms' /\ texts ms' /\ Forall2 (made n) (filter (takes ms0 n) (e_holes st)) l /\
    eq_name st n = mk_eq (filter (fun h => negb (takes ms0 n h)) (e_holes st)) ms' (e_new st ++ l).
  Proof.
    unfold eq_name. destruct st as [hs ms new]. cbn [e_holes e_ms e_new]. intros F T Ph.
    assert (G : forall hs st, (forall h, In h hs -> P (snd h)) -> Forall2 recased ms0 (e_ms st) -> texts (e_ms st) ->
      exists ms' l, Forall2 recased ms0 ms' /\ texts ms' /\ Forall2 (made n) (filter (takes ms0 n) hs) l /\
      fold_left (eq_hole n) hs st = mk_eq (e_holes st ++ filter (fun h => negb (takes ms0 n h)) hs) ms' (e_new st ++ l)).
    { clear. induction hs as [|h hs IH]; intros st Ph F T.
      - exists (e_ms st), []. rewrite !app_nil_r. destruct st. cbn. auto.
      - cbn [fold_left filter]. destruct (eq_hole_spec ms0 n st h F T (Ph h (or_introl eq_refl))) as (ms1 & F1 & T1 & S). assert (TK : takes ms0 n h = alikeb ms0 n (snd h)) by reflexivity. rewrite TK.
        destruct (alikeb ms0 n (snd h)); cbn [negb].
        + destruct S as (x & X & ->). destruct (IH (mk_eq (e_holes st) ms1 (e_new st ++ [x]))) as (ms2 & l & F2 & T2 & L & E); auto; [intros; apply Ph; right; assumption|].
          exists ms2, (x :: l). repeat split; auto. rewrite E. cbn [e_holes e_new]. rewrite <- app_assoc. reflexivity.
        + rewrite S. destruct (IH (mk_eq (e_holes st ++ [h]) ms1 (e_new st))) as (ms2 & l & F2 & T2 & L & E); auto; [intros; apply Ph; right; assumption|].
          exists ms2, l. repeat split; auto. rewrite E. cbn [e_holes e_new]. rewrite <- app_assoc. reflexivity. }
    destruct (G hs (mk_eq [] ms new) Ph F T) as (ms' & l & A). exists ms', l. exact A.
  Qed.
  Definition given (ms0 : list mt) (names : list str) (h : span * str) (x : mt) : Prop := exists n, first_alike ms0 names (snd h) n /\ made n h x.
  Lemma eq_names_spec ms0 names : forall st, Forall2 recased ms0 (e_ms st) -> texts (e_ms st) -> (forall h, In h (e_holes st) -> P (snd h)) ->
    let st' := fold_left eq_name names st in
    Forall2 recased ms0 (e_ms st') /\ texts (e_ms st') /\
    exists l, e_new st' = e_new st ++ l /\ (forall x, In x l -> exists h, In h (e_holes st) /\ given ms0 names h x) /\
    (forall h n, In h (e_holes st) -> first_alike ms0 names (snd h) n -> exists x, In x l /\ made n h x).
  Proof.
    induction names as [|n names IH]; intros st F T Ph.
    - cbn. repeat split; auto. exists []. rewrite app_nil_r. split; [reflexivity|]. split; [intros x []|]. intros h n _ (l1 & l2 & E & _). destruct l1; discriminate.
    - cbn [fold_left]. destruct (eq_name_spec ms0 n st F T Ph) as (ms1 & l1 & F1 & T1 & L1 & E). rewrite E.
      destruct (IH (mk_eq (filter (fun h => negb (takes ms0 n h)) (e_holes st)) ms1 (e_new st ++ l1))) as (F2 & T2 & l2 & N2 & A2 & B2); cbn [e_holes e_ms e_new]; auto.
      { intros h Hh. apply filter_In in Hh as [Hh _]. auto. }
      cbv zeta. split; [exact F2|]. split; [exact T2|]. exists (l1 ++ l2). cbn [e_holes e_new] in *. split; [rewrite N2, app_assoc; reflexivity|].
      assert (L : forall x, In x l1 -> exists h, In h (filter (takes ms0 n) (e_holes st)) /\ made n h x).
      { clear - L1. intros x Hx. induction L1 as [|h y hs ys H HF IH]; [destruct Hx|]. destruct Hx as [->|Hx]; [exists h; cbn; auto|]. destruct (IH Hx) as (g & G & K). exists g; cbn; auto. }
      assert (L' : forall h, In h (filter (takes ms0 n) (e_holes st)) -> exists x, In x l1 /\ made n h x).
      { clear - L1. intros x Hx. induction L1 as [|h y hs ys H HF IH]; [destruct Hx|]. destruct Hx as [->|Hx]; [exists y; cbn; auto|]. destruct (IH Hx) as (g & G & K). exists g; cbn; auto. }
      split.
      + intros x Hx. apply in_app_iff in Hx as [Hx|Hx].
        * destruct (L x Hx) as (h & Hh & M). apply filter_In in Hh as [Hh K]. exists h. split; [exact Hh|]. exists n. split; [|exact M]. exists [], names. split; [reflexivity|]. split; [apply alikeb_iff; exact K|intros n' []].
        * destruct (A2 x Hx) as (h & Hh & (n' & (k1 & k2 & E1 & E2 & E3) & M)). apply filter_In in Hh as [Hh K]. exists h. split; [exact Hh|]. exists n'. split; [|exact M]. exists (n :: k1), k2. rewrite E1. split; [reflexivity|]. split; [exact E2|].
          intros m [<-|Hm]; [|auto]. intros Q. apply alikeb_iff in Q. unfold takes in K. rewrite Q in K. discriminate.
      + intros h m Hh (k1 & k2 & E1 & E2 & E3). destruct (takes ms0 n h) eqn:K.
        * destruct k1 as [|k k1]; cbn in E1; injection E1 as -> ->.
          -- destruct (L' h) as (x & Hx & M); [apply filter_In; auto|]. exists x. split; [apply in_app_iff; auto|exact M].
          -- exfalso. apply (E3 k); [left; reflexivity|]. apply alikeb_iff. exact K.
        * destruct k1 as [|k k1]; cbn in E1; injection E1 as -> ->.
          -- apply alikeb_iff in E2. unfold takes in K. congruence.
          -- destruct (B2 h m) as (x & Hx & M); [apply filter_In; rewrite K; auto| |exists x; split; [apply in_app_iff; auto|exact M]].
             exists k1, k2. repeat split; auto. intros m' Hm'. apply E3. right. exact Hm'.
  Qed.
End Text.
Lemma all2_covered a b j : Forall2 recased a b -> covered b j -> covered a j.
Proof. intros F (m & Hm & J). destruct (all2_in _ _ F _ Hm) as (x & Hx & R). destruct (recased_same _ _ R) as (E1 & E2 & _). exists x. split; [exact Hx|lia]. Qed.
Lemma free_run_all2 a b x y h : Forall2 recased a b -> free_run a x y h -> free_run b x y h.
Proof.
  intros F (R1 & R2 & R3 & R4 & R5 & R6). repeat (split; [assumption|]). split; [|split].
  - intros j Hj C. apply (R4 j Hj). eapply all2_covered; eassumption.
  - destruct R5 as [R5|R5]; [left; exact R5|right; eapply all2_covered; [apply all2_sym; eassumption|exact R5]].
  - destruct R6 as [R6|R6]; [left; exact R6|right; eapply all2_covered; [apply all2_sym; eassumption|exact R6]].
Qed.
Section Rule.
  Context (names : list str) (s : str) (markers ms : list mt) (W : ep_ok s markers ms) (MN : nonempty markers).
  (** no value is the empty text *)
  Context (NV : forall m, In m ms -> m_value m <> MvStr []).
  Definition cleaned_hole (h : span) : span * str := (h, ReleaseGroup.cleaned (raw s h)).
  Lemma hole_gap part ms' h v : path_part markers part -> Forall2 recased ms ms' ->
    In (h, v) (map cleaned_hole (holes s ms' (m_start part) (m_end part) never None)) /\ v <> [] <-> free_run ms (m_start part) (m_end part) h /\ cleanup (slice (fst h) (snd h) s) = Ok v /\ v <> [].
  Proof.
    intros Hp F. assert (NE : nonempty ms').
    { intros m Hm. destruct (all2_in _ _ F _ Hm) as (x & Hx & R). destruct (recased_same _ _ R) as (E1 & E2 & _). pose proof (eo_nonempty _ _ _ W x Hx). lia. }
    assert (IN : inside s ms').
    { intros m Hm. destruct (all2_in _ _ F _ Hm) as (x & Hx & R). destruct (recased_same _ _ R) as (E1 & E2 & _). pose proof (eo_inside _ _ _ W x Hx). lia. }
    pose proof (eo_markers _ _ _ W part (proj1 Hp)) as Pe. pose proof (MN part (proj1 Hp)) as Pn.
    assert (Me : Nat.min (max_end s ms') (m_end part) = m_end part) by (rewrite max_end_inside by exact IN; lia).
    assert (C : ReleaseGroup.cleaned (raw s h) = v <-> cleanup (slice (fst h) (snd h) s) = Ok v).
    { unfold ReleaseGroup.cleaned, raw. destruct (C18_only_separators (slice (fst h) (snd h) s)) as (u & -> & _). split; [intros <-; reflexivity|intros H; injection H; auto]. }
    rewrite in_map_iff. unfold cleaned_hole. split.
    - intros [(h' & E & Hh) Nv]. injection E as -> E. rewrite <- C. split; [|auto]. eapply free_run_all2; [apply all2_sym; exact F|]. rewrite <- Me. apply holes_run; [exact NE|lia|exact Hh|].
      destruct (holes_ordered s ms' (m_start part) (m_end part) NE ltac:(lia)) as [_ B]. destruct (B h Hh) as (B1 & B2 & B3).
      destruct (Nat.eq_dec (fst h) (snd h)) as [Q|]; [|lia]. exfalso. apply Nv. rewrite <- E. unfold raw, slice. rewrite Q, Nat.sub_diag. reflexivity.
    - intros (R & E & Nv). split; [|exact Nv]. exists h. split; [apply C in E; rewrite E; reflexivity|]. apply run_hole; [exact NE|lia|]. rewrite Me. eapply free_run_all2; eassumption.
  Qed.
  Lemma alike_text n v : alike ms n v -> v <> [].
  Proof.
    intros (m & t & Hm & _ & V & S & _) ->. apply (NV m Hm). rewrite V. destruct t; [reflexivity|discriminate].
  Qed.
  (** what is known while the components are visited *)
  Definition P0 (v : str) : Prop := v = [] \/ there s markers ms v.
  Definition okn (x : mt) : Prop := exists h v n v', gap s markers ms h v /\ first_alike ms names v n /\ same_but_case v v' /\ there s markers ms v' /\ x = simple (fst h) (snd h) n (MvStr v') [lit "equivalent"].
  Lemma parts_spec parts : forall st, (forall p, In p parts -> path_part markers p) -> Forall2 recased ms (e_ms st) -> texts P0 (e_ms st) ->
    let st' := fold_left (eq_part names s) parts st in
    Forall2 recased ms (e_ms st') /\ texts P0 (e_ms st') /\ exists l, e_new st' = e_new st ++ l /\ (forall x, In x l -> okn x) /\
    (forall p h v n, In p parts -> free_run ms (m_start p) (m_end p) h -> cleanup (slice (fst h) (snd h) s) = Ok v -> first_alike ms names v n ->
      exists v', same_but_case v v' /\ In (simple (fst h) (snd h) n (MvStr v') [lit "equivalent"]) l).
  Proof.
    induction parts as [|p parts IH]; intros st Hp F T.
    - cbn. repeat split; auto. exists []. rewrite app_nil_r. split; [reflexivity|]. split; [intros x []|intros p h v n []].
    - cbn [fold_left]. unfold eq_part at 2 4 6. fold cleaned_hole. set (hs := map cleaned_hole (holes s (e_ms st) (m_start p) (m_end p) never None)).
      assert (Pp : path_part markers p) by (apply Hp; left; reflexivity).
      assert (G : forall h, In h hs -> P0 (snd h)).
      { intros [h v] Hh. destruct v as [|c v]; [left; reflexivity|]. right. right. exists h. exists p. split; [exact Pp|]. destruct (proj1 (hole_gap p (e_ms st) h (c :: v) Pp F)) as (A & B & _); [split; [exact Hh|discriminate]|]. auto. }
      destruct (eq_names_spec P0 ms names (mk_eq hs (e_ms st) (e_new st)) F T G) as (F1 & T1 & l1 & N1 & A1 & B1). cbn [e_holes e_ms e_new] in N1, A1, B1.
      fold hs in F1, T1. set (st1 := fold_left eq_name names (mk_eq hs (e_ms st) (e_new st))) in *.
      destruct (IH st1 (fun q Hq => Hp q (or_intror Hq)) F1 T1) as (F2 & T2 & l2 & N2 & A2 & B2).
      cbv zeta. split; [exact F2|]. split; [exact T2|]. exists (l1 ++ l2). split; [rewrite N2, N1, app_assoc; reflexivity|]. split.
      + intros x Hx. apply in_app_iff in Hx as [Hx|Hx]; [|auto]. destruct (A1 x Hx) as ([h v] & Hh & n & N & v' & V1 & V2 & V3). cbn [fst snd] in *.
        assert (Nv : v <> []) by (destruct N as (? & ? & _ & N & _); eapply alike_text; exact N).
        assert (Nv' : v' <> []) by (intros ->; destruct v; [auto|discriminate]). destruct V2 as [V2|V2]; [contradiction|].
        destruct (proj1 (hole_gap p (e_ms st) h v Pp F) (conj Hh Nv)) as (R1 & R2 & _). exists h, v, n, v'. split; [exists p; auto|auto].
      + intros q h v n [<-|Hq] R E N.
        * assert (Nv : v <> []) by (destruct N as (? & ? & _ & N & _); eapply alike_text; exact N).
          destruct (proj2 (hole_gap p (e_ms st) h v Pp F)) as [Hh _]; [auto|]. destruct (B1 (h, v) n Hh N) as (x & Hx & v' & V1 & V2 & ->). exists v'. split; [exact V1|]. apply in_app_iff. left. exact Hx.
        * destruct (B2 q h v n Hq R E N) as (v' & V & I). exists v'. split; [exact V|]. apply in_app_iff. auto.
  Qed.
  Lemma rule_spec : exists olds l, EquivalentHoles names s markers ms = append_all l olds /\ Forall2 recased ms olds /\ texts P0 olds /\ (forall x, In x l -> okn x) /\
    forall h v n, gap s markers ms h v -> first_alike ms names v n -> exists v', same_but_case v v' /\ In (simple (fst h) (snd h) n (MvStr v') [lit "equivalent"]) l.
  Proof.
    unfold EquivalentHoles. destruct (parts_spec (marker_sorted s ms comparator_predicate (parts_of markers)) (mk_eq [] ms [])) as (F & T & l & N & A & B).
    - intros p. apply sorted_parts.
    - apply all2_refl.
    - intros m t Hm V. right. left. exists m. auto.
    - cbn [e_new] in N. rewrite N. cbn [app]. eexists _, l. split; [reflexivity|]. split; [exact F|]. split; [exact T|]. split; [exact A|].
      intros h v n (p & Hp & R & E) Hn. apply (B p h v n); auto. apply sorted_parts. exact Hp.
  Qed.
  (** Nothing else changes: the rule only changes the case of text values, to that of another value or of a gap, and adds for gaps, after the
      matches, equivalent matches whose value is the text of the gap but for its case and whose name is the first one with that value *)
  Theorem C81_sound : exists olds news, EquivalentHoles names s markers ms = olds ++ news /\ Forall2 recased ms olds /\
    (forall m t, In m olds -> m_value m = MvStr t -> there s markers ms t) /\
    forall x, In x news -> exists h v n v', gap s markers ms h v /\ first_alike ms names v n /\ same_but_case v v' /\ there s markers ms v' /\
      x = simple (fst h) (snd h) n (MvStr v') [lit "equivalent"].
  Proof.
    destruct rule_spec as (olds & l & E & F & T & A & _). destruct (append_all_app l olds) as (news & E2 & N). exists olds, news. split; [congruence|]. split; [exact F|]. split.
    - intros m t Hm V. destruct (T m t Hm V) as [->|H]; [|exact H]. exfalso. destruct (all2_in _ _ F _ Hm) as (x & Hx & R). destruct R as [->|(u & u' & U1 & U2 & U3 & ->)]; [apply (NV x Hx V)|].
      cbn in V. destruct x; cbn in *. injection V as ->. destruct u; [|discriminate]. apply (NV _ Hx U1).
    - intros x Hx. apply A, N, Hx.
  Qed.
  (** Nothing is missed: a gap with the value of a match whose name is known gets an equivalent match *)
  Theorem C81_found h v n : gap s markers ms h v -> alike ms n v -> In n names ->
    exists n' v', first_alike ms names v n' /\ same_but_case v v' /\ In (simple (fst h) (snd h) n' (MvStr v') [lit "equivalent"]) (EquivalentHoles names s markers ms).
  Proof.
    intros Hg Ha Hn. assert (exists n', first_alike ms names v n') as (n' & N).
    { clear - Hn Ha. revert Hn. induction names as [|m r IH]; intros []; [|].
      - subst. exists n, [], r. auto.
      - destruct (alikeb ms m v) eqn:K; [apply alikeb_iff in K; exists m, [], r; split; [reflexivity|]; split; [exact K|intros ? []]|].
        destruct (IH H) as (n' & l1 & l2 & -> & A & B). exists n', (m :: l1), l2. split; [reflexivity|]. split; [exact A|]. intros k [<-|Hk]; [|auto]. intros X. apply alikeb_iff in X. congruence. }
    destruct rule_spec as (olds & l & E & F & _ & A & B). destruct (B h v n' Hg N) as (v' & V & I). exists n', v'. split; [exact N|]. split; [exact V|]. rewrite E.
    destruct (proj2 (append_all_keys l olds (mkey (simple (fst h) (snd h) n' (MvStr v') [lit "equivalent"])))) as (y & Hy & K); [eexists; split; [right; exact I|reflexivity]|].
    destruct (append_all_app l olds) as (news & E2 & Q). pose proof Hy as Hy'. rewrite E2 in Hy. apply in_app_iff in Hy as [Hy|Hy].
    - exfalso. destruct (all2_in _ _ F _ Hy) as (x & Hx & R). destruct (recased_same _ _ R) as (E3 & E4 & _). destruct Hg as (p & _ & (R1 & R2 & R3 & R4 & _) & _). unfold mkey in K. injection K as K1 K2 _ _ _. cbn in K1, K2.
      apply (R4 (fst h)); [lia|]. exists x. split; [exact Hx|lia].
    - destruct (A y (Q y Hy)) as (h2 & v2 & n2 & v3 & _ & _ & _ & _ & ->). unfold mkey in K. injection K as K1 K2 K3 K4. cbn in K1, K2, K3, K4. rewrite <- K1, <- K2, <- K3, <- K4. exact Hy'.
  Qed.
End Rule.
Print Assumptions C81_sound.
Print Assumptions C81_found.
Example C81_ex : let ms := [simple 0 8 (lit "title") (MvStr (lit "Big Bang")) []; simple 9 15 (lit "episode") (MvInt 1) []] in
  let markers := [simple 0 15 (lit "path") (MvStr []) []; simple 16 28 (lit "path") (MvStr []) []] in
  EquivalentHoles [lit "title"; lit "episode"] (lit "Big.Bang-S01E01/big.bang.mkv") markers (ms ++ [simple 25 28 (lit "container") (MvStr (lit "mkv")) []]) =
  ms ++ [simple 25 28 (lit "container") (MvStr (lit "mkv")) []; simple 16 25 (lit "title") (MvStr (lit "Big Bang")) [lit "equivalent"]].
Proof. vm_compute. reflexivity. Qed.
(** A limit: the equivalent matches need not agree with each other, nor with the match in the end: each gap sees the value left by the one before *)
Theorem C81_limit :
  let s := lit "big.bang-1999-BIG.BANG-10-Big.Bang" in
  let ms := [simple 0 8 (lit "title") (MvStr (lit "big bang")) []; simple 9 13 (lit "year") (MvInt 1999) []; simple 23 25 (lit "episode") (MvInt 10) []] in
  EquivalentHoles [lit "title"; lit "year"; lit "episode"] s [simple 0 34 (lit "path") (MvStr []) []] ms =
  [simple 0 8 (lit "title") (MvStr (lit "Big Bang")) []; simple 9 13 (lit "year") (MvInt 1999) []; simple 23 25 (lit "episode") (MvInt 10) [];
   simple 13 23 (lit "title") (MvStr (lit "big bang")) [lit "equivalent"]; simple 25 34 (lit "title") (MvStr (lit "Big Bang")) [lit "equivalent"]].
Proof. vm_compute. reflexivity. Qed.
