(** C112: which of the properties that overlap is kept *)
From Verif Require Import Py PyFacts Text Sort Rebulk RebulkFacts RuleSpec EpisodeRules EpisodesProps EpisodeRulesProps EpisodeWeakProps EpisodeMoreProps EpisodeSolverProps Conflicts ConflictsProps Solvers.
From Coq Require Import Arith Lia ZifyBool.

(** * Specification: what each kind of pattern says of a match of its own and another one that overlaps it *)
Definition named_as (m : mt) (l : list string) : Prop := exists n, In n l /\ m_name m = lit n.
Definition tagged (m : mt) (t : string) : Prop := In (lit t) (m_tags m).
Definition raw_width (m : mt) : nat := m_raw_end m - m_raw_start m.
Section Spec.
  Context (s : str) (ini : mt -> mt) (kids : mt -> list mt).
  (** the other one goes *)
  Definition claims (k : kind) (m o : mt) : Prop :=
    match k with
    | Year => named_as o ["episode"; "season"]%string /\ raw_width o < raw_width m
    | Dated => named_as o ["episode"; "season"; "crc32"]%string
    | Extension => named_as o ["source"; "video_codec"]%string \/ m_name o = lit "container" /\ ~ tagged o "extension"
    | Checksum => named_as o ["episode"; "season"]%string
    | CountryFound => m_name o = lit "language" /\ (m_value m = MvStr (lit "US") \/ m_value m = MvStr (lit "GB"))
    | Expected => True
    | SizeBoth => m_name o <> lit "screen_size"
    | SourceHd => named_as o ["other"; "release_group"]%string
    | AudioCodec => m_name m = lit "audio_codec" /\ named_as o ["audio_profile"; "audio_channels"]%string
    | DtsHd => m_name o = lit "audio_codec"
    | BitRate => ~ (m_name o = lit "audio_channels" /\ ~ tagged o "weak-audio_channels")
    | SpecialEd => m_name o = lit "episode_details" /\ m_value o = MvStr (lit "Special")
    | Numbered => rivals ini m o /\ ~ yields s ini m /\ yields s ini o
    | ContainerWord | Identifier | Size4k | Bonus | Plain => False
    end.
  (** it goes itself *)
  Definition concedes (k : kind) (m o : mt) : Prop :=
    match k with
    | ContainerWord => named_as o ["source"; "video_codec"]%string \/ m_name o = lit "container" /\ tagged o "extension"
    | Identifier => named_as o ["episode"; "season"]%string
    | CountryFound => ~ (m_name o = lit "language" /\ (m_value m = MvStr (lit "US") \/ m_value m = MvStr (lit "GB")))
    | Size4k => m_name o <> lit "screen_size"
    | AudioCodec => named_as m ["audio_profile"; "audio_channels"]%string /\ m_name o = lit "audio_codec"
    | BitRate => m_name o = lit "audio_channels" /\ ~ tagged o "weak-audio_channels"
    | Bonus => named_as o ["video_codec"; "episode"]%string /\ ~ tagged o "weak-episode"
    | Numbered => m_name m <> m_name o /\ (loses s ini kids m o \/ rivals ini m o /\ yields s ini m)
    | Year | Dated | Extension | Checksum | Expected | SizeBoth | SourceHd | DtsHd | SpecialEd | Plain => False
    end.
End Spec.

(** * The solvers say just that *)
Lemma smem_named m l : smem (m_name m) (map lit l) = true <-> named_as m l.
Proof.
  rewrite smem_In, in_map_iff. unfold named_as. split; intros (n & A & B); exists n; auto.
Qed.
Lemma smem_named_no m l : smem (m_name m) (map lit l) = false <-> ~ named_as m l.
Proof. rewrite <- smem_named. destruct (smem _ _); split; congruence. Qed.
Definition answer_of (s : str) ini kids (k : kind) (m o : mt) : answer := match solver_for s ini kids k with Some f => f m o | None => Default end.
Lemma tag_dec m t : has_tag (lit t) m = true <-> tagged m t.
Proof. apply has_tag_iff. Qed.
Lemma value_dec (a b : mval) : mval_eqb a b = true <-> a = b.
Proof. apply mval_eqb_eq. Qed.
Ltac names m l := pose proof (smem_named m l); destruct (smem (m_name m) (map lit l)) eqn:?.
Theorem C112_solver s ini kids k m o :
  (answer_of s ini kids k m o = RemoveOther <-> claims s ini k m o) /\ (answer_of s ini kids k m o = RemoveMatch <-> concedes s ini kids k m o) /\ answer_of s ini kids k m o <> RemoveNone.
Proof.
  unfold answer_of. destruct k; cbn [solver_for claims concedes].
  - unfold year_solver, raw_width. change [lit "episode"; lit "season"] with (map lit ["episode"; "season"]%string). pose proof (smem_named o ["episode"; "season"]%string) as E.
    destruct (smem _ _), (m_raw_end o - m_raw_start o <? m_raw_end m - m_raw_start m) eqn:W; cbn [andb]; (split; [|split; [split; [discriminate|contradiction]|discriminate]]);
      (split; [intros H; try discriminate H|intros [H1 H2]]); try (apply E in H1); try lia; try discriminate; try reflexivity. split; [apply E; reflexivity|lia].
  - unfold date_solver. change [lit "episode"; lit "season"; lit "crc32"] with (map lit ["episode"; "season"; "crc32"]%string). pose proof (smem_named o ["episode"; "season"; "crc32"]%string) as E.
    destruct (smem _ _); (split; [|split; [split; [discriminate|contradiction]|discriminate]]); (split; [intros H; try discriminate H; apply E; reflexivity|intros H; try reflexivity; apply E in H; discriminate]).
  - unfold extension_solver. change [lit "source"; lit "video_codec"] with (map lit ["source"; "video_codec"]%string). pose proof (smem_named o ["source"; "video_codec"]%string) as E.
    pose proof (has_name_iff (lit "container") o) as C. pose proof (tag_dec o "extension") as T.
    destruct (smem _ _), (has_name _ _), (has_tag _ _); cbn [andb negb]; (split; [|split; [split; [discriminate|contradiction]|discriminate]]); intuition congruence.
  - unfold container_solver. change [lit "source"; lit "video_codec"] with (map lit ["source"; "video_codec"]%string). pose proof (smem_named o ["source"; "video_codec"]%string) as E.
    pose proof (has_name_iff (lit "container") o) as C. pose proof (tag_dec o "extension") as T.
    destruct (smem _ _), (has_name _ _), (has_tag _ _); cbn [andb negb]; intuition congruence.
  - unfold checksum_solver. change [lit "episode"; lit "season"] with (map lit ["episode"; "season"]%string). pose proof (smem_named o ["episode"; "season"]%string) as E.
    destruct (smem _ _); intuition congruence.
  - unfold identifier_solver. change [lit "episode"; lit "season"] with (map lit ["episode"; "season"]%string). pose proof (smem_named o ["episode"; "season"]%string) as E.
    destruct (smem _ _); intuition congruence.
  - unfold country_solver, big_country. pose proof (has_name_iff (lit "language") o) as L. pose proof (value_dec (m_value m) (MvStr (lit "US"))) as U. pose proof (value_dec (m_value m) (MvStr (lit "GB"))) as G.
    destruct (has_name _ _), (mval_eqb (m_value m) (MvStr (lit "US"))), (mval_eqb (m_value m) (MvStr (lit "GB"))); cbn [orb negb]; intuition congruence.
  - unfold expected_solver. intuition congruence.
  - unfold size_4k_solver. pose proof (has_name_iff (lit "screen_size") o) as L. destruct (has_name _ _); intuition congruence.
  - unfold size_both_solver. pose proof (has_name_iff (lit "screen_size") o) as L. destruct (has_name _ _); intuition congruence.
  - unfold source_solver. change [lit "other"; lit "release_group"] with (map lit ["other"; "release_group"]%string). pose proof (smem_named o ["other"; "release_group"]%string) as E. destruct (smem _ _); intuition congruence.
  - unfold audio_solver. change [lit "audio_profile"; lit "audio_channels"] with (map lit ["audio_profile"; "audio_channels"]%string).
    pose proof (smem_named o ["audio_profile"; "audio_channels"]%string) as E. pose proof (smem_named m ["audio_profile"; "audio_channels"]%string) as F.
    pose proof (has_name_iff (lit "audio_codec") m) as M. pose proof (has_name_iff (lit "audio_codec") o) as O.
    assert (X : ~ (named_as m ["audio_profile"; "audio_channels"]%string /\ m_name m = lit "audio_codec")).
    { intros [(n & [<- |[<- |[]]] & A) B]; rewrite A in B; discriminate B. }
    destruct (has_name _ m), (has_name _ o), (smem (m_name o) _), (smem (m_name m) _); cbn [andb]; intuition congruence.
  - unfold dts_solver. pose proof (has_name_iff (lit "audio_codec") o) as L. destruct (has_name _ _); intuition congruence.
  - unfold bit_rate_solver. pose proof (has_name_iff (lit "audio_channels") o) as L. pose proof (tag_dec o "weak-audio_channels") as T. destruct (has_name _ _), (has_tag _ _); cbn [andb negb]; intuition congruence.
  - unfold bonus_solver. change [lit "video_codec"; lit "episode"] with (map lit ["video_codec"; "episode"]%string). pose proof (smem_named o ["video_codec"; "episode"]%string) as E.
    pose proof (tag_dec o "weak-episode") as T. destruct (smem _ _), (has_tag _ _); cbn [andb negb]; intuition congruence.
  - unfold special_solver. pose proof (has_name_iff (lit "episode_details") o) as L. pose proof (value_dec (m_value o) (MvStr (lit "Special"))) as U.
    destruct (has_name _ _), (mval_eqb _ _); cbn [andb]; intuition congruence.
  - unfold numbered_solver. pose proof (C69_first s ini kids m o) as F. pose proof (C69_second s ini kids m o) as G.
    destruct (conflict_solver s ini kids m o); intuition congruence.
  - intuition congruence.
Qed.
Print Assumptions C112_solver.

(** * What is kept *)
Section Kept.
  Context (s : str) (ini : mt -> mt) (kids : mt -> list mt) (kind_of : obj -> kind).
  Definition solvers (o : obj) : option solver := solver_for s ini kids (kind_of o).
  (** the others that [x] may have to compete with *)
  Definition rival_of (ms : list mt) (x c : obj) : Prop := nth_error ms (fst c) = Some (snd c) /\ m_private (snd c) = false /\ fst c <> fst x /\ overlap (snd x) (snd c).
  Definition claim (a b : obj) : Prop := claims s ini (kind_of a) (snd a) (snd b).
  Definition concede (a b : obj) : Prop := concedes s ini kids (kind_of a) (snd a) (snd b).
  Lemma says_claim a b r : says solvers a b r <-> (claim a b /\ r = Some b) \/ (concede a b /\ r = Some a).
  Proof.
    destruct (C112_solver s ini kids (kind_of a) (snd a) (snd b)) as (A & B & C). unfold claim, concede, answer_of in *. split.
    - intros H. inversion H as [f F E|f F E|f F E]; subst; unfold solvers in F; rewrite F in A, B, C; [right|left|congruence]; (split; [apply A || apply B; exact E|reflexivity]).
    - destruct (solver_for s ini kids (kind_of a)) as [f|] eqn:F.
      + intros [[H ->]|[H ->]]; [apply (says_other solvers a b f)|apply (says_me solvers a b f)]; first [exact F|apply A, H|apply B, H].
      + intros [[H _]|[H _]]; [apply A in H|apply B in H]; discriminate H.
  Qed.
  (** every rival is claimed by [x] or concedes, and neither claims [x] nor makes [x] concede: [x] is kept and they all go *)
  Theorem C112_wins ms x : distinct ms -> nth_error ms (fst x) = Some (snd x) -> m_private (snd x) = false ->
    (forall c, rival_of ms x c -> (claim x c \/ concede c x) /\ ~ claim c x /\ ~ concede x c) ->
    stays solvers ms x /\ forall c, rival_of ms x c -> ~ stays solvers ms c.
  Proof.
    intros D H P A.
    assert (W : forall c, rival_of ms x c -> (says solvers x c (Some c) \/ says solvers c x (Some c)) /\ ~ says solvers c x (Some x) /\ ~ says solvers x c (Some x)).
    { intros c R. destruct (A c R) as (A1 & A2 & A3). destruct R as (_ & _ & N & _). split.
      - destruct A1 as [A1|A1]; [left|right]; apply says_claim; auto.
      - split; intros S1; apply says_claim in S1; destruct S1 as [[S1 E]|[S1 E]]; try contradiction; injection E as E; apply N; congruence. }
    assert (Only : forall a b r, says solvers a b r -> r = Some a \/ r = Some b) by (intros a b r S1; apply says_claim in S1; destruct S1 as [[_ ->]|[_ ->]]; auto).
    (* between x and a rival, only the rival is removed *)
    assert (V : forall c r, rival_of ms x c -> (verdict solvers x c r \/ verdict solvers c x r) -> r = Some c).
    { intros c r R V. destruct (W c R) as (W1 & W2 & W3).
      assert (Y : forall r', says solvers x c r' \/ says solvers c x r' -> r' = Some c).
      { intros r' [S1|S1]; destruct (Only _ _ _ S1) as [-> | ->]; try reflexivity; contradiction. }
      assert (Nosil : ~ (silent solvers c x /\ silent solvers x c)) by (intros [S1 S2]; destruct W1 as [W1|W1]; [exact (S2 _ W1)|exact (S1 _ W1)]).
      destruct V as [V|V]; inversion V as [r0 R0|r0 R1 R2|R1 R2 R0|R1 R2 R0|R1 R2 R0]; subst; try (exfalso; apply Nosil; split; assumption); apply Y; auto. }
    assert (Ne : forall c, rival_of ms x c -> Some c <> Some x) by (intros c (_ & _ & N & _) E; injection E as ->; apply N; reflexivity).
    assert (ST : stays solvers ms x).
    { split; [exact H|]. intros L. assert (N : ~ stays solvers ms x) by (intros [_ S1]; auto). apply (C97_reason _ _ _ H) in N as (_ & k & K1 & K2 & K3 & K4 & X).
      assert (NK : fst k <> fst x) by (intros E; rewrite E in K1; congruence). assert (R : rival_of ms x k) by (split; [exact K1|]; split; [exact K2|]; split; [exact NK|exact K3]).
      apply (Ne k R). symmetry. exact (V k _ R X). }
    split; [exact ST|]. intros c R SC. pose proof R as (C & PC & N & O). destruct (C97_settled solvers ms x c D ST SC P PC O (not_eq_sym N)) as [V1 _].
    pose proof (V c None R (or_introl V1)) as E. discriminate E.
  Qed.

  (** an expected title or group is kept and what overlaps it goes, but for the patterns that remove what they overlap *)
  Corollary C112_expected ms x : distinct ms -> nth_error ms (fst x) = Some (snd x) -> m_private (snd x) = false -> kind_of x = Expected -> named_as (snd x) ["title"; "release_group"]%string ->
    (forall c, rival_of ms x c -> kind_of c <> Expected /\ kind_of c <> SizeBoth /\ kind_of c <> BitRate /\ (kind_of c = SourceHd -> m_name (snd x) = lit "title")) ->
    stays solvers ms x /\ forall c, rival_of ms x c -> ~ stays solvers ms c.
  Proof.
    intros D H P K Nx A. apply C112_wins; auto. intros c R. destruct (A c R) as (N1 & N2 & N3 & N4). unfold claim, concede. rewrite K. cbn [claims concedes].
    split; [left; exact Logic.I|]. split; [|tauto].
    assert (Nm : forall l, existsb (fun n => str_eqb (lit n) (lit "title") || str_eqb (lit n) (lit "release_group")) l = false -> ~ named_as (snd x) l).
    { intros l E (n & I & En). destruct Nx as (n' & I' & En'). rewrite En in En'. apply Bool.not_true_iff_false in E. apply E. apply existsb_exists. exists n. split; [exact I|].
      apply Bool.orb_true_iff. destruct I' as [<- |[<- |[]]]; rewrite En', !str_eqb_refl; auto. }
    assert (Ne : forall n, str_eqb (lit n) (lit "title") || str_eqb (lit n) (lit "release_group") = false -> m_name (snd x) <> lit n).
    { intros n E E1. destruct Nx as (n' & I' & En'). rewrite E1 in En'. destruct I' as [<- |[<- |[]]]; rewrite En', !str_eqb_refl in E; try discriminate E; rewrite Bool.orb_true_r in E; discriminate E. }
    destruct (kind_of c); cbn [claims]; try congruence; try tauto.
    - intros [E _]. revert E. apply Nm; reflexivity.
    - apply Nm; reflexivity.
    - intros [E|[E _]]; revert E; [apply Nm; reflexivity|apply Ne; reflexivity].
    - apply Nm; reflexivity.
    - intros [E _]. revert E. apply Ne; reflexivity.
    - intros (n & [<- |[<- |[]]] & E); rewrite (N4 eq_refl) in E; discriminate E.
    - intros [_ E]. revert E. apply Nm; reflexivity.
    - apply Ne; reflexivity.
    - intros [E _]. revert E. apply Ne; reflexivity.
    - intros ((_ & Q & _) & _). unfold is_num in Q. destruct Nx as (n' & I' & En'). rewrite En' in Q. destruct I' as [<- |[<- |[]]]; destruct Q as [Q|Q]; discriminate Q.
  Qed.
  (** a date is kept against the seasons, episodes and checksums it overlaps *)
  Corollary C112_date ms x : distinct ms -> nth_error ms (fst x) = Some (snd x) -> m_private (snd x) = false -> kind_of x = Dated -> m_name (snd x) = lit "date" ->
    (forall c, rival_of ms x c -> kind_of c = Numbered /\ named_as (snd c) ["episode"; "season"]%string \/ kind_of c = Checksum /\ m_name (snd c) = lit "crc32") ->
    stays solvers ms x /\ forall c, rival_of ms x c -> ~ stays solvers ms c.
  Proof.
    intros D H P K Nx A. apply C112_wins; auto. intros c R. unfold claim, concede. rewrite K. cbn [claims concedes]. split; [left|split; [|tauto]].
    - destruct (A c R) as [[_ (n & I & E)]|[_ E]]; [exists n; split; [cbn in *; tauto|exact E]|]. exists "crc32"%string. split; [cbn; tauto|exact E].
    - destruct (A c R) as [[-> _]|[-> _]]; cbn [claims].
      + intros ((_ & Q & _) & _). unfold is_num in Q. rewrite Nx in Q. destruct Q as [Q|Q]; discriminate Q.
      + intros (n & [<- |[<- |[]]] & E); rewrite Nx in E; discriminate E.
  Qed.
  (** a year is kept against the shorter seasons and the episodes it overlaps *)
  Corollary C112_year ms x : distinct ms -> nth_error ms (fst x) = Some (snd x) -> m_private (snd x) = false -> kind_of x = Year -> m_name (snd x) = lit "year" ->
    (forall c, rival_of ms x c -> kind_of c = Numbered /\ (m_name (snd c) = lit "episode" \/ m_name (snd c) = lit "season" /\ raw_width (snd c) < raw_width (snd x))) ->
    stays solvers ms x /\ forall c, rival_of ms x c -> ~ stays solvers ms c.
  Proof.
    intros D H P K Nx A. apply C112_wins; auto. intros c R. unfold claim, concede. rewrite K. cbn [claims concedes]. destruct (A c R) as [-> A1]. cbn [claims concedes]. split; [|split; [|tauto]].
    - destruct A1 as [E|[E W]].
      + right. rewrite Nx, E. split; [discriminate|]. left. left. auto.
      + left. split; [exists "season"%string; split; [cbn; tauto|exact E]|exact W].
    - intros ((_ & Q & _) & _). unfold is_num in Q. rewrite Nx in Q. destruct Q as [Q|Q]; discriminate Q.
  Qed.
  (** whatever has no solver and is no language is kept against the countries it overlaps; a language too, but for the United States and the United Kingdom *)
  Corollary C112_country ms x : distinct ms -> nth_error ms (fst x) = Some (snd x) -> m_private (snd x) = false -> kind_of x = Plain ->
    (forall c, rival_of ms x c -> kind_of c = CountryFound /\ (m_name (snd x) = lit "language" -> m_value (snd c) <> MvStr (lit "US") /\ m_value (snd c) <> MvStr (lit "GB"))) ->
    stays solvers ms x /\ forall c, rival_of ms x c -> ~ stays solvers ms c.
  Proof.
    intros D H P K A. apply C112_wins; auto. intros c R. unfold claim, concede. rewrite K. cbn [claims concedes]. destruct (A c R) as [-> A1]. cbn [claims concedes]. split; [right|split; [|tauto]]; intuition congruence.
  Qed.
  (** and these two countries are kept against the languages *)
  Corollary C112_us ms x : distinct ms -> nth_error ms (fst x) = Some (snd x) -> m_private (snd x) = false -> kind_of x = CountryFound ->
    m_value (snd x) = MvStr (lit "US") \/ m_value (snd x) = MvStr (lit "GB") ->
    (forall c, rival_of ms x c -> kind_of c = Plain /\ m_name (snd c) = lit "language") ->
    stays solvers ms x /\ forall c, rival_of ms x c -> ~ stays solvers ms c.
  Proof.
    intros D H P K V A. apply C112_wins; auto. intros c R. unfold claim, concede. rewrite K. cbn [claims concedes]. destruct (A c R) as [-> A1]. cbn [claims concedes]. rewrite A1. tauto.
  Qed.
  (** a source, a codec or an extension is kept against the words that name containers *)
  Corollary C112_container ms x : distinct ms -> nth_error ms (fst x) = Some (snd x) -> m_private (snd x) = false -> kind_of x = Plain \/ kind_of x = Extension \/ kind_of x = SourceHd ->
    named_as (snd x) ["source"; "video_codec"]%string \/ m_name (snd x) = lit "container" /\ tagged (snd x) "extension" ->
    (forall c, rival_of ms x c -> kind_of c = ContainerWord /\ m_name (snd c) = lit "container" /\ ~ tagged (snd c) "extension") ->
    stays solvers ms x /\ forall c, rival_of ms x c -> ~ stays solvers ms c.
  Proof.
    intros D H P K V A. apply C112_wins; auto. intros c R. unfold claim, concede. destruct (A c R) as [-> A1]. cbn [claims concedes]. split; [right; exact V|]. split; [tauto|].
    destruct K as [-> |[-> | ->]]; cbn [concedes]; tauto.
  Qed.
End Kept.
Print Assumptions C112_wins. Print Assumptions C112_expected. Print Assumptions C112_date. Print Assumptions C112_year. Print Assumptions C112_country. Print Assumptions C112_us. Print Assumptions C112_container.

(** * Cases that meet the hypotheses *)
Definition ini_self (m : mt) : mt := m.
Definition no_kids (m : mt) : list mt := [].
(** 2001-02-03 read as a date, its 02 as an episode, a00102aa as a checksum over its end *)
Definition d_date := simple 0 10 (lit "date") (MvStr (lit "2001-02-03")) [].
Definition d_ep := simple 5 7 (lit "episode") (MvInt 2) [].
Definition d_crc := simple 8 16 (lit "crc32") (MvStr (lit "03a00102")) [].
Definition d_kind (o : obj) : kind := if has_name (lit "date") (snd o) then Dated else if has_name (lit "episode") (snd o) then Numbered else if has_name (lit "crc32") (snd o) then Checksum else Plain.
Example C112_nonvacuous_date : let ms := [d_ep; d_date; d_crc] in distinct ms /\ ConflictSolver (solvers (lit "2001-02-03a00102") ini_self no_kids d_kind) ms = [d_date] /\
  rival_of ms (1, d_date) (0, d_ep) /\ rival_of ms (1, d_date) (2, d_crc) /\
  (forall c, rival_of ms (1, d_date) c -> d_kind c = Numbered /\ named_as (snd c) ["episode"; "season"]%string \/ d_kind c = Checksum /\ m_name (snd c) = lit "crc32").
Proof.
  cbv zeta. split; [|split; [vm_compute; reflexivity|split; [|split]]].
  - unfold distinct. repeat constructor; cbn [In]; intuition discriminate.
  - split; [reflexivity|]. split; [reflexivity|]. split; [discriminate|]. exists 5. cbn. lia.
  - split; [reflexivity|]. split; [reflexivity|]. split; [discriminate|]. exists 8. cbn. lia.
  - intros [[|[|[|n]]] c] (H & _ & N & _); cbn [fst snd nth_error] in *; try (destruct n; discriminate H); injection H as <-.
    + left. split; [reflexivity|]. exists "episode"%string. split; [cbn; auto|reflexivity].
    + congruence.
    + right. split; reflexivity.
Qed.
(** an expected title "24" against an episode 24; the country US against the language us *)
Definition x_title := simple 0 2 (lit "title") (MvStr (lit "24")) [lit "expected"].
Definition x_ep := simple 0 2 (lit "episode") (MvInt 24) [].
Definition x_us := simple 3 5 (lit "country") (MvStr (lit "US")) [].
Definition x_lang := simple 3 5 (lit "language") (MvStr (lit "us")) [].
Definition x_kind (o : obj) : kind := if has_name (lit "title") (snd o) then Expected else if has_name (lit "episode") (snd o) then Numbered else if has_name (lit "country") (snd o) then CountryFound else Plain.
Example C112_nonvacuous_expected : ConflictSolver (solvers (lit "24 us") ini_self no_kids x_kind) [x_ep; x_title; x_lang; x_us] = [x_title; x_us].
Proof. vm_compute. reflexivity. Qed.
