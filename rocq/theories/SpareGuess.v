(** Audio channels, codecs, editions: the whole process (C115). *)
From Verif Require Import Py PyFacts Text TextFacts Sort Common Rebulk RebulkFacts RuleSpec EpisodeRulesProps TechnicalProps Conflicts ConflictsProps ToDict ToDictProofs Pipeline PipelineProps SurviveProps InventProps Guess GuessProps SpareProps.
From Coq Require Import Arith Lia ZifyBool QArith.
Local Open Scope nat_scope.

Lemma hidden_judged n : one_of hidden_later n -> one_of judged n.
Proof. intros (t & T & ->). cbn [In hidden_later] in T. repeat (destruct T as [<-|T]; [eexists; split; [|reflexivity]; hd|]). destruct T. Qed.
Lemma acts_spare context s markers (M : markers_ok s markers) ms ms' m : (forall x, In x ms -> placed s x) -> untouched markers m -> acts context s markers ms ms' -> In m ms ->
    (exists x, In x ms' /\ exact_fact m x) \/
    exists ms1 x, acts context s markers ms ms1 /\ In x ms1 /\ exact_fact m x /\ (cause s markers ms1 x \/ exists r, In r ms1 /\ mkey r = mkey x /\ m_private r = true).
Proof.
    intros P U A Hm. induction A as [|ms1 ms2 A IH S|ms1 A IH]; [left; exists m; split; [exact Hm|apply exact_refl]| |].
    - destruct IH as [(x & X1 & X2)|K]; [|right; exact K]. destruct (SpareProps.step_keeps context s markers ms1 ms2 x) as [(y & Y1 & Y2)|K]; [eapply exact_untouched; eauto| |exact X1|exact S| |].
      + intros z Hz. destruct (acts_placed _ _ _ _ _ M P A z Hz) as (Z1 & Z2 & _). lia.
      + left. exists y. split; [exact Y1|eapply exact_trans; eauto].
      + right. exists ms1, x. split; [exact A|]. split; [exact X1|]. split; [exact X2|]. left. exact K.
    - destruct IH as [(x & X1 & X2)|K]; [|right; exact K]. destruct (keep_remove (filter m_private ms1) x ms1 X1) as [K|(r & R1 & R2)]; [left; exists x; auto|right].
      apply filter_In in R1 as [R1 R3]. exists ms1, x. split; [exact A|]. split; [exact X1|]. split; [exact X2|]. right. exists r. auto.
Qed.

(** ** Property *)
(** C115. The conflicts come first. A codec, audio channels or any other value whose property is not [judged], alone with its property, standing free
    where it must and overlapped by nothing, is shown, and nothing else is shown for the property *)
Theorem C115_alone options show solver_of s markers ms ms' m : (forall v, not_list (show v)) -> py_eq (show (m_value m)) (show (m_value m)) = true -> markers_ok s markers -> (forall x, In x ms -> placed s x) -> (forall g, In g markers -> m_parent g = None) ->
  acts options s markers (ConflictSolver solver_of ms) ms' -> otruthy (dget options (KS (lit "single_value"))) = false ->
  In m ms -> m_private m = false -> (forall c, In c ms -> m_private c = false -> ConflictsProps.overlap m c -> mkey c = mkey m) ->
  ~ one_of judged (m_name m) -> (one_of standing (m_name m) -> free_standing s m) -> untouched markers m -> ~ one_of invented (m_name m) -> ~ one_of (map snd taken_from) (m_name m) -> m_name m <> lit "input_string" ->
  m_parent m = None -> (forall v, value_alike (m_value m) v -> v = m_value m) ->
  (forall x, In x ms -> m_name x = m_name m -> m_value x = m_value m /\ m_private x = false /\ forall t, In t weak_tags -> ~ tag t x) ->
  (forall x p, In x ms -> m_parent x = Some p -> p_name p <> m_name m) ->
  (forall x, In x ms -> ~ one_of ["year"; "season"; "language"; "audio_profile"]%string (m_name x)) -> ~ In 45%N s ->
  dget (result_dict options s (rows show ms')) (KS (m_name m)) = Some (if otruthy (dget options (KS (lit "enforce_list"))) then VList [show (m_value m)] else show (m_value m)).
Proof.
  intros Sh Re M P Q A Sg Hm Pu Al N1 Fr Unt N2 N3 N4 Pa V Same Par No D.
  assert (P1 : forall z, In z (ConflictSolver solver_of ms) -> placed s z) by (intros z Hz; apply P; eapply solver_sub; exact Hz).
  assert (B : forall ms1, acts options s markers (ConflictSolver solver_of ms) ms1 -> back ms ms1).
  { intros ms1 A1. eapply back_trans; [|eapply acts_back; eauto]. unfold ConflictSolver. apply back_remove. apply back_self. }
  assert (F : forall ms1 y, acts options s markers (ConflictSolver solver_of ms) ms1 -> In y ms1 -> m_name y = m_name m -> m_value y = m_value m /\ m_private y = false /\ forall t, In t weak_tags -> ~ tag t y).
  { intros ms1 y A1 Hy E. destruct (B ms1 A1 y Hy) as [_ [[Iy _]|(m0 & H0 & (A2 & A3 & A4 & A5))]]; [rewrite E in Iy; contradiction|].
    assert (E0 : m_name m0 = m_name m) by (destruct A3 as [A3|(a & b & T & _ & A3)]; [congruence|]; exfalso; apply N3; exists b; split; [apply (in_map snd) in T; exact T|congruence]).
    destruct (Same m0 H0 E0) as (S1 & S2 & S3). rewrite S1 in A2. split; [apply V; exact A2|]. split; [|intros t T G; apply (S3 t T), A5; [right; exact T|exact G]]. destruct (m_private y); [|reflexivity]. destruct (A4 eq_refl) as [G|G]; [congruence|]. exfalso. apply N1, hidden_judged. rewrite <- E0. exact G. }
  assert (H0 : In m (ConflictSolver solver_of ms)).
  { destruct (solver_keeps solver_of ms m Hm) as [K|(i & r & [j k] & K1 & K2 & K3 & (K4 & K5 & K6 & K7 & _))]; [exact K|exfalso]. cbn [fst snd] in *. apply K7. rewrite K2. symmetry. apply Al; [eapply nth_error_In; exact K4|exact K5|].
    apply key_facts in K2 as (E1 & E2 & _). destruct K6 as (c & C1 & C2). exists c. split; [lia|exact C2]. }
  assert (X : exists x, In x ms' /\ exact_fact m x).
  { destruct (acts_spare options s markers M _ ms' m P1 Unt A H0) as [K|(ms1 & x & R1 & X1 & X2 & K)]; [exact K|exfalso].
    pose proof X2 as E0. destruct X2 as (E1 & E2 & E3 & E4 & _). destruct (F ms1 x R1 X1 E1) as (Fx1 & Fx2 & Fx3).
    destruct K as [K|(r & K1 & K2 & K3)]; [|apply key_facts in K2 as (_ & _ & K2 & _); destruct (F ms1 r R1 K1) as (_ & K4 & _); congruence].
    destruct K as [H|H|y p H1 H2 H3|r t H1 H2 H3 H4|y H1 H2 H3|y Hs H1 H2 H3|y H1 H2 H3 H4|c H1 H2 H3|H1 H2|r y H1 H2 H3 H4 H5 H6|y H1 H2 H3 H4|y H1 H2 H3 H4 H5].
    - rewrite E1 in H. contradiction.
    - congruence.
    - destruct (B ms1 R1 y H1) as [[K|[(m0 & H4 & K)|(q & K1 & K2)]] _]; [congruence|apply (Par m0 p H4); congruence|]. apply N2. exists "screen_size"%string. split; [iv|congruence].
    - apply key_facts in H2 as (_ & _ & H2 & _). destruct (F ms1 r R1 H1) as (_ & _ & G); [congruence|]. exact (G t H3 H4).
    - destruct H2 as (t & T & E). cbn [In] in T. destruct (B ms1 R1 y H1) as [_ [(Iy & Dy & _)|(m0 & H4 & (_ & A2 & _))]].
      + destruct T as [<-|T].
        * destruct Dy as (m0 & H4 & (u & U & G)); [exists "year"%string; cbn; auto|]. apply (No m0 H4). exists u. split; [cbn [In dated] in *; tauto|exact G].
        * destruct Iy as (u & U & G). rewrite E in G. cbn [In invented] in U. destruct T as [<-|[<-|[]]]; repeat (destruct U as [<-|U]; [discriminate G|]); destruct U.
      + destruct A2 as [A2|(a & b & TF & _ & A2)].
        * apply (No m0 H4). exists t. split; [cbn [In]; tauto|congruence].
        * rewrite E in A2. cbn [In taken_from] in TF. destruct T as [<-|[<-|[<-|[]]]]; repeat (destruct TF as [TF|TF]; [injection TF as <- <-; discriminate A2|]); destruct TF.
    - destruct (F ms1 y R1 H1) as (G1 & _); [congruence|]. congruence.
    - destruct (F ms1 y R1 H1) as (_ & G1 & _); [congruence|]. congruence.
    - destruct H2 as (_ & _ & H2 & _). apply nth_error_In in H2. contradiction.
    - apply H2. rewrite E1 in H1. destruct E0 as (_ & _ & _ & _ & S1 & S2 & _). destruct (Fr H1) as [Fa Fb]. unfold free_standing, clear_before, clear_after in *. rewrite S1, S2. auto.
    - apply N2. rewrite <- E1, H1. exists "source"%string. split; [iv|reflexivity].
    - apply N2. rewrite <- E1, H1. exists "source"%string. split; [iv|reflexivity].
    - rewrite Fx1 in H2. assert (C : MvStr (lit "criterion") = m_value m) by (apply V; right; exists (lit "Criterion"), (lit "criterion"); split; [exact H2|split; reflexivity]). rewrite H2 in C. discriminate C. }
  destruct X as (x & X1 & X2 & X3 & _).
  assert (All : forall v, In v (values_of (KS (m_name m)) (rows show ms')) -> v = show (m_value m)).
  { intros v Hv. apply values_of_In in Hv. apply rows_In in Hv. destruct Hv as (y & Y1 & Y2 & <-). destruct (F ms' y A Y1 Y2) as (-> & _). reflexivity. }
  assert (One : In (show (m_value m)) (values_of (KS (m_name m)) (rows show ms'))).
  { apply values_of_In, rows_In. exists x. split; [exact X1|]. split; [exact X2|]. f_equal. apply V. exact X3. }
  assert (E : dget (to_dict false (otruthy (dget options (KS (lit "enforce_list")))) (rows show ms')) (KS (m_name m)) = Some (if otruthy (dget options (KS (lit "enforce_list"))) then VList [show (m_value m)] else show (m_value m))).
  { pose proof (to_dict_value (otruthy (dget options (KS (lit "enforce_list")))) (rows show ms') (KS (m_name m)) (rows_one show Sh ms')) as H.
    destruct (values_of (KS (m_name m)) (rows show ms')) as [|a r]; [destruct One|]. destruct H as (out & Fi & ->). rewrite (All a (or_introl eq_refl)) in Fi |- *.
    rewrite (firsts_none _ _ _ Fi (show (m_value m))); [reflexivity|left; reflexivity|exact Re|intros v Hv; apply All; right; exact Hv]. }
  unfold result_dict, k_single_value. rewrite Sg. destruct (otruthy (dget options k_output_input_string)); [|exact E].
  rewrite dget_dset_ne; [exact E|]. intros K. apply N4. injection K. auto.
Qed.
Print Assumptions C115_alone.

(** C116. In a name without directories, every value of such a property is shown, up to the case of a text, however many values the property has:
    the conflicts being solved and nothing overlapping it, with no dash before its end (and no source being only "WEB", and a source not being a Blu-ray,
    which may become an Ultra HD one), it can only go where at some moment of the process
    a year, a language or an audio profile overlaps it *)
Theorem C116_shown options show solver_of s markers ms ms' m : (forall v, not_list (show v)) -> markers_ok s markers -> (forall x, In x ms -> placed s x) -> (forall g, In g markers -> m_parent g = None) ->
  ~ several_parts markers -> acts options s markers (ConflictSolver solver_of ms) ms' -> otruthy (dget options (KS (lit "single_value"))) = false ->
  In m ms -> m_private m = false -> (forall c, In c ms -> m_private c = false -> ConflictsProps.overlap m c -> mkey c = mkey m) ->
  ~ one_of judged (m_name m) -> (one_of standing (m_name m) -> free_standing s m) -> untouched markers m -> (one_of invented (m_name m) -> m_name m = lit "source") -> ~ one_of (map snd taken_from) (m_name m) -> m_name m <> lit "input_string" ->
  m_parent m = None -> (m_name m = lit "edition" -> ~ value_alike (m_value m) (MvStr (lit "Criterion"))) -> (m_name m = lit "source" -> ~ value_alike (m_value m) (MvStr (lit "Blu-ray"))) ->
  (forall x, In x ms -> m_name x = m_name m -> m_private x = false /\ forall t, In t traced -> ~ tag t x) ->
  (forall x p, In x ms -> m_parent x = Some p -> p_name p <> m_name m) -> (forall i, i < m_end m -> nth_error s i <> Some 45%N) ->
  (exists w v, value_alike (m_value m) w /\ shows (result_dict options s (rows show ms')) (m_name m) v /\ (v = show w \/ py_eq v (show w) = true)) \/
  exists ms1 y, acts options s markers (ConflictSolver solver_of ms) ms1 /\ In y ms1 /\ one_of ["year"; "language"; "audio_profile"]%string (m_name y) /\ SurviveProps.overlap m y.
Proof.
  intros Sh M P Q One A Sg Hm Pu Al N1 Fr Unt N2 N3 N4 Pa Cr Blu Same Par D.
  assert (P1 : forall z, In z (ConflictSolver solver_of ms) -> placed s z) by (intros z Hz; apply P; eapply solver_sub; exact Hz).
  assert (B : forall ms1, acts options s markers (ConflictSolver solver_of ms) ms1 -> back ms ms1).
  { intros ms1 A1. eapply back_trans; [|eapply acts_back; eauto]. unfold ConflictSolver. apply back_remove. apply back_self. }
  assert (F : forall ms1 y, acts options s markers (ConflictSolver solver_of ms) ms1 -> In y ms1 -> m_name y = m_name m -> m_private y = false /\ forall t, In t traced -> ~ tag t y).
  { intros ms1 y A1 Hy E. destruct (B ms1 A1 y Hy) as [_ [(Iy & _ & So)|(m0 & H0 & (A2 & A3 & A4 & A5))]].
    { rewrite E in Iy. specialize (N2 Iy). rewrite E in So. destruct (So N2) as (m0 & H0 & R1 & R2 & R3). destruct (Same m0 H0) as (S2 & S3); [congruence|]. split; [destruct (m_private y); [rewrite R2 in S2; [discriminate S2|reflexivity]|reflexivity]|]. intros t T G. apply (S3 t T), R3; auto. }
    assert (E0 : m_name m0 = m_name m) by (destruct A3 as [A3|(a & b & T & _ & A3)]; [congruence|]; exfalso; apply N3; exists b; split; [apply (in_map snd) in T; exact T|congruence]).
    destruct (Same m0 H0 E0) as (S2 & S3). split; [|intros t T G; apply (S3 t T), A5; [exact T|exact G]]. destruct (m_private y); [|reflexivity]. destruct (A4 eq_refl) as [G|G]; [congruence|]. exfalso. apply N1, hidden_judged. rewrite <- E0. exact G. }
  assert (H0 : In m (ConflictSolver solver_of ms)).
  { destruct (solver_keeps solver_of ms m Hm) as [K|(i & r & [j k] & K1 & K2 & K3 & (K4 & K5 & K6 & K7 & _))]; [exact K|exfalso]. cbn [fst snd] in *. apply K7. rewrite K2. symmetry. apply Al; [eapply nth_error_In; exact K4|exact K5|].
    apply key_facts in K2 as (E1 & E2 & _). destruct K6 as (c & C1 & C2). exists c. split; [lia|exact C2]. }
  destruct (acts_spare options s markers M _ ms' m P1 Unt A H0) as [(x & X1 & X2 & X3 & _)|(ms1 & x & R1 & X1 & X2 & K)].
  - left. exists (m_value x). destruct (to_dict_shows (otruthy (dget options k_enforce_list)) (rows show ms') (m_name m) (show (m_value x)) (rows_one show Sh ms')) as (v & (u & U1 & U2) & V).
    { apply rows_In. exists x. auto. }
    exists v. split; [exact X3|]. split; [|exact V]. exists u. split; [|exact U2]. unfold result_dict, k_single_value. rewrite Sg. destruct (otruthy (dget options k_output_input_string)); [|exact U1].
    rewrite dget_dset_ne; [exact U1|]. intros E. apply N4. injection E. auto.
  - pose proof X2 as E0. destruct X2 as (E1 & E2 & E3 & E4 & E5 & E6 & _). destruct (F ms1 x R1 X1 E1) as (Fx2 & Fx3).
    destruct K as [K|(r & K1 & K2 & K3)]; [|exfalso; apply key_facts in K2 as (_ & _ & K2 & _); destruct (F ms1 r R1 K1) as (K4 & _); congruence].
    destruct K as [H|H|y p H1 H2 H3|r t H1 H2 H3 H4|y H1 H2 H3|y Hs H1 H2 H3|y H1 H2 H3 H4|c H1 H2 H3|H1 H2|r y H1 H2 H3 H4 H5 H6|y H1 H2 H3 H4|y H1 H2 H3 H4 H5].
    + exfalso. rewrite E1 in H. contradiction.
    + exfalso. congruence.
    + exfalso. destruct (B ms1 R1 y H1) as [[K|[(m0 & H4 & K)|(q & K1 & K2)]] _]; [congruence|apply (Par m0 p H4); congruence|]. assert (N5 : m_name m = lit "source") by (apply N2; exists "screen_size"%string; split; [iv|congruence]). assert (N6 : m_name m = lit "screen_size") by congruence. rewrite N5 in N6. discriminate N6.
    + exfalso. apply key_facts in H2 as (_ & _ & H2 & _). destruct (F ms1 r R1 H1) as (_ & G); [congruence|]. exact (G t (or_intror H3) H4).
    + right. exists ms1, y. split; [exact R1|]. split; [exact H1|]. split; [exact H2|]. unfold SurviveProps.overlap in *. rewrite <- E5, <- E6. exact H3.
    + exfalso. exact (One Hs).
    + exfalso. destruct (F ms1 y R1 H1) as (G1 & _); congruence.
    + exfalso. destruct H2 as (_ & C1 & C2 & C3 & _). destruct H3 as (i & I1 & I2). apply (D (m_start c - 1)); [rewrite <- E6; lia|exact C2].
    + exfalso. apply H2. rewrite E1 in H1. destruct (Fr H1) as [Fa Fb]. unfold free_standing, clear_before, clear_after in *. rewrite E5, E6. auto.
    + exfalso. apply key_facts in H3 as (_ & _ & H3 & _). destruct (F ms1 r R1 H2) as (_ & G); [congruence|]. apply (G "weak.source"%string); [left; reflexivity|exact H4].
    + exfalso. apply Blu; [congruence|]. rewrite <- H2. exact E2.
    + exfalso. apply Cr; [congruence|]. rewrite <- H2. exact E2.
Qed.
Print Assumptions C116_shown.
Corollary C116_plain options show solver_of s markers ms ms' m : (forall v, not_list (show v)) -> markers_ok s markers -> (forall x, In x ms -> placed s x) -> (forall g, In g markers -> m_parent g = None) ->
  ~ several_parts markers -> acts options s markers (ConflictSolver solver_of ms) ms' -> otruthy (dget options (KS (lit "single_value"))) = false ->
  In m ms -> m_private m = false -> (forall c, In c ms -> m_private c = false -> ConflictsProps.overlap m c -> mkey c = mkey m) ->
  ~ one_of judged (m_name m) -> (one_of standing (m_name m) -> free_standing s m) -> untouched markers m -> (one_of invented (m_name m) -> m_name m = lit "source") -> ~ one_of (map snd taken_from) (m_name m) -> m_name m <> lit "input_string" ->
  m_parent m = None -> (m_name m = lit "edition" -> ~ value_alike (m_value m) (MvStr (lit "Criterion"))) -> (m_name m = lit "source" -> ~ value_alike (m_value m) (MvStr (lit "Blu-ray"))) ->
  (forall x, In x ms -> m_name x = m_name m -> m_private x = false /\ forall t, In t traced -> ~ tag t x) ->
  (forall x p, In x ms -> m_parent x = Some p -> p_name p <> m_name m) -> (forall i, i < m_end m -> nth_error s i <> Some 45%N) ->
  (forall x, In x ms -> ~ one_of ["year"; "season"; "language"; "audio_profile"]%string (m_name x)) ->
  exists w v, value_alike (m_value m) w /\ shows (result_dict options s (rows show ms')) (m_name m) v /\ (v = show w \/ py_eq v (show w) = true).
Proof.
  intros Sh M P Q One A Sg Hm Pu Al N1 Fr Unt N2 N3 N4 Pa Cr Blu Same Par D No.
  destruct (C116_shown options show solver_of s markers ms ms' m) as [K|(ms1 & y & R1 & H1 & H2 & _)]; auto. exfalso.
  assert (B : back ms ms1).
  { eapply back_trans; [|eapply acts_back; [exact M| |exact Q|exact R1]; intros z Hz; apply P; eapply solver_sub; exact Hz]. unfold ConflictSolver. apply back_remove. apply back_self. }
  destruct H2 as (t & T & E). cbn [In] in T. destruct (B y H1) as [_ [(Iy & Dy & _)|(m0 & H4 & (_ & A2 & _))]].
  - destruct T as [<-|T].
    + destruct Dy as (m0 & H4 & (u & U & G)); [exists "year"%string; cbn; auto|]. apply (No m0 H4). exists u. split; [cbn [In dated] in *; tauto|exact G].
    + destruct Iy as (u & U & G). rewrite E in G. cbn [In invented] in U. destruct T as [<-|[<-|[]]]; repeat (destruct U as [<-|U]; [discriminate G|]); destruct U.
  - destruct A2 as [A2|(a & b & TF & _ & A2)].
    + apply (No m0 H4). exists t. split; [cbn [In]; tauto|congruence].
    + rewrite E in A2. cbn [In taken_from] in TF. destruct T as [<-|[<-|[<-|[]]]]; repeat (destruct TF as [TF|TF]; [injection TF as <- <-; discriminate A2|]); destruct TF.
Qed.
Print Assumptions C116_plain.

(** ** Examples *)
(** audio channels and a codec between separators: the title is found, and the channels are shown as they were read *)
Example C115_alone_ex : let s := lit "Film [f7] x264.5.1.mkv" in
  let show v := match v with MvInt z => VInt z | MvStr t => VStr t | _ => VNone end in
  let ms := [simple 7 8 (lit "film") (MvInt 7) []; simple 10 14 (lit "video_codec") (MvStr (lit "H.264")) []; simple 15 18 (lit "audio_channels") (MvStr (lit "5.1")) []; simple 18 22 (lit "container") (MvStr (lit "mkv")) [lit "extension"]] in
  let markers := [simple 0 22 (lit "path") (MvStr []) []; simple 5 9 (lit "group") (MvStr []) []] in
  exists ms', acts [] s markers (ConflictSolver (fun _ => None) ms) ms' /\ ms' <> ms /\
    dget (result_dict [] s (rows show ms')) (KS (lit "audio_channels")) = Some (VStr (lit "5.1")).
Proof.
  cbv zeta.
  pose (ms := [simple 7 8 (lit "film") (MvInt 7) []; simple 10 14 (lit "video_codec") (MvStr (lit "H.264")) []; simple 15 18 (lit "audio_channels") (MvStr (lit "5.1")) []; simple 18 22 (lit "container") (MvStr (lit "mkv")) [lit "extension"]]).
  pose (markers := [simple 0 22 (lit "path") (MvStr []) []; simple 5 9 (lit "group") (MvStr []) []]).
  assert (R : exists ms', acts [] (lit "Film [f7] x264.5.1.mkv") markers (ConflictSolver (fun _ => None) ms) ms' /\ List.length ms' = 5).
  { eexists. split; [eapply acts_private; eapply acts_rule; [apply acts_none|apply st_title; [reflexivity|reflexivity|vm_compute; reflexivity]]|]. vm_compute. reflexivity. }
  destruct R as (ms' & R & L). exists ms'. split; [exact R|]. split; [intros ->; discriminate L|].
  assert (NM : forall x, In x ms -> m_name x = lit "audio_channels" -> x = simple 15 18 (lit "audio_channels") (MvStr (lit "5.1")) []) by (intros x Hx E; cbn [In ms] in Hx; repeat (destruct Hx as [<-|Hx]; [first [reflexivity|discriminate E]|]); destruct Hx).
  refine (C115_alone [] _ (fun _ => None) _ markers ms ms' (simple 15 18 (lit "audio_channels") (MvStr (lit "5.1")) []) _ _ _ _ _ R _ _ _ _ _ _ _ _ _ _ _ _ _ _ _ _).
  - intros []; exact Logic.I.
  - reflexivity.
  - unfold markers. intros g Hg. repeat (destruct Hg as [<-|Hg]; [split; [apply Nat.ltb_lt; vm_compute; reflexivity|]; split; [apply Nat.leb_le; vm_compute; reflexivity|]; do 4 (split; [reflexivity|]); intros X; first [discriminate X|split; vm_compute; reflexivity]|]); destruct Hg.
  - unfold ms. placing.
  - intros g [<-|[<-|[]]]; reflexivity.
  - reflexivity.
  - right. right. left. reflexivity.
  - reflexivity.
  - intros c Hc _ (i & O1 & O2). cbn [m_start m_end simple] in O1. cbn [In ms] in Hc. repeat (destruct Hc as [<-|Hc]; [first [reflexivity|cbn in O2; lia]|]). destruct Hc.
  - intros (t & T & E). cbn [In judged] in T. repeat (destruct T as [<-|T]; [discriminate E|]). destruct T.
  - intros _. split; [apply before_iff|apply after_iff]; reflexivity.
  - intros g [<-|[<-|[]]] E; [discriminate E|]. cbn. lia.
  - intros (t & T & E). cbn [In invented] in T. repeat (destruct T as [<-|T]; [discriminate E|]). destruct T.
  - intros (t & T & E). cbn [In map snd taken_from] in T. repeat (destruct T as [<-|T]; [discriminate E|]). destruct T.
  - discriminate.
  - reflexivity.
  - intros v [<-|(a & b & E & -> & E2)]; [reflexivity|]. injection E as <-. f_equal.
    assert (Z : forall c d, is_alpha c = false -> c = to_lower d -> d = c).
    { clear. intros c d A ->. unfold to_lower, is_alpha, is_upper, is_lower in *. destruct ((65 <=? d) && (d <=? 90))%N eqn:U; [exfalso; cbv beta zeta in A; lia|reflexivity]. }
    destruct b as [|x [|y [|z [|w b]]]]; try discriminate E2. cbn [lower map] in E2. injection E2 as E3 E4 E5.
    rewrite (Z _ _ (eq_refl : is_alpha 53%N = false) E3), (Z _ _ (eq_refl : is_alpha 46%N = false) E4), (Z _ _ (eq_refl : is_alpha 49%N = false) E5). reflexivity.
  - intros x Hx E. rewrite (NM x Hx E). repeat split; intros t _ [].
  - intros x p Hx E. cbn [In ms] in Hx. repeat (destruct Hx as [<-|Hx]; [discriminate E|]). destruct Hx.
  - intros x Hx (t & T & E). cbn [In ms] in Hx, T. repeat (destruct Hx as [<-|Hx]; [repeat (destruct T as [<-|T]; [discriminate E|]); destruct T|]). destruct Hx.
  - intros H. vm_compute in H. repeat (destruct H as [H|H]; [discriminate|]). destruct H.
Qed.
(** a year, two codecs and a group after a dash: both codecs are shown *)
Example C116_shown_ex : let s := lit "Film 2010 x264.xvid-GRP.mkv" in
  let show v := match v with MvInt z => VInt z | MvStr t => VStr t | _ => VNone end in
  let a := simple 10 14 (lit "video_codec") (MvStr (lit "H.264")) [] in
  let b := simple 15 19 (lit "video_codec") (MvStr (lit "Xvid")) [] in
  let ms := [simple 5 9 (lit "year") (MvInt 2010) []; a; b; simple 23 27 (lit "container") (MvStr (lit "mkv")) [lit "extension"]] in
  let markers := [simple 0 27 (lit "path") (MvStr []) []] in
  exists ms', acts [] s markers (ConflictSolver (fun _ => None) ms) ms' /\ List.length ms' = 5 /\
    (forall m, m = a \/ m = b ->
      (exists w v, value_alike (m_value m) w /\ shows (result_dict [] s (rows show ms')) (lit "video_codec") v /\ (v = show w \/ py_eq v (show w) = true)) \/
      exists ms1 y, acts [] s markers (ConflictSolver (fun _ => None) ms) ms1 /\ In y ms1 /\ one_of ["year"; "language"; "audio_profile"]%string (m_name y) /\ SurviveProps.overlap m y) /\
    dget (result_dict [] s (rows show ms')) (KS (lit "video_codec")) = Some (VList [VStr (lit "H.264"); VStr (lit "Xvid")]).
Proof.
  cbv zeta.
  pose (ms := [simple 5 9 (lit "year") (MvInt 2010) []; simple 10 14 (lit "video_codec") (MvStr (lit "H.264")) []; simple 15 19 (lit "video_codec") (MvStr (lit "Xvid")) []; simple 23 27 (lit "container") (MvStr (lit "mkv")) [lit "extension"]]).
  pose (show v := match v with MvInt z => VInt z | MvStr t => VStr t | _ => VNone end).
  assert (R : exists ms', acts [] (lit "Film 2010 x264.xvid-GRP.mkv") [simple 0 27 (lit "path") (MvStr []) []] (ConflictSolver (fun _ => None) ms) ms' /\ List.length ms' = 5 /\
    dget (result_dict [] (lit "Film 2010 x264.xvid-GRP.mkv") (rows show ms')) (KS (lit "video_codec")) = Some (VList [VStr (lit "H.264"); VStr (lit "Xvid")])).
  { eexists. split; [eapply acts_private; eapply acts_rule; [apply acts_none|apply st_title; [reflexivity|reflexivity|vm_compute; reflexivity]]|]. vm_compute. auto. }
  destruct R as (ms' & R & L & E0). exists ms'. split; [exact R|]. split; [exact L|]. split; [|exact E0].
  assert (NM : forall x, In x ms -> m_name x = lit "video_codec" -> x = simple 10 14 (lit "video_codec") (MvStr (lit "H.264")) [] \/ x = simple 15 19 (lit "video_codec") (MvStr (lit "Xvid")) []) by (intros x Hx E; cbn [In ms] in Hx; repeat (destruct Hx as [<-|Hx]; [first [left; reflexivity|right; reflexivity|discriminate E]|]); destruct Hx).
  assert (G : forall m, m = simple 10 14 (lit "video_codec") (MvStr (lit "H.264")) [] \/ m = simple 15 19 (lit "video_codec") (MvStr (lit "Xvid")) [] -> m_name m = lit "video_codec") by (intros m [->| ->]; reflexivity).
  intros m Hm.
  assert (K : (exists w v, value_alike (m_value m) w /\ shows (result_dict [] (lit "Film 2010 x264.xvid-GRP.mkv") (rows show ms')) (m_name m) v /\ (v = show w \/ py_eq v (show w) = true)) \/
    exists ms1 y, acts [] (lit "Film 2010 x264.xvid-GRP.mkv") [simple 0 27 (lit "path") (MvStr []) []] (ConflictSolver (fun _ => None) ms) ms1 /\ In y ms1 /\ one_of ["year"; "language"; "audio_profile"]%string (m_name y) /\ SurviveProps.overlap m y); [|rewrite (G m Hm) in K; exact K].
  apply (C116_shown [] show (fun _ => None) (lit "Film 2010 x264.xvid-GRP.mkv") [simple 0 27 (lit "path") (MvStr []) []] ms ms' m).
  - intros []; exact Logic.I.
  - clear m Hm G NM L E0 R. marking.
  - clear m Hm. unfold ms. placing.
  - intros g [<-|[]]; reflexivity.
  - unfold several_parts. vm_compute. lia.
  - exact R.
  - reflexivity.
  - unfold ms. destruct Hm as [->| ->]; cbn; auto.
  - destruct Hm as [->| ->]; reflexivity.
  - intros c Hc _ (i & O1 & O2). destruct Hm as [->| ->]; cbn [m_start m_end simple] in O1; cbn [In ms] in Hc; repeat (destruct Hc as [<-|Hc]; [first [reflexivity|cbn in O2; lia]|]); destruct Hc.
  - rewrite (G m Hm). intros (t & T & E). cbn [In judged] in T. repeat (destruct T as [<-|T]; [discriminate E|]). destruct T.
  - intros _. destruct Hm as [->| ->]; (split; [apply before_iff|apply after_iff]; reflexivity).
  - intros g [<-|[]] E; discriminate E.
  - rewrite (G m Hm). intros (t & T & E). exfalso. cbn [In invented] in T. repeat (destruct T as [<-|T]; [discriminate E|]). destruct T.
  - rewrite (G m Hm). intros (t & T & E). cbn [In map snd taken_from] in T. repeat (destruct T as [<-|T]; [discriminate E|]). destruct T.
  - rewrite (G m Hm). discriminate.
  - destruct Hm as [->| ->]; reflexivity.
  - rewrite (G m Hm). discriminate.
  - rewrite (G m Hm). discriminate.
  - intros x Hx E. rewrite (G m Hm) in E. destruct (NM x Hx E) as [->| ->]; (split; [reflexivity|intros t _ []]).
  - intros x p Hx E. cbn [In ms] in Hx. repeat (destruct Hx as [<-|Hx]; [discriminate E|]). destruct Hx.
  - intros i Hi E. assert (i < 19) by (destruct Hm as [->| ->]; cbn in Hi; lia). clear Hi. do 19 (destruct i as [|i]; [vm_compute in E; discriminate E|]). lia.
Qed.
(** a source: it is shown *)
Example C116_source_ex : let s := lit "Film 2010 HDTV.xvid-GRP.mkv" in
  let show v := match v with MvInt z => VInt z | MvStr t => VStr t | _ => VNone end in
  let a := simple 10 14 (lit "source") (MvStr (lit "HDTV")) [] in
  let ms := [a; simple 15 19 (lit "video_codec") (MvStr (lit "Xvid")) []; simple 23 27 (lit "container") (MvStr (lit "mkv")) [lit "extension"]] in
  let markers := [simple 0 27 (lit "path") (MvStr []) []] in
  exists ms', acts [] s markers (ConflictSolver (fun _ => None) ms) ms' /\ List.length ms' = 4 /\
    exists w v, value_alike (m_value a) w /\ shows (result_dict [] s (rows show ms')) (lit "source") v /\ (v = show w \/ py_eq v (show w) = true).
Proof.
  cbv zeta. pose (a := simple 10 14 (lit "source") (MvStr (lit "HDTV")) []).
  pose (ms := [a; simple 15 19 (lit "video_codec") (MvStr (lit "Xvid")) []; simple 23 27 (lit "container") (MvStr (lit "mkv")) [lit "extension"]]).
  pose (show v := match v with MvInt z => VInt z | MvStr t => VStr t | _ => VNone end).
  assert (R : exists ms', acts [] (lit "Film 2010 HDTV.xvid-GRP.mkv") [simple 0 27 (lit "path") (MvStr []) []] (ConflictSolver (fun _ => None) ms) ms' /\ List.length ms' = 4).
  { eexists. split; [eapply acts_private; eapply acts_rule; [apply acts_none|apply st_title; [reflexivity|reflexivity|vm_compute; reflexivity]]|]. vm_compute. reflexivity. }
  destruct R as (ms' & R & L). exists ms'. split; [exact R|]. split; [exact L|].
  assert (NM : forall x, In x ms -> m_name x = lit "source" -> x = a) by (intros x Hx E; cbn [In ms] in Hx; repeat (destruct Hx as [<-|Hx]; [first [reflexivity|discriminate E]|]); destruct Hx).
  apply (C116_plain [] show (fun _ => None) (lit "Film 2010 HDTV.xvid-GRP.mkv") [simple 0 27 (lit "path") (MvStr []) []] ms ms' a).
  - intros []; exact Logic.I.
  - clear NM L R. marking.
  - unfold ms, a. placing.
  - intros g [<-|[]]; reflexivity.
  - unfold several_parts. vm_compute. lia.
  - exact R.
  - reflexivity.
  - unfold ms. cbn; auto.
  - reflexivity.
  - intros c Hc _ (i & O1 & O2). cbn [m_start m_end simple a] in O1; cbn [In ms] in Hc; repeat (destruct Hc as [<-|Hc]; [first [reflexivity|cbn in O2; lia]|]); destruct Hc.
  - intros (t & T & E). cbn [In judged] in T. repeat (destruct T as [<-|T]; [discriminate E|]). destruct T.
  - intros _. split; [apply before_iff|apply after_iff]; reflexivity.
  - intros g [<-|[]] E; discriminate E.
  - reflexivity.
  - intros (t & T & E). cbn [In map snd taken_from] in T. repeat (destruct T as [<-|T]; [discriminate E|]). destruct T.
  - discriminate.
  - reflexivity.
  - discriminate.
  - intros _ [K|(u & v & E1 & E2 & E3)]; [discriminate K|]. cbn in E1. injection E1 as <-. injection E2 as <-. vm_compute in E3. discriminate E3.
  - intros x Hx E. rewrite (NM x Hx E). split; [reflexivity|intros t _ []].
  - intros x p Hx E. cbn [In ms] in Hx. repeat (destruct Hx as [<-|Hx]; [discriminate E|]). destruct Hx.
  - intros i Hi E. cbn in Hi. do 14 (destruct i as [|i]; [vm_compute in E; discriminate E|]). lia.
  - intros x Hx (t & T & E). cbn [In ms] in Hx, T. repeat (destruct Hx as [<-|Hx]; [repeat (destruct T as [<-|T]; [discriminate E|]); destruct T|]). destruct Hx.
Qed.
