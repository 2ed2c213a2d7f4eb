(** The whole process (C100): from the matches of the patterns to the dictionary. *)
From Verif Require Import Py PyFacts Text TextFacts Sort Common Rebulk RebulkFacts RuleSpec EpisodeRulesProps Conflicts ConflictsProps ToDict ToDictProofs Pipeline PipelineProps SurviveProps InventProps Guess.
From Coq Require Import Arith Lia ZifyBool QArith.
Local Open Scope nat_scope.

(** ** Specification *)
(** [d] shows [v] for the property [n], alone or in a list *)
Definition shows (d : dict) (n : str) (v : val) : Prop :=
  exists u, dget d (KS n) = Some u /\ match u with VList l => In v l | _ => u = v end.
(** a moment of the process *)
Inductive moment context s markers solver_of (ms : list mt) : list mt -> Prop :=
| before_conflicts ms1 : acts context s markers ms ms1 -> moment context s markers solver_of ms ms1
| after_conflicts ms1 : processed context s markers solver_of ms ms1 -> moment context s markers solver_of ms ms1.
(** what can take a match away: a reason of the rules, being private, an overlapping match that is preferred *)
Inductive taken solver_of (s : str) (markers ms : list mt) (x : mt) : Prop :=
| t_reason : reason s markers ms x -> taken solver_of s markers ms x
| t_private r : In r ms -> mkey r = mkey x -> m_private r = true -> taken solver_of s markers ms x
| t_conflict i r k : nth_error ms i = Some r -> mkey r = mkey x -> m_private r = false -> preferred solver_of ms (i, r) k -> taken solver_of s markers ms x.

(** ** Proofs *)
Lemma acts_placed context s markers ms ms' : markers_ok s markers -> (forall m, In m ms -> placed s m) -> acts context s markers ms ms' -> forall m, In m ms' -> placed s m.
Proof.
  intros M P A. induction A as [|ms1 ms2 A IH S|ms1 A IH]; [exact P| |].
  - apply (C82_placed context s markers ms1 ms2 M IH). eapply runs_one; [apply runs_none|exact S].
  - intros m Hm. apply IH. eapply remove_sub. exact Hm.
Qed.
Lemma solver_sub f ms x : In x (ConflictSolver f ms) -> In x ms.
Proof. unfold ConflictSolver. apply remove_sub. Qed.
Section Run.
  Context (context : dict) (s : str) (markers : list mt) (solver_of : obj -> option solver).
  Hypothesis M : markers_ok s markers.
  Lemma acts_back ms ms' : (forall m, In m ms -> placed s m) -> (forall g, In g markers -> m_parent g = None) -> acts context s markers ms ms' -> back ms ms'.
  Proof.
    intros P Q A. induction A as [|ms1 ms2 A IH S|ms1 A IH]; [apply back_self| |].
    - eapply back_trans; [exact IH|]. eapply step_back; [|exact Q|exact S]. eapply acts_placed; eauto.
    - unfold PrivateRemover. apply back_remove. exact IH.
  Qed.
  Lemma processed_placed ms ms' : (forall m, In m ms -> placed s m) -> processed context s markers solver_of ms ms' -> forall m, In m ms' -> placed s m.
  Proof. intros P [ms1 ms2 A B]. eapply acts_placed; [exact M| |exact B]. intros m Hm. eapply acts_placed; [exact M|exact P|exact A|]. eapply solver_sub. exact Hm. Qed.
  Lemma processed_back ms ms' : (forall m, In m ms -> placed s m) -> (forall g, In g markers -> m_parent g = None) -> processed context s markers solver_of ms ms' -> back ms ms'.
  Proof.
    intros P Q [ms1 ms2 A B]. eapply back_trans; [|eapply acts_back; [|exact Q|exact B]].
    - unfold ConflictSolver. apply back_remove. apply acts_back; auto.
    - intros m Hm. eapply acts_placed; [exact M|exact P|exact A|]. eapply solver_sub. exact Hm.
  Qed.
  (** *** what is not lost *)
  Definition lost_at (moments : list mt -> Prop) (m : mt) : Prop := exists ms1 x, moments ms1 /\ In x ms1 /\ same_fact m x /\ taken solver_of s markers ms1 x.
  Lemma acts_keep ms ms' m : (forall x, In x ms -> placed s x) -> acts context s markers ms ms' -> In m ms ->
    (exists x, In x ms' /\ same_fact m x) \/
    exists ms1 x, acts context s markers ms ms1 /\ In x ms1 /\ same_fact m x /\ (reason s markers ms1 x \/ exists r, In r ms1 /\ mkey r = mkey x /\ m_private r = true).
  Proof.
    intros P A Hm. induction A as [|ms1 ms2 A IH S|ms1 A IH]; [left; exists m; split; [exact Hm|apply same_refl]| |].
    - destruct IH as [(x & X1 & X2)|K]; [|right; exact K]. destruct (step_keeps context s markers ms1 ms2 x) as [(y & Y1 & Y2)|K]; [|exact X1|exact S| |].
      + intros z Hz. destruct (acts_placed _ _ _ _ _ M P A z Hz) as (Z1 & Z2 & _). lia.
      + left. exists y. split; [exact Y1|eapply same_trans; eauto].
      + right. exists ms1, x. split; [exact A|]. split; [exact X1|]. split; [exact X2|]. left. exact K.
    - destruct IH as [(x & X1 & X2)|K]; [|right; exact K]. destruct (keep_remove (filter m_private ms1) x ms1 X1) as [K|(r & R1 & R2)]; [left; exists x; auto|right].
      apply filter_In in R1 as [R1 R3]. exists ms1, x. split; [exact A|]. split; [exact X1|]. split; [exact X2|]. right. exists r. auto.
  Qed.
  Lemma to_taken ms x : (reason s markers ms x \/ exists r, In r ms /\ mkey r = mkey x /\ m_private r = true) -> taken solver_of s markers ms x.
  Proof. intros [H|(r & H1 & H2 & H3)]; [apply t_reason; exact H|eapply t_private; eauto]. Qed.
  Lemma solver_keeps ms x : In x ms -> In x (ConflictSolver solver_of ms) \/ exists i r k, nth_error ms i = Some r /\ mkey r = mkey x /\ m_private r = false /\ preferred solver_of ms (i, r) k.
  Proof.
    intros H. destruct (keep_remove (map snd (filter (fun o => is_in o (lost solver_of ms)) (objects ms))) x ms H) as [K|(r & R1 & R2)]; [left; exact K|right].
    apply in_map_iff in R1 as ([i r'] & <- & O). apply filter_In in O as [O L]. apply objects_In in O. cbn [fst snd] in *.
    destruct (C97_reason solver_of ms (i, r') O) as (Pr & k & K).
    - intros [_ N]. apply N. unfold is_in in L. apply existsb_exists in L as (j & J1 & J2). apply Nat.eqb_eq in J2. cbn [fst] in *. subst j. exact J1.
    - exists i, r', k. auto.
  Qed.
  Lemma processed_keep ms ms' m : (forall x, In x ms -> placed s x) -> processed context s markers solver_of ms ms' -> In m ms ->
    (exists x, In x ms' /\ same_fact m x) \/ lost_at (moment context s markers solver_of ms) m.
  Proof.
    intros P [ms1 ms2 A B] Hm. destruct (acts_keep ms ms1 m P A Hm) as [(x & X1 & X2)|(a & x & X1 & X & X3 & X4)]; [|right; exists a, x; split; [apply before_conflicts; exact X1|]; split; [exact X|]; split; [exact X3|apply to_taken; exact X4]].
    destruct (solver_keeps ms1 x X1) as [X3|(i & r & k & K1 & K2 & K3 & K4)]; [|right; exists ms1, x; split; [apply before_conflicts; exact A|]; split; [exact X1|]; split; [exact X2|]; eapply t_conflict; eauto].
    assert (P1 : forall z, In z (ConflictSolver solver_of ms1) -> placed s z).
    { intros z Hz. eapply acts_placed; [exact M|exact P|exact A|]. eapply solver_sub. exact Hz. }
    destruct (acts_keep (ConflictSolver solver_of ms1) ms2 x P1 B X3) as [(y & Y1 & Y2)|(a & y & Y1 & Y2 & Y3 & Y4)].
    - left. exists y. split; [exact Y1|eapply same_trans; eauto].
    - right. exists a, y. split; [apply after_conflicts; econstructor; eauto|]. split; [exact Y2|]. split; [eapply same_trans; eauto|apply to_taken; exact Y4].
  Qed.
End Run.
(** *** the dictionary *)
Lemma firsts_sub seen l out : firsts seen l out -> forall v, In v out -> In v l.
Proof. induction 1; intros v H1; [destruct H1|right; auto|]. destruct H1 as [->|H1]; [left; reflexivity|right; auto]. Qed.
Lemma firsts_all seen l out : firsts seen l out -> forall v, In v l -> exists w, In w (seen ++ out) /\ (w = v \/ py_eq w v = true).
Proof.
  induction 1 as [seen|seen x l out (y & Y1 & Y2) H IH|seen x l out N H IH]; intros v Hv; [destruct Hv| |].
  - destruct Hv as [->|Hv]; [exists y; split; [apply in_or_app; left; exact Y1|right; exact Y2]|auto].
  - destruct Hv as [->|Hv]; [exists v; split; [apply in_or_app; right; left; reflexivity|left; reflexivity]|]. destruct (IH v Hv) as (w & W1 & W2). exists w. split; [|exact W2]. rewrite <- app_assoc in W1. exact W1.
Qed.
Lemma firsts_none seen l out : firsts seen l out -> forall a, In a seen -> py_eq a a = true -> (forall v, In v l -> v = a) -> out = [].
Proof.
  induction 1 as [seen|seen y l out Y Fi IH|seen y l out Y Fi IH]; intros a Ha Re Al; [reflexivity|apply (IH a Ha Re); intros v Hv; apply Al; right; exact Hv|].
  exfalso. rewrite (Al y (or_introl eq_refl)) in Y. rewrite (Y a Ha) in Re. discriminate.
Qed.
Lemma values_of_In n v l : In v (values_of (KS n) l) <-> In (KS n, v) l.
Proof.
  unfold values_of. rewrite in_map_iff. split.
  - intros ([k w] & <- & H). apply filter_In in H as [H E]. cbn [fst snd] in *. destruct (key_eqb_spec (KS n) k) as [<-|]; [exact H|discriminate].
  - intros H. exists (KS n, v). split; [reflexivity|]. apply filter_In. split; [exact H|]. cbn [fst]. destruct (key_eqb_spec (KS n) (KS n)); [reflexivity|congruence].
Qed.
Lemma to_dict_sound fv enf l n v : Forall (fun m => not_list (snd m)) l -> shows (to_dict fv enf l) n v -> In (KS n, v) l.
Proof.
  intros N (u & U1 & U2). apply values_of_In. destruct fv.
  - pose proof (to_dict_first enf l (KS n) N) as H. destruct (values_of (KS n) l) as [|a r] eqn:E; rewrite H in U1; [discriminate|]. injection U1 as <-.
    destruct enf; [destruct U2 as [<-|[]]; left; reflexivity|]. assert (Na : not_list a) by (assert (Ha : In a (values_of (KS n) l)) by (rewrite E; left; reflexivity); apply values_of_In in Ha; rewrite Forall_forall in N; exact (N _ Ha)).
    destruct a; try (left; exact U2). destruct Na.
  - pose proof (to_dict_value enf l (KS n) N) as H. destruct (values_of (KS n) l) as [|a r] eqn:E; [congruence|]. destruct H as (out & F & H). rewrite H in U1. injection U1 as <-.
    assert (S0 : forall w, In w (a :: out) -> In w (a :: r)) by (intros w [->|Hw]; [left; reflexivity|right; eapply firsts_sub; eauto]).
    assert (Na : not_list a) by (assert (Ha : In a (values_of (KS n) l)) by (rewrite E; left; reflexivity); apply values_of_In in Ha; rewrite Forall_forall in N; exact (N _ Ha)).
    apply S0. unfold shown in U2. destruct out as [|b out]; [|exact U2]. destruct enf; [exact U2|]. destruct a; try (left; exact U2). destruct Na.
Qed.
Lemma to_dict_shows enf l n v : Forall (fun m => not_list (snd m)) l -> In (KS n, v) l -> exists w, shows (to_dict false enf l) n w /\ (w = v \/ py_eq w v = true).
Proof.
  intros N Hv. apply values_of_In in Hv. pose proof (to_dict_value enf l (KS n) N) as H. destruct (values_of (KS n) l) as [|a r] eqn:E; [destruct Hv|]. destruct H as (out & F & H).
  assert (Na : not_list a) by (assert (Ha : In a (values_of (KS n) l)) by (rewrite E; left; reflexivity); apply values_of_In in Ha; rewrite Forall_forall in N; exact (N _ Ha)).
  assert (W : exists w, In w (a :: out) /\ (w = v \/ py_eq w v = true)).
  { destruct Hv as [->|Hv]; [exists v; split; [left; reflexivity|left; reflexivity]|]. destruct (firsts_all _ _ _ F v Hv) as (w & W1 & W2). exists w. split; [exact W1|exact W2]. }
  destruct W as (w & W1 & W2). exists w. split; [|exact W2]. eexists. split; [exact H|]. unfold shown. destruct out as [|b out]; [|exact W1]. destruct W1 as [->|[]]. destruct enf; [left; reflexivity|]. destruct w; try reflexivity. destruct Na.
Qed.
Lemma rows_In show ms n v : In (KS n, v) (rows show ms) <-> exists m, In m ms /\ m_name m = n /\ show (m_value m) = v.
Proof.
  unfold rows. rewrite in_map_iff. split.
  - intros (m & E & Hm). apply (proj1 (msorted_In m ms)) in Hm. injection E as E1 E2. exists m. split; [exact Hm|]. split; assumption.
  - intros (m & Hm & <- & <-). exists m. split; [reflexivity|apply msorted_In; exact Hm].
Qed.

(** ** Properties *)
Section Guess.
  Context (options : dict) (show : mval -> val) (solver_of : obj -> option solver) (s : str) (markers ms : list mt) (d : dict).
  Hypothesis show_one : forall v, not_list (show v).
  Hypothesis M : markers_ok s markers.
  Hypothesis P : forall m, In m ms -> placed s m.
  Hypothesis Q : forall g, In g markers -> m_parent g = None.
  Hypothesis G : guessed options show solver_of s markers ms d.
  Lemma rows_one ms' : Forall (fun m => not_list (snd m)) (rows show ms').
  Proof. apply Forall_forall. intros [k v] H. unfold rows in H. apply in_map_iff in H as (m & E & _). injection E as <- <-. cbn [snd]. apply show_one. Qed.
  (** C100. Every value shown was found by a pattern for that property or for the one it is taken from, but for the properties that rules make *)
  Theorem C100_sound n v : n <> lit "input_string" -> shows d n v ->
    exists w, v = show w /\ (one_of invented n \/ exists m, In m ms /\ value_alike (m_value m) w /\ from_name (m_name m) n).
  Proof.
    intros N H. destruct G as [ms' R].
    assert (H1 : exists fv enf, shows (to_dict fv enf (rows show ms')) n v).
    { destruct H as (u & U1 & U2). exists (otruthy (dget options k_single_value)), (otruthy (dget options k_enforce_list)), u. split; [|exact U2]. unfold result_dict in U1. destruct (otruthy (dget options k_output_input_string)); [|exact U1].
      rewrite dget_dset_ne in U1; [exact U1|]. intros E. apply N. injection E. auto. }
    destruct H1 as (fv & enf & H1). apply (to_dict_sound _ _ _ _ _ (rows_one ms')) in H1. apply rows_In in H1 as (x & X1 & X2 & X3). exists (m_value x). split; [auto|].
    destruct (processed_back options s markers solver_of M ms ms' P Q R x X1) as [_ [[K _]|(m & Hm & V & F & _)]]; rewrite X2 in *; [left; exact K|right; exists m; auto].
  Qed.
  (** No value is lost without a reason: it is shown, up to the case of a text, or at some moment of the process something took it away *)
  Theorem C100_kept m : otruthy (dget options (KS (lit "single_value"))) = false -> m_name m <> lit "input_string" -> In m ms ->
    (exists w v, value_alike (m_value m) w /\ shows d (m_name m) v /\ (v = show w \/ py_eq v (show w) = true)) \/
    exists ms1 x, moment options s markers solver_of ms ms1 /\ In x ms1 /\ same_fact m x /\ taken solver_of s markers ms1 x.
  Proof.
    intros Sg N Hm. destruct G as [ms' R]. destruct (processed_keep options s markers solver_of M ms ms' m P R Hm) as [(x & X1 & X2 & X3 & _)|K]; [left|right; exact K].
    exists (m_value x). destruct (to_dict_shows (otruthy (dget options k_enforce_list)) (rows show ms') (m_name m) (show (m_value x)) (rows_one ms')) as (v & (u & U1 & U2) & V).
    { apply rows_In. exists x. auto. }
    exists v. split; [exact X3|]. split; [|exact V]. exists u. split; [|exact U2]. unfold result_dict, k_single_value. rewrite Sg. destruct (otruthy (dget options k_output_input_string)); [|exact U1].
    rewrite dget_dset_ne; [exact U1|]. intros E. apply N. injection E. auto.
  Qed.
End Guess.
(** The conflicts come first. A value alone with its property, that nothing overlaps and that no rule is about, is shown *)
Theorem C100_alone options show solver_of s markers ms ms' m : (forall v, not_list (show v)) -> py_eq (show (m_value m)) (show (m_value m)) = true -> markers_ok s markers -> (forall x, In x ms -> placed s x) -> (forall g, In g markers -> m_parent g = None) ->
  acts options s markers (ConflictSolver solver_of ms) ms' -> otruthy (dget options (KS (lit "single_value"))) = false ->
  In m ms -> m_private m = false -> (forall c, In c ms -> m_private c = false -> ConflictsProps.overlap m c -> mkey c = mkey m) ->
  ~ one_of handled (m_name m) -> ~ one_of invented (m_name m) -> ~ one_of (map snd taken_from) (m_name m) -> m_name m <> lit "input_string" ->
  m_parent m = None -> (forall v, value_alike (m_value m) v -> v = m_value m) ->
  (forall x, In x ms -> m_name x = m_name m -> m_value x = m_value m /\ m_private x = false /\ forall t, In t weak_tags -> ~ tag t x) ->
  (forall x p, In x ms -> m_parent x = Some p -> p_name p <> m_name m) ->
  (forall x, In x ms -> ~ one_of ["year"; "season"; "language"; "audio_profile"]%string (m_name x)) -> ~ In 45%N s ->
  dget (result_dict options s (rows show ms')) (KS (m_name m)) = Some (if otruthy (dget options (KS (lit "enforce_list"))) then VList [show (m_value m)] else show (m_value m)).
Proof.
  intros Sh Re M P Q A Sg Hm Pu Al N1 N2 N3 N4 Pa V Same Par No D.
  assert (P1 : forall z, In z (ConflictSolver solver_of ms) -> placed s z) by (intros z Hz; apply P; eapply solver_sub; exact Hz).
  assert (B : forall ms1, acts options s markers (ConflictSolver solver_of ms) ms1 -> back ms ms1).
  { intros ms1 A1. eapply back_trans; [|eapply acts_back; eauto]. unfold ConflictSolver. apply back_remove. apply back_self. }
  assert (F : forall ms1 y, acts options s markers (ConflictSolver solver_of ms) ms1 -> In y ms1 -> m_name y = m_name m -> m_value y = m_value m /\ m_private y = false /\ forall t, In t weak_tags -> ~ tag t y).
  { intros ms1 y A1 Hy E. destruct (B ms1 A1 y Hy) as [_ [[Iy _]|(m0 & H0 & (A2 & A3 & A4 & A5))]]; [rewrite E in Iy; contradiction|].
    assert (E0 : m_name m0 = m_name m) by (destruct A3 as [A3|(a & b & T & _ & A3)]; [congruence|]; exfalso; apply N3; exists b; split; [apply (in_map snd) in T; exact T|congruence]).
    destruct (Same m0 H0 E0) as (S1 & S2 & S3). rewrite S1 in A2. split; [apply V; exact A2|]. split; [|intros t T G; apply (S3 t T), A5; [right; exact T|exact G]]. destruct (m_private y); [|reflexivity]. destruct (A4 eq_refl) as [G|G]; [congruence|]. apply hidden_handled in G. rewrite E0 in G. contradiction. }
  assert (H0 : In m (ConflictSolver solver_of ms)).
  { destruct (solver_keeps solver_of ms m Hm) as [K|(i & r & [j k] & K1 & K2 & K3 & (K4 & K5 & K6 & K7 & _))]; [exact K|exfalso]. cbn [fst snd] in *. apply K7. rewrite K2. symmetry. apply Al; [eapply nth_error_In; exact K4|exact K5|].
    apply key_facts in K2 as (E1 & E2 & _). destruct K6 as (c & C1 & C2). exists c. split; [lia|exact C2]. }
  assert (X : exists x, In x ms' /\ same_fact m x).
  { destruct (acts_keep options s markers M _ ms' m P1 A H0) as [K|(ms1 & x & R1 & X1 & X2 & K)]; [exact K|exfalso].
    destruct X2 as (E1 & E2 & E3 & E4 & _). destruct (F ms1 x R1 X1 E1) as (Fx1 & Fx2 & Fx3).
    destruct K as [K|(r & K1 & K2 & K3)]; [|apply key_facts in K2 as (_ & _ & K2 & _); destruct (F ms1 r R1 K1) as (_ & K4 & _); congruence].
    destruct K as [H|H|y p H1 H2 H3|r t H1 H2 H3 H4|y H1 H2 H3|y Hs H1 H2 H3|y H1 H2 H3 H4|c H1 H2 H3].
    - rewrite E1 in H. contradiction.
    - congruence.
    - destruct (B ms1 R1 y H1) as [[K|[(m0 & H4 & K)|(q & K1 & K2)]] _]; [congruence|apply (Par m0 p H4); congruence|]. apply N2. exists "screen_size"%string. split; [iv|congruence].
    - apply key_facts in H2 as (_ & _ & H2 & _). destruct (F ms1 r R1 H1) as (_ & _ & G); [congruence|]. exact (G t H3 H4).
    - destruct H2 as (t & T & E). cbn [In] in T. destruct (B ms1 R1 y H1) as [_ [(Iy & Dy & _)|(m0 & H4 & (_ & A2 & _))]].
      + destruct T as [<-|T].
        * destruct Dy as (m0 & H4 & (u & U & G)); [exists "year"%string; cbn; auto|]. apply (No m0 H4). exists u. split; [cbn [In dated] in *; tauto|exact G].
        * destruct Iy as (u & U & G). rewrite E in G. cbn [In invented] in U. destruct T as [<-|[<-|[]]]; repeat (destruct U as [<-|U]; [discriminate G|]); destruct U.
      + destruct A2 as [A2|(a & b & TF & _ & A2)].
        * apply (No m0 H4). exists t. split; [cbn [In]; tauto|congruence].
        * rewrite E in A2. cbn [In taken_from] in TF. destruct T as [<-|[<-|[<-|[]]]]; repeat (destruct TF as [TF|TF]; [injection TF as <- <-; discriminate A2|]); destruct TF.
    - destruct (F ms1 y R1 H1) as (G1 & _); [congruence|]. congruence.
    - destruct (F ms1 y R1 H1) as (_ & G1 & _); [congruence|]. congruence.
    - destruct H2 as (_ & _ & H2 & _). apply nth_error_In in H2. contradiction. }
  destruct X as (x & X1 & X2 & X3 & _).
  assert (All : forall v, In v (values_of (KS (m_name m)) (rows show ms')) -> v = show (m_value m)).
  { intros v Hv. apply values_of_In in Hv. apply rows_In in Hv. destruct Hv as (y & Y1 & Y2 & <-). destruct (F ms' y A Y1 Y2) as (-> & _). reflexivity. }
  assert (One : In (show (m_value m)) (values_of (KS (m_name m)) (rows show ms'))).
  { apply values_of_In, rows_In. exists x. split; [exact X1|]. split; [exact X2|]. f_equal. apply V. exact X3. }
  assert (E : dget (to_dict false (otruthy (dget options (KS (lit "enforce_list")))) (rows show ms')) (KS (m_name m)) = Some (if otruthy (dget options (KS (lit "enforce_list"))) then VList [show (m_value m)] else show (m_value m))).
  { pose proof (to_dict_value (otruthy (dget options (KS (lit "enforce_list")))) (rows show ms') (KS (m_name m)) (rows_one show Sh ms')) as H.
    destruct (values_of (KS (m_name m)) (rows show ms')) as [|a r]; [destruct One|]. destruct H as (out & Fi & ->). rewrite (All a (or_introl eq_refl)) in Fi |- *.
    rewrite (firsts_none _ _ _ Fi (show (m_value m))); [reflexivity|left; reflexivity|exact Re|intros v Hv; apply All; right; exact Hv]. }
  unfold result_dict, k_single_value. rewrite Sg. destruct (otruthy (dget options k_output_input_string)); [|exact E].
  rewrite dget_dset_ne; [exact E|]. intros K. apply N4. injection K. auto.
Qed.
Print Assumptions C100_alone.
Print Assumptions C100_sound.
Print Assumptions C100_kept.

(** ** Example *)
(** the word mkv loses to the extension, the title is found, the private match goes, and the film number is shown *)
Example C100_alone_ex : let s := lit "Film [f7] Extended.700MB.mkv" in
  let show v := match v with MvInt z => VInt z | MvStr t => VStr t | _ => VNone end in
  let ms := [simple 7 8 (lit "film") (MvInt 7) []; simple 25 28 (lit "container") (MvStr (lit "mkv")) []; simple 10 18 (lit "edition") (MvStr (lit "Extended")) []; mk_mt 19 22 (lit "number") (MvInt 700) [] true 19 22 None [];
             simple 24 28 (lit "container") (MvStr (lit "mkv")) [lit "extension"]] in
  let markers := [simple 0 28 (lit "path") (MvStr []) []] in
  exists ms', acts [] s markers (ConflictSolver (fun _ => None) ms) ms' /\ List.length (ConflictSolver (fun _ => None) ms) = 4 /\ List.length ms' = 4 /\
    dget (result_dict [] s (rows show ms')) (KS (lit "film")) = Some (VInt 7).
Proof.
  cbv zeta.
  pose (ms := [simple 7 8 (lit "film") (MvInt 7) []; simple 25 28 (lit "container") (MvStr (lit "mkv")) []; simple 10 18 (lit "edition") (MvStr (lit "Extended")) []; mk_mt 19 22 (lit "number") (MvInt 700) [] true 19 22 None [];
             simple 24 28 (lit "container") (MvStr (lit "mkv")) [lit "extension"]]).
  assert (R : exists ms', acts [] (lit "Film [f7] Extended.700MB.mkv") [simple 0 28 (lit "path") (MvStr []) []] (ConflictSolver (fun _ => None) ms) ms' /\ List.length ms' = 4).
  { eexists. split; [eapply acts_private; eapply acts_rule; [apply acts_none|apply st_title; [reflexivity|reflexivity|vm_compute; reflexivity]]|]. vm_compute. reflexivity. }
  destruct R as (ms' & R & L). exists ms'. split; [exact R|]. split; [vm_compute; reflexivity|]. split; [exact L|].
  assert (NM : forall x, In x ms -> m_name x = lit "film" -> x = simple 7 8 (lit "film") (MvInt 7) []) by (intros x Hx E; cbn [In ms] in Hx; repeat (destruct Hx as [<-|Hx]; [first [reflexivity|discriminate E]|]); destruct Hx).
  refine (C100_alone [] _ (fun _ => None) _ _ ms ms' (simple 7 8 (lit "film") (MvInt 7) []) _ _ _ _ _ R _ _ _ _ _ _ _ _ _ _ _ _ _ _).
  - intros []; exact Logic.I.
  - reflexivity.
  - marking.
  - unfold ms. placing.
  - intros g [<-|[]]. reflexivity.
  - reflexivity.
  - left. reflexivity.
  - reflexivity.
  - intros c Hc _ (i & O1 & O2). cbn [m_start m_end simple] in O1. cbn [In ms] in Hc. repeat (destruct Hc as [<-|Hc]; [first [reflexivity|cbn in O2; lia]|]). destruct Hc.
  - intros (t & T & E). cbn [In handled] in T. repeat (destruct T as [<-|T]; [discriminate E|]). destruct T.
  - intros (t & T & E). cbn [In invented] in T. repeat (destruct T as [<-|T]; [discriminate E|]). destruct T.
  - intros (t & T & E). cbn [In map snd taken_from] in T. repeat (destruct T as [<-|T]; [discriminate E|]). destruct T.
  - discriminate.
  - reflexivity.
  - intros v [<-|(a & b & E & _)]; [reflexivity|discriminate E].
  - intros x Hx E. rewrite (NM x Hx E). repeat split; intros t _ [].
  - intros x p Hx E. cbn [In ms] in Hx. repeat (destruct Hx as [<-|Hx]; [discriminate E|]). destruct Hx.
  - intros x Hx (t & T & E). cbn [In ms] in Hx, T. repeat (destruct Hx as [<-|Hx]; [repeat (destruct T as [<-|T]; [discriminate E|]); destruct T|]). destruct Hx.
  - intros H. vm_compute in H. repeat (destruct H as [H|H]; [discriminate|]). destruct H.
Qed.
