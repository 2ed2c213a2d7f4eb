(** Overlapping matches (C97). *)
From Verif Require Import Py PyFacts Text Sort Rebulk RebulkFacts Conflicts.
From Coq Require Import Arith Lia Permutation Sorted Relation_Operators Operators_Properties ZifyBool.

(** ** Specification *)
(** a match with its place in the list ([obj]) identifies it among equal ones *)
(** two matches have a character in common *)
Definition overlap (a b : mt) : Prop := exists i, m_start a <= i < m_end a /\ m_start b <= i < m_end b.
Definition width (m : mt) : nat := m_end m - m_start m.
(** the length of the whole pattern a match comes from *)
Definition whole_width (m : mt) : nat := match m_parent m with Some p => p_end p - p_start p | None => width m end.
Section Spec.
  Context (solver_of : obj -> option solver).
  (** what the solver of [a] says of [a] and [b]: [Some x] to remove [x], [None] to remove nothing *)
  Inductive says (a b : obj) : option obj -> Prop :=
  | says_me f : solver_of a = Some f -> f (snd a) (snd b) = RemoveMatch -> says a b (Some a)
  | says_other f : solver_of a = Some f -> f (snd a) (snd b) = RemoveOther -> says a b (Some b)
  | says_none f : solver_of a = Some f -> f (snd a) (snd b) = RemoveNone -> says a b None.
  Definition silent (a b : obj) : Prop := forall r, ~ says a b r.
  (** when [m] meets [c], the solver of [c] speaks first, then the one of [m], then the longer pattern is kept *)
  Inductive verdict (m c : obj) : option obj -> Prop :=
  | v_its r : says c m r -> verdict m c r
  | v_mine r : silent c m -> says m c r -> verdict m c r
  | v_longer : silent c m -> silent m c -> whole_width (snd c) < whole_width (snd m) -> verdict m c (Some c)
  | v_shorter : silent c m -> silent m c -> whole_width (snd m) < whole_width (snd c) -> verdict m c (Some m)
  | v_equal : silent c m -> silent m c -> whole_width (snd m) = whole_width (snd c) -> verdict m c None.
  (** [k] is preferred to [x] which it overlaps *)
  Definition preferred (ms : list mt) (x k : obj) : Prop :=
    nth_error ms (fst k) = Some (snd k) /\ m_private (snd k) = false /\ overlap (snd x) (snd k) /\ mkey (snd x) <> mkey (snd k) /\
    (verdict x k (Some x) \/ verdict k x (Some x)).
End Spec.
(** ** Proofs *)
Lemma objects_In ms o : In o (objects ms) <-> nth_error ms (fst o) = Some (snd o).
Proof.
  unfold objects. assert (G : forall (l : list mt) k, In o (combine (seq k (List.length l)) l) <-> exists i, fst o = k + i /\ nth_error l i = Some (snd o)).
  { induction l as [|m l IH]; intros k; cbn [List.length seq combine In].
    - split; [intros []|]. intros (i & _ & H). destruct i; discriminate.
    - rewrite IH. split.
      + intros [<-|(i & E & H)]; [exists 0; cbn [fst snd]; split; [lia|reflexivity]|exists (S i); split; [lia|exact H]].
      + intros ([|i] & E & H); [left; destruct o as [a b]; cbn [fst snd] in *; injection H as ->; f_equal; lia|right; exists i; split; [lia|exact H]]. }
  rewrite G. split; [intros (i & -> & H); exact H|]. intros H. exists (fst o). split; [reflexivity|exact H].
Qed.
Lemma objects_id ms a b : In a (objects ms) -> In b (objects ms) -> fst a = fst b -> a = b.
Proof. intros A B E. apply objects_In in A, B. rewrite E in A. rewrite A in B. destruct a, b; cbn [fst snd] in *. congruence. Qed.
Lemma same_iff a b : same a b = true <-> mkey (snd a) = mkey (snd b).
Proof. unfold same. apply mt_eqb_eq. Qed.

Definition keyed (l : list obj) : Prop := NoDup (map (fun o => mkey (snd o)) l).
Lemma add_new_spec l : forall acc, keyed acc -> keyed (add_new acc l) /\
  (forall o, In o (add_new acc l) -> In o acc \/ In o l) /\ (forall o, In o acc -> In o (add_new acc l)) /\ (forall o, In o l -> exists o', In o' (add_new acc l) /\ mkey (snd o') = mkey (snd o)).
Proof.
  unfold add_new. induction l as [|x l IH]; intros acc K; cbn [fold_left]; [repeat split; auto; intros o []|].
  destruct (existsb (same x) acc) eqn:E.
  - destruct (IH acc K) as (H1 & H2 & H3 & H4). split; [exact H1|]. split; [intros o Ho; destruct (H2 o Ho); [left|right; right]; auto|]. split; [exact H3|]. intros o [<-|Ho]; [|apply H4; exact Ho].
    apply existsb_exists in E as (y & Hy & Ey). exists y. split; [apply H3; exact Hy|]. apply same_iff in Ey. congruence.
  - destruct (IH (acc ++ [x])) as (H1 & H2 & H3 & H4).
    + unfold keyed in *. rewrite map_app. cbn [map]. apply (Permutation_NoDup (l := mkey (snd x) :: map (fun o => mkey (snd o)) acc)); [apply Permutation_cons_append|]. constructor; [|exact K].
      intros H. apply in_map_iff in H as (y & Ey & Hy). apply Bool.not_true_iff_false in E. apply E. apply existsb_exists. exists y. split; [exact Hy|apply same_iff; congruence].
    + split; [exact H1|]. split.
      * intros o Ho. destruct (H2 o Ho) as [H|H]; [apply in_app_iff in H as [H|[H|[]]]; [left; exact H|right; left; exact H]|right; right; exact H].
      * split; [intros o Ho; apply H3; apply in_app_iff; left; exact Ho|]. intros o [<-|Ho]; [exists x; split; [apply H3; apply in_app_iff; right; left; reflexivity|reflexivity]|apply H4; exact Ho].
Qed.
Lemma drop_same_sub m l o : In o (drop_same m l) -> In o l.
Proof. induction l as [|x l IH]; cbn [drop_same]; [intros []|]. destruct (same m x); [intros H; right; exact H|]. intros [->|H]; [left; reflexivity|right; auto]. Qed.
Lemma drop_same_In m l : keyed l -> forall o, In o (drop_same m l) <-> In o l /\ mkey (snd o) <> mkey (snd m).
Proof.
  induction l as [|x l IH]; intros K o; cbn [drop_same In]; [tauto|]. inversion K as [|? ? K1 K2]; subst. destruct (same m x) eqn:E.
  - apply same_iff in E. split.
    + intros H. split; [right; exact H|]. intros F. apply K1. rewrite <- E, <- F. apply in_map_iff. exists o. auto.
    + intros ([<-|H] & F); [congruence|exact H].
  - assert (N : mkey (snd x) <> mkey (snd m)) by (intros F; apply Bool.not_true_iff_false in E; apply E; apply same_iff; congruence). cbn [In]. rewrite (IH K2 o). split.
    + intros [<-|[H F]]; auto.
    + intros [[<-|H] F]; auto.
Qed.
Lemma covers_overlap a b : overlap a b <-> exists i, In i (seq (m_start a) (width a)) /\ covers i b = true.
Proof.
  unfold overlap, covers, width. split.
  - intros (i & H1 & H2). exists i. rewrite in_seq. lia.
  - intros (i & H & C). apply in_seq in H. exists i. lia.
Qed.
Lemma conflicting_all m l : let acc := fold_left (fun acc i => add_new acc (filter (fun o => covers i (snd o)) l)) (seq (m_start (snd m)) (len m)) [] in
  keyed acc /\ (forall o, In o acc -> In o l /\ overlap (snd m) (snd o)) /\ (forall o, In o l -> overlap (snd m) (snd o) -> exists o', In o' acc /\ mkey (snd o') = mkey (snd o)).
Proof.
  cbv zeta. assert (G : forall is acc, keyed acc -> keyed (fold_left (fun acc i => add_new acc (filter (fun o => covers i (snd o)) l)) is acc) /\
    (forall o, In o (fold_left (fun acc i => add_new acc (filter (fun o => covers i (snd o)) l)) is acc) -> In o acc \/ In o l /\ exists i, In i is /\ covers i (snd o) = true) /\
    (forall o, In o acc -> In o (fold_left (fun acc i => add_new acc (filter (fun o => covers i (snd o)) l)) is acc)) /\
    (forall o i, In o l -> In i is -> covers i (snd o) = true -> exists o', In o' (fold_left (fun acc i => add_new acc (filter (fun o => covers i (snd o)) l)) is acc) /\ mkey (snd o') = mkey (snd o))).
  { induction is as [|i is IH]; intros acc K; cbn [fold_left]; [repeat split; auto; intros o i _ []|].
    destruct (add_new_spec (filter (fun o => covers i (snd o)) l) acc K) as (A1 & A2 & A3 & A4). destruct (IH _ A1) as (B1 & B2 & B3 & B4). split; [exact B1|]. split; [|split].
    - intros o Ho. destruct (B2 o Ho) as [H|(H & j & Hj & C)]; [|right; split; [exact H|]; exists j; split; [right; exact Hj|exact C]]. destruct (A2 o H) as [H'|H']; [left; exact H'|]. apply filter_In in H' as [H1 H2]. right. split; [exact H1|]. exists i. split; [left; reflexivity|exact H2].
    - intros o Ho. auto.
    - intros o j Ho [<-|Hj] C; [|eapply B4; eauto]. destruct (A4 o) as (o' & H1 & H2); [apply filter_In; auto|]. exists o'. auto. }
  destruct (G (seq (m_start (snd m)) (len m)) [] ltac:(constructor)) as (G1 & G2 & _ & G4). split; [exact G1|]. split.
  - intros o Ho. destruct (G2 o Ho) as [[]|(H & i & Hi & C)]. split; [exact H|]. apply covers_overlap. exists i. auto.
  - intros o Ho O. apply covers_overlap in O as (i & Hi & C). eapply G4; eauto.
Qed.
Lemma conflicting_sound m l c : In c (conflicting_with m l) -> In c l /\ overlap (snd m) (snd c) /\ mkey (snd c) <> mkey (snd m).
Proof. destruct (conflicting_all m l) as (K & A & _). intros H. unfold conflicting_with in H. apply drop_same_In in H; [|exact K]. destruct H as [H N]. apply A in H. tauto. Qed.
Lemma conflicting_complete m l c : In c l -> overlap (snd m) (snd c) -> mkey (snd c) <> mkey (snd m) -> exists c', In c' (conflicting_with m l) /\ mkey (snd c') = mkey (snd c).
Proof.
  destruct (conflicting_all m l) as (K & _ & B). intros H O N. destruct (B c H O) as (c' & H1 & H2). exists c'. split; [|exact H2]. unfold conflicting_with. apply drop_same_In; [exact K|]. split; [exact H1|congruence].
Qed.
Lemma overlap_sym a b : overlap a b -> overlap b a.
Proof. intros (i & H1 & H2). exists i. auto. Qed.
Lemma sort_len_In l o : In o (sort_len l) <-> In o l.
Proof. unfold sort_len. split; apply Permutation_in; [|symmetry]; apply isort_perm. Qed.

Section Proofs.
  Context (solver_of : obj -> option solver).
  Notation says := (says solver_of).
  Notation silent := (silent solver_of).
  Notation verdict := (verdict solver_of).
  Lemma ask_says a b r : ask solver_of a b = Some r <-> says a b r.
  Proof.
    unfold ask. split.
    - destruct (solver_of a) as [f|] eqn:E; [|discriminate]. destruct (f (snd a) (snd b)) eqn:F; intros H; try discriminate; injection H as <-; econstructor; eassumption.
    - intros H. destruct H as [f H1 H2|f H1 H2|f H1 H2]; rewrite H1, H2; reflexivity.
  Qed.
  Lemma ask_silent a b : ask solver_of a b = None <-> silent a b.
  Proof.
    split.
    - intros H r S0. apply ask_says in S0. congruence.
    - intros H. destruct (ask solver_of a b) as [r|] eqn:E; [|reflexivity]. exfalso. apply ask_says in E. exact (H r E).
  Qed.
  Lemma to_remove_verdict m c r : to_remove solver_of m c = r <-> verdict m c r.
  Proof.
    unfold to_remove. destruct (ask solver_of c m) as [r1|] eqn:E1; [|apply ask_silent in E1; destruct (ask solver_of m c) as [r2|] eqn:E2; [|apply ask_silent in E2]].
    - apply ask_says in E1. split; [intros <-; apply v_its; exact E1|]. intros V. destruct V as [r H|r H|H|H|H]; try (exfalso; exact (H _ E1)). apply ask_says in E1, H. congruence.
    - apply ask_says in E2. split; [intros <-; apply v_mine; assumption|]. intros V. destruct V as [r H|r _ H|_ H|_ H|_ H]; try (exfalso; exact (H _ E2)); [exfalso; exact (E1 _ H)|]. apply ask_says in E2, H. congruence.
    - unfold by_length, ini_len, len. change (match m_parent (snd c) with Some p => p_end p - p_start p | None => m_end (snd c) - m_start (snd c) end) with (whole_width (snd c)).
      change (match m_parent (snd m) with Some p => p_end p - p_start p | None => m_end (snd m) - m_start (snd m) end) with (whole_width (snd m)).
      destruct (Nat.ltb_spec (whole_width (snd c)) (whole_width (snd m))) as [L|L]; [|destruct (Nat.ltb_spec (whole_width (snd m)) (whole_width (snd c))) as [L2|L2]].
      + split; [intros <-; apply v_longer; assumption|]. intros V. destruct V as [r H|r _ H|_ _ H|_ _ H|_ _ H]; try (exfalso; exact (E1 _ H)); try (exfalso; exact (E2 _ H)); try reflexivity; lia.
      + split; [intros <-; apply v_shorter; assumption|]. intros V. destruct V as [r H|r _ H|_ _ H|_ _ H|_ _ H]; try (exfalso; exact (E1 _ H)); try (exfalso; exact (E2 _ H)); try reflexivity; lia.
      + split; [intros <-; apply v_equal; try assumption; lia|]. intros V. destruct V as [r H|r _ H|_ _ H|_ _ H|_ _ H]; try (exfalso; exact (E1 _ H)); try (exfalso; exact (E2 _ H)); try reflexivity; lia.
  Qed.
  Lemma verdict_one m c x : verdict m c (Some x) -> x = m \/ x = c.
  Proof. intros V. inversion V as [r H|r _ H| | |]; subst; auto; inversion H; subst; auto. Qed.
  Lemma verdict_fun m c r r' : verdict m c r -> verdict m c r' -> r = r'.
  Proof. intros A B. apply to_remove_verdict in A, B. congruence. Qed.

  (** the meetings, in their order *)
  Definition meetings (ms : list mt) : list (obj * obj) :=
    flat_map (fun m => map (pair m) (sort_len (filter public (conflicting_with m (objects ms))))) (sort_len (filter public (objects ms))).
  Definition meet1 (gone : list nat) (p : obj * obj) : list nat := meet solver_of (fst p) gone (snd p).
  Lemma lost_meetings ms : lost solver_of ms = fold_left meet1 (meetings ms) [].
  Proof.
    unfold lost, meetings. cbv zeta. generalize (@nil nat). generalize (sort_len (filter public (objects ms))). induction l as [|m l IH]; intros g; cbn [fold_left flat_map]; [reflexivity|].
    rewrite fold_left_app, IH. f_equal. unfold meet_all. generalize (sort_len (filter public (conflicting_with m (objects ms)))). intros cs. revert g. induction cs as [|c cs IHc]; intros g; cbn [fold_left map]; [reflexivity|]. rewrite IHc. reflexivity.
  Qed.
  Definition at_place (ms : list mt) (o : obj) : Prop := nth_error ms (fst o) = Some (snd o) /\ m_private (snd o) = false.
  Lemma meetings_sound ms m c : In (m, c) (meetings ms) -> at_place ms m /\ at_place ms c /\ overlap (snd m) (snd c) /\ mkey (snd m) <> mkey (snd c).
  Proof.
    intros H. apply in_flat_map in H as (m' & Hm & H). apply in_map_iff in H as (c' & E & Hc). injection E as -> ->. apply sort_len_In, filter_In in Hm as [Hm Pm]. apply sort_len_In, filter_In in Hc as [Hc Pc].
    apply conflicting_sound in Hc as (Hc & O & N). apply objects_In in Hm, Hc. unfold public in *. apply Bool.negb_true_iff in Pm, Pc. unfold at_place. repeat split; auto.
  Qed.
  Lemma meetings_complete ms m c : at_place ms m -> at_place ms c -> overlap (snd m) (snd c) -> mkey (snd m) <> mkey (snd c) ->
    (forall c', at_place ms c' -> mkey (snd c') = mkey (snd c) -> c' = c) -> (forall c', nth_error ms (fst c') = Some (snd c') -> mkey (snd c') = mkey (snd c) -> m_private (snd c') = false) -> In (m, c) (meetings ms).
  Proof.
    intros [M1 M2] [C1 C2] O N U P. apply in_flat_map. exists m. split; [apply sort_len_In, filter_In; split; [apply objects_In; exact M1|unfold public; rewrite M2; reflexivity]|]. apply in_map_iff. exists c. split; [reflexivity|].
    destruct (conflicting_complete m (objects ms) c) as (c' & H & K); [apply objects_In; exact C1|exact O|congruence|]. assert (Hc' : nth_error ms (fst c') = Some (snd c')) by (apply conflicting_sound in H as [H _]; apply objects_In; exact H).
    assert (c' = c) as -> by (apply U; [split; [exact Hc'|apply P; auto]|exact K]). apply sort_len_In, filter_In. split; [exact H|]. unfold public. rewrite C2. reflexivity.
  Qed.
  Lemma is_in_iff o l : is_in o l = true <-> In (fst o) l.
  Proof. unfold is_in. rewrite existsb_exists. split; [intros (x & H & E); apply Nat.eqb_eq in E; congruence|]. intros H. exists (fst o). split; [exact H|apply Nat.eqb_refl]. Qed.
  (** one meeting *)
  Definition other_of (m c x : obj) : obj := if fst x =? fst m then c else m.
  Lemma meet1_cases gone m c : (meet1 gone (m, c) = gone /\ (verdict m c None \/ exists x, verdict m c (Some x) /\ (In (fst x) gone \/ In (fst (other_of m c x)) gone))) \/
    (exists x, verdict m c (Some x) /\ ~ In (fst x) gone /\ ~ In (fst (other_of m c x)) gone /\ meet1 gone (m, c) = gone ++ [fst x]).
  Proof.
    unfold meet1, meet. cbn [fst snd]. destruct (to_remove solver_of m c) as [x|] eqn:E; apply to_remove_verdict in E; [|left; auto]. destruct (is_in x gone) eqn:I1; [apply is_in_iff in I1; left; split; [reflexivity|right; exists x; auto]|].
    fold (other_of m c x). destruct (is_in (other_of m c x) gone) eqn:I2; [apply is_in_iff in I2; left; split; [reflexivity|right; exists x; auto]|]. right. exists x. split; [exact E|]. rewrite <- !is_in_iff, I1, I2. repeat split; congruence.
  Qed.
  Lemma meet_grows l : forall gone i, In i gone -> In i (fold_left meet1 l gone).
  Proof.
    induction l as [|[m c] l IH]; intros gone i H; [exact H|]. cbn [fold_left]. apply IH. destruct (meet1_cases gone m c) as [[-> _]|(x & _ & _ & _ & ->)]; [exact H|apply in_app_iff; left; exact H].
  Qed.
  Definition fought (l : list (obj * obj)) (x k : obj) : Prop := exists m c, In (m, c) l /\ verdict m c (Some x) /\ k = other_of m c x.
  (** what is removed was beaten by what was not yet removed *)
  Inductive justified (l : list (obj * obj)) : list nat -> Prop :=
  | j_nil : justified l []
  | j_add g x k : justified l g -> fought l x k -> ~ In (fst x) g -> ~ In (fst k) g -> justified l (g ++ [fst x]).
  Lemma all_justified l : forall done gone, justified done gone -> (forall p, In p l -> In p done) -> justified done (fold_left meet1 l gone).
  Proof.
    induction l as [|[m c] l IH]; intros done gone J S0; [exact J|]. cbn [fold_left]. apply IH; [|intros p Hp; apply S0; right; exact Hp]. destruct (meet1_cases gone m c) as [[-> _]|(x & V & N1 & N2 & ->)]; [exact J|].
    apply (j_add _ _ _ (other_of m c x)); auto. exists m, c. split; [apply S0; left; reflexivity|auto].
  Qed.
  Lemma justified_lost ms : justified (meetings ms) (lost solver_of ms).
  Proof. rewrite lost_meetings. apply all_justified; [constructor|auto]. Qed.
  Lemma justified_In l g i : justified l g -> In i g -> exists x k, fst x = i /\ fought l x k.
  Proof. induction 1 as [|g x k J IH F N1 N2]; [intros []|]. intros H. apply in_app_iff in H as [H|[<-|[]]]; [auto|]. exists x, k. auto. Qed.
  Lemma fought_preferred ms x k : fought (meetings ms) x k -> at_place ms x /\ preferred solver_of ms x k /\ fst k <> fst x.
  Proof.
    intros (m & c & H & V & ->). apply meetings_sound in H as (Hm & Hc & O & N). assert (D : fst m <> fst c) by (intros E; destruct Hm as [Hm _], Hc as [Hc _]; rewrite E in Hm; congruence).
    unfold other_of. destruct (verdict_one _ _ _ V) as [-> | ->].
    - rewrite Nat.eqb_refl. split; [exact Hm|]. split; [|congruence]. destruct Hc as [C1 C2]. repeat split; auto.
    - destruct (Nat.eqb_spec (fst c) (fst m)) as [E|_]; [congruence|]. split; [exact Hc|]. split; [|exact D]. destruct Hm as [C1 C2]. unfold preferred. repeat split; auto. apply overlap_sym; exact O.
  Qed.
  Lemma kept_reached ms g : justified (meetings ms) g -> forall x, at_place ms x -> In (fst x) g -> exists k, at_place ms k /\ ~ In (fst k) g /\ clos_trans _ (preferred solver_of ms) x k.
  Proof.
    induction 1 as [|g y k J IH F N1 N2]; intros x Px Hx; [destruct Hx|]. apply fought_preferred in F as (Py & Pr & D). assert (Pk : at_place ms k) by (split; apply Pr).
    assert (Y : exists z, at_place ms z /\ ~ In (fst z) (g ++ [fst y]) /\ clos_trans _ (preferred solver_of ms) y z).
    { exists k. split; [exact Pk|]. split; [|apply t_step; exact Pr]. intros H. apply in_app_iff in H as [H|[H|[]]]; auto. }
    apply in_app_iff in Hx as [Hx|[Hx|[]]].
    - destruct (IH x Px Hx) as (z & Pz & Nz & T). destruct (Nat.eq_dec (fst z) (fst y)) as [E|E].
      + assert (z = y) as -> by (destruct Pz as [A _], Py as [B _]; destruct z, y; cbn [fst snd] in *; congruence). destruct Y as (w & Pw & Nw & T2). exists w. split; [exact Pw|]. split; [exact Nw|]. eapply t_trans; eassumption.
      + exists z. split; [exact Pz|]. split; [|exact T]. intros H. apply in_app_iff in H as [H|[H|[]]]; auto.
    - assert (x = y) as -> by (destruct Px as [A _], Py as [B _]; destruct x, y; cbn [fst snd] in *; congruence). exact Y.
  Qed.
End Proofs.

(** a match which is not removed *)
Definition stays (solver_of : obj -> option solver) (ms : list mt) (o : obj) : Prop := nth_error ms (fst o) = Some (snd o) /\ ~ In (fst o) (lost solver_of ms).

Lemma copies_count x ms : count_occ mkey_eq_dec (map mkey ms) (mkey x) = copies x ms.
Proof.
  unfold copies. induction ms as [|y ms IH]; cbn [map count_occ filter]; [reflexivity|]. rewrite IH. destruct (mkey_eq_dec (mkey y) (mkey x)) as [E|E], (mt_eqb x y) eqn:F; [reflexivity| | |reflexivity]; exfalso; [apply Bool.not_true_iff_false in F; apply F; apply mt_eqb_eq; congruence|apply mt_eqb_eq in F; congruence].
Qed.
Lemma copies_part (p : obj -> bool) l x : copies x (map snd l) = copies x (map snd (filter p l)) + copies x (map snd (filter (fun o => negb (p o)) l)).
Proof.
  unfold copies. induction l as [|o l IH]; [reflexivity|]. cbn [map filter]. destruct (p o); cbn [negb map filter]; destruct (mt_eqb x (snd o)); cbn [List.length]; lia.
Qed.
Lemma objects_ms ms : map snd (objects ms) = ms.
Proof. unfold objects. generalize 0. induction ms as [|m ms IH]; intros k; [reflexivity|]. cbn [List.length seq combine map]. f_equal. apply IH. Qed.

(** the matches left are those which were not removed, equal ones counted *)
Theorem C97_result solver_of ms : exists left, Permutation (map mkey (ConflictSolver solver_of ms)) (map (fun o => mkey (snd o)) left) /\ NoDup (map fst left) /\ forall o, In o left <-> stays solver_of ms o.
Proof.
  exists (filter (fun o => negb (is_in o (lost solver_of ms))) (objects ms)). split; [|split].
  - apply (Permutation_count_occ mkey_eq_dec). intros k. destruct k as [[[[a b] n] v] p]. pose (x := mk_mt a b n v [] false a b p []). change (a, b, n, v, p) with (mkey x).
    rewrite <- (map_map snd mkey), !copies_count. unfold ConflictSolver. rewrite copies_remove_all. replace (copies x ms) with (copies x (map snd (objects ms))) by (rewrite objects_ms; reflexivity). rewrite (copies_part (fun o => is_in o (lost solver_of ms)) (objects ms)). lia.
  - assert (G : forall (q : obj -> bool) l, NoDup (map fst l) -> NoDup (map fst (filter q l))).
    { intros q. induction l as [|o l IH]; intros H; [constructor|]. cbn [map filter] in *. inversion H as [|? ? H1 H2]; subst. destruct (q o); [|auto]. cbn [map]. constructor; [|auto]. intros K. apply H1. apply in_map_iff in K as (y & E & Hy). apply filter_In in Hy as [Hy _]. apply in_map_iff. exists y. auto. }
    apply G. unfold objects. assert (K : forall k, map fst (combine (seq k (List.length ms)) ms) = seq k (List.length ms)) by (induction ms as [|m ms IH]; intros k; [reflexivity|]; cbn [List.length seq combine map fst]; f_equal; apply IH). rewrite K. apply seq_NoDup.
  - intros o. rewrite filter_In, objects_In, Bool.negb_true_iff, <- Bool.not_true_iff_false, is_in_iff. reflexivity.
Qed.

(** a match is removed only if an overlapping one is preferred to it *)
Theorem C97_reason solver_of ms x : nth_error ms (fst x) = Some (snd x) -> ~ stays solver_of ms x -> m_private (snd x) = false /\ exists k, preferred solver_of ms x k.
Proof.
  intros H N. destruct (in_dec Nat.eq_dec (fst x) (lost solver_of ms)) as [L|L]; [|exfalso; apply N; split; assumption].
  destruct (justified_In solver_of _ _ _ (justified_lost solver_of ms) L) as (y & k & E & F). apply fought_preferred in F as ([P1 P2] & P & _). assert (y = x) as -> by (destruct x, y; cbn [fst snd] in *; congruence). split; [exact P2|]. exists k. exact P.
Qed.
Corollary C97_apart solver_of ms x : nth_error ms (fst x) = Some (snd x) ->
  (m_private (snd x) = true \/ forall c, In c ms -> m_private c = false -> overlap (snd x) c -> mkey c = mkey (snd x)) -> stays solver_of ms x.
Proof.
  intros H C. split; [exact H|]. intros L. assert (N : ~ stays solver_of ms x) by (intros [_ S0]; auto). apply (C97_reason _ _ _ H) in N as (P & k & K1 & K2 & K3 & K4 & _).
  destruct C as [C|C]; [congruence|]. apply K4. symmetry. apply C; auto. eapply nth_error_In; exact K1.
Qed.
(** what beats a removed match leads to a match that stays *)
Theorem C97_left solver_of ms x : nth_error ms (fst x) = Some (snd x) -> ~ stays solver_of ms x -> exists k, stays solver_of ms k /\ clos_trans _ (preferred solver_of ms) x k.
Proof.
  intros H N. destruct (in_dec Nat.eq_dec (fst x) (lost solver_of ms)) as [L|L]; [|exfalso; apply N; split; assumption]. destruct (C97_reason _ _ _ H N) as (P & _).
  destruct (kept_reached solver_of ms _ (justified_lost solver_of ms) x (conj H P) L) as (k & [K1 K2] & K3 & T). exists k. split; [split; assumption|exact T].
Qed.

Lemma met_one_gone solver_of (l : list (obj * obj)) (m c x : obj) : In (m, c) l -> verdict solver_of m c (Some x) -> forall gone, In (fst x) (fold_left (meet1 solver_of) l gone) \/ In (fst (other_of m c x)) (fold_left (meet1 solver_of) l gone).
Proof.
  intros H V. induction l as [|[a b] l IH]; intros gone; [destruct H|]. cbn [fold_left]. destruct H as [E|H]; [|apply IH; exact H]. injection E as -> ->.
  destruct (meet1_cases solver_of gone m c) as [[Q [V'|(y & V' & K)]]|(y & V' & _ & _ & Q)]; rewrite ?Q.
  - pose proof (verdict_fun _ _ _ _ _ V V'). discriminate.
  - pose proof (verdict_fun _ _ _ _ _ V V') as E. injection E as <-. destruct K as [K|K]; [left|right]; apply meet_grows; exact K.
  - pose proof (verdict_fun _ _ _ _ _ V V') as E. injection E as <-. left. apply meet_grows. apply in_app_iff. right. left. reflexivity.
Qed.
(** of two overlapping matches of which one is preferred, not both stay *)
Theorem C97_settled solver_of ms x y : distinct ms -> stays solver_of ms x -> stays solver_of ms y -> m_private (snd x) = false -> m_private (snd y) = false ->
  overlap (snd x) (snd y) -> fst x <> fst y -> verdict solver_of x y None /\ verdict solver_of y x None.
Proof.
  intros D.
  assert (U : forall a b : obj, nth_error ms (fst a) = Some (snd a) -> nth_error ms (fst b) = Some (snd b) -> mkey (snd a) = mkey (snd b) -> a = b).
  { intros a b A B E. assert (F : fst a = fst b); [|destruct a, b; cbn [fst snd] in *; congruence]. unfold distinct in D. assert (La : fst a < List.length (map mkey ms)) by (rewrite map_length; apply nth_error_Some; congruence).
    apply (proj1 (NoDup_nth_error _) D _ _ La). rewrite !nth_error_map, A, B. cbn [option_map]. congruence. }
  assert (G : forall a b : obj, stays solver_of ms a -> stays solver_of ms b -> m_private (snd a) = false -> m_private (snd b) = false -> overlap (snd a) (snd b) -> fst a <> fst b -> verdict solver_of a b None).
  { intros a b [A1 A2] [B1 B2] PA PB O N. assert (K : mkey (snd a) <> mkey (snd b)) by (intros E; apply N; rewrite (U a b); auto).
    assert (M : In (a, b) (meetings ms)).
    { apply meetings_complete; auto; try (split; assumption); [intros c' [C _] E; apply U; auto|]. intros c' C E. rewrite (U c' b); auto. }
    destruct (to_remove solver_of a b) as [z|] eqn:E; apply to_remove_verdict in E; [exfalso|exact E]. rewrite lost_meetings in A2, B2.
    destruct (met_one_gone solver_of (meetings ms) a b z M E []) as [L|L]; unfold other_of in *; destruct (verdict_one _ _ _ _ E) as [-> | ->]; auto; [rewrite Nat.eqb_refl in L; auto|destruct (Nat.eqb_spec (fst b) (fst a)); [congruence|auto]]. }
  intros X Y PX PY O N. split; [apply G; auto|apply G; auto; apply overlap_sym; exact O].
Qed.

(** two matches that overlap only each other: the solver of the longer speaks first *)
Theorem C97_pair solver_of ms (x y : obj) : nth_error ms (fst x) = Some (snd x) -> nth_error ms (fst y) = Some (snd y) -> m_private (snd x) = false -> m_private (snd y) = false ->
  overlap (snd x) (snd y) -> mkey (snd x) <> mkey (snd y) -> width (snd x) < width (snd y) ->
  (forall o, nth_error ms (fst o) = Some (snd o) -> overlap (snd o) (snd x) \/ overlap (snd o) (snd y) -> o = x \/ o = y) ->
  forall z, (z = x \/ z = y) -> (~ stays solver_of ms z <-> verdict solver_of x y (Some z) \/ (verdict solver_of x y None /\ verdict solver_of y x (Some z))).
Proof.
  intros X Y PX PY O N W ALONE.
  assert (D : fst x <> fst y) by (intros E; rewrite E in X; congruence).
  assert (OX : overlap (snd x) (snd x)) by (destruct O as (i & H1 & H2); exists i; auto).
  assert (OY : overlap (snd y) (snd y)) by (destruct O as (i & H1 & H2); exists i; auto).
  assert (KX : forall c, nth_error ms (fst c) = Some (snd c) -> mkey (snd c) = mkey (snd x) -> c = x).
  { intros c C E. destruct (ALONE c C) as [->| ->]; auto; [left|congruence]. unfold mkey in E. injection E as E1 E2 _ _ _. destruct OX as (i & H1 & H2). exists i. lia. }
  assert (KY : forall c, nth_error ms (fst c) = Some (snd c) -> mkey (snd c) = mkey (snd y) -> c = y).
  { intros c C E. destruct (ALONE c C) as [->| ->]; auto; [right|congruence]. unfold mkey in E. injection E as E1 E2 _ _ _. destruct OY as (i & H1 & H2). exists i. lia. }
  assert (MX : In (x, y) (meetings ms)) by (apply meetings_complete; auto; try (split; assumption); [intros c [C _] E; auto|intros c C E; rewrite (KY c C E); exact PY]).
  assert (MY : In (y, x) (meetings ms)) by (apply meetings_complete; auto; try (split; assumption); [apply overlap_sym; exact O|intros c [C _] E; auto|intros c C E; rewrite (KX c C E); exact PX]).
  assert (ONLY : forall m c, In (m, c) (meetings ms) -> (fst m = fst x \/ fst m = fst y \/ fst c = fst x \/ fst c = fst y) -> (m, c) = (x, y) \/ (m, c) = (y, x)).
  { intros m c M H. apply meetings_sound in M as ([M1 _] & [C1 _] & OM & NM).
    assert (same_obj : forall a b : obj, nth_error ms (fst a) = Some (snd a) -> nth_error ms (fst b) = Some (snd b) -> fst a = fst b -> a = b) by (intros [a1 a2] [b1 b2] A B E; cbn [fst snd] in *; congruence).
    destruct H as [H|[H|[H|H]]].
    - apply same_obj in H; auto. subst m. destruct (ALONE c C1) as [->| ->]; auto; [left; apply overlap_sym; exact OM|congruence].
    - apply same_obj in H; auto. subst m. destruct (ALONE c C1) as [->| ->]; auto; [right; apply overlap_sym; exact OM|congruence].
    - apply same_obj in H; auto. subst c. destruct (ALONE m M1) as [->| ->]; auto. congruence.
    - apply same_obj in H; auto. subst c. destruct (ALONE m M1) as [->| ->]; auto. congruence. }
  (* (x, y) comes first *)
  assert (SPLIT : exists p q : list (obj * obj), meetings ms = p ++ (x, y) :: q /\ (forall m c, In (m, c) p -> fst m <> fst x /\ fst m <> fst y /\ fst c <> fst x /\ fst c <> fst y)).
  { assert (PL : forall l : list (obj * obj), In (x, y) l -> In (y, x) l -> (exists p q, l = p ++ (x, y) :: q /\ ~ In (y, x) p /\ ~ In (x, y) p) \/ (exists p q, l = p ++ (y, x) :: q /\ ~ In (x, y) p /\ In (x, y) q)).
    { induction l as [|a l IH]; intros H1 H2; [destruct H1|]. destruct a as [a b].
      assert (DEC : forall o o' : obj, {o = o'} + {o <> o'}) by (intros; repeat decide equality).
      destruct (DEC a x) as [Ea|Ea]; [destruct (DEC b y) as [Eb|Eb]|destruct (DEC a y) as [Ea'|Ea']; [destruct (DEC b x) as [Eb|Eb]|]].
      - subst. left. exists [], l. repeat split; auto.
      - destruct H1 as [H1|H1]; [congruence|]. destruct H2 as [H2|H2]; [congruence|]. destruct (IH H1 H2) as [(p & q & -> & Q1 & Q2)|(p & q & -> & Q1 & Q2)]; [left|right]; exists ((a, b) :: p), q; cbn [In app]; repeat split; auto; intros [E|E]; auto; congruence.
      - subst. right. exists [], l. repeat split; auto. destruct H1 as [H1|H1]; [congruence|exact H1].
      - destruct H1 as [H1|H1]; [congruence|]. destruct H2 as [H2|H2]; [congruence|]. destruct (IH H1 H2) as [(p & q & -> & Q1 & Q2)|(p & q & -> & Q1 & Q2)]; [left|right]; exists ((a, b) :: p), q; cbn [In app]; repeat split; auto; intros [E|E]; auto; congruence.
      - destruct H1 as [H1|H1]; [congruence|]. destruct H2 as [H2|H2]; [congruence|]. destruct (IH H1 H2) as [(p & q & -> & Q1 & Q2)|(p & q & -> & Q1 & Q2)]; [left|right]; exists ((a, b) :: p), q; cbn [In app]; repeat split; auto; intros [E|E]; auto; congruence. }
    destruct (PL (meetings ms) MX MY) as [(p & q & E & Q1 & Q2)|(p & q & E & Q1 & Q2)].
    - exists p, q. split; [exact E|]. intros m c H.
      assert (M : In (m, c) (meetings ms)) by (rewrite E; apply in_app_iff; left; exact H). repeat split; intros F; (destruct (ONLY m c M) as [K|K]; [auto|injection K as -> ->; auto|injection K as -> ->; auto]).
    - exfalso. (* the first components are sorted by width *)
      assert (SO : StronglySorted (fun a b : obj * obj => len (fst a) <= len (fst b)) (meetings ms)).
      { unfold meetings. assert (S1 : StronglySorted (fun a b : obj => (len a <=? len b) = true) (sort_len (filter public (objects ms)))) by (apply (isort_sorted (fun a b : obj => len a <=? len b)); intros; lia).
        revert S1. generalize (sort_len (filter public (objects ms))). induction l as [|m l IH]; intros S1; cbn [flat_map]; [constructor|]. inversion S1 as [|? ? S2 S3]; subst.
        assert (F : Forall (fun b : obj * obj => len m <= len (fst b)) (flat_map (fun m0 => map (pair m0) (sort_len (filter public (conflicting_with m0 (objects ms))))) l)).
        { apply Forall_forall. intros b Hb. apply in_flat_map in Hb as (m' & Hm' & Hb). apply in_map_iff in Hb as (c & <- & _). cbn [fst]. rewrite Forall_forall in S3. specialize (S3 m' Hm'). lia. }
        generalize (sort_len (filter public (conflicting_with m (objects ms)))). induction l0 as [|c cs IHc]; cbn [map app]; [apply IH; exact S2|]. constructor; [exact IHc|]. apply Forall_app. split; [|exact F]. apply Forall_forall. intros b Hb. apply in_map_iff in Hb as (c' & <- & _). cbn [fst]. lia. }
      rewrite E in SO. clear - SO Q2 W. induction p as [|a p IH]; cbn [app] in SO; inversion SO as [|? ? S1 S2]; subst; [|auto]. rewrite Forall_forall in S2. specialize (S2 _ Q2). cbn [fst] in S2. unfold len, width in *. lia. }
  destruct SPLIT as (p & q & E & P).
  set (g := fold_left (meet1 solver_of) p []).
  assert (G : ~ In (fst x) g /\ ~ In (fst y) g).
  { assert (J : justified solver_of p g) by (apply all_justified; [constructor|auto]).
    split; intros H; destruct (justified_In _ _ _ _ J H) as (a & b & Ea & m & c & M & V & _); apply P in M as (M1 & M2 & M3 & M4); destruct (verdict_one _ _ _ _ V) as [-> | ->]; congruence. }
  assert (QM : forall m c, In (m, c) q -> (m, c) = (x, y) \/ (m, c) = (y, x) \/ (fst m <> fst x /\ fst m <> fst y /\ fst c <> fst x /\ fst c <> fst y)).
  { intros m c H. assert (M : In (m, c) (meetings ms)) by (rewrite E; apply in_app_iff; right; right; exact H).
    destruct (Nat.eq_dec (fst m) (fst x)) as [E1|E1]; [destruct (ONLY m c M); auto 6|]. destruct (Nat.eq_dec (fst m) (fst y)) as [E2|E2]; [destruct (ONLY m c M); auto 6|]. destruct (Nat.eq_dec (fst c) (fst x)) as [E3|E3]; [destruct (ONLY m c M); auto 6|]. destruct (Nat.eq_dec (fst c) (fst y)) as [E4|E4]; [destruct (ONLY m c M); auto 6|]. right. right. repeat split; assumption. }
  (* once one of the two is gone, it is settled *)
  assert (R1 : forall (a b : obj) (l : list (obj * obj)) gone, (a = x /\ b = y) \/ (a = y /\ b = x) -> (forall r, In r l -> In r q) -> In (fst a) gone -> ~ In (fst b) gone -> ~ In (fst b) (fold_left (meet1 solver_of) l gone)).
  { intros a b l gone AB. revert gone. induction l as [|[m c] l IH]; intros gone S0 H1 H2; [exact H2|]. cbn [fold_left]. apply IH; [intros r Hr; apply S0; right; exact Hr| |].
    - apply (meet_grows solver_of [(m, c)]). exact H1.
    - destruct (meet1_cases solver_of gone m c) as [[-> _]|(w & V & N1 & N2 & ->)]; [exact H2|]. intros H. apply in_app_iff in H as [H|[H|[]]]; [auto|].
      destruct (QM m c (S0 _ (or_introl eq_refl))) as [K|[K|K]].
      + injection K as -> ->. unfold other_of in N2. destruct (verdict_one _ _ _ _ V) as [-> | ->]; [rewrite Nat.eqb_refl in N2|destruct (Nat.eqb_spec (fst y) (fst x)); [congruence|]]; destruct AB as [[-> ->]|[-> ->]]; auto.
      + injection K as -> ->. unfold other_of in N2. destruct (verdict_one _ _ _ _ V) as [-> | ->]; [rewrite Nat.eqb_refl in N2|destruct (Nat.eqb_spec (fst x) (fst y)); [congruence|]]; destruct AB as [[-> ->]|[-> ->]]; auto.
      + destruct K as (K1 & K2 & K3 & K4). destruct (verdict_one _ _ _ _ V) as [-> | ->]; destruct AB as [[-> ->]|[-> ->]]; auto. }
  assert (LOST : lost solver_of ms = fold_left (meet1 solver_of) q (meet1 solver_of g (x, y))) by (rewrite lost_meetings, E, fold_left_app; reflexivity).
  assert (SX : forall o : obj, nth_error ms (fst o) = Some (snd o) -> (~ stays solver_of ms o <-> In (fst o) (lost solver_of ms))).
  { intros o Ho. unfold stays. split; [intros H; destruct (in_dec Nat.eq_dec (fst o) (lost solver_of ms)); [assumption|exfalso; apply H; auto]|intros H [_ K]; auto]. }
  assert (VONE : forall w, verdict solver_of x y (Some w) -> In (fst w) (lost solver_of ms) /\ ~ In (fst (other_of x y w)) (lost solver_of ms)).
  { intros w V. rewrite LOST. destruct (meet1_cases solver_of g x y) as [[_ [V'|(v & V' & K)]]|(v & V' & _ & K & ->)].
    - pose proof (verdict_fun _ _ _ _ _ V V'). discriminate.
    - exfalso. unfold other_of in K. destruct (verdict_one _ _ _ _ V') as [-> | ->]; [rewrite Nat.eqb_refl in K; tauto|]. destruct (Nat.eqb_spec (fst y) (fst x)); [congruence|tauto].
    - pose proof (verdict_fun _ _ _ _ _ V V') as F. injection F as <-. split; [apply meet_grows; apply in_app_iff; right; left; reflexivity|].
      apply (R1 w); auto; [|apply in_app_iff; right; left; reflexivity|].
      + unfold other_of. destruct (verdict_one _ _ _ _ V) as [-> | ->]; [rewrite Nat.eqb_refl; auto|]. destruct (Nat.eqb_spec (fst y) (fst x)); [congruence|auto].
      + intros H. apply in_app_iff in H as [H|[H|[]]]; [exact (K H)|]. unfold other_of in H. destruct (verdict_one _ _ _ _ V) as [-> | ->]; [rewrite Nat.eqb_refl in H; congruence|]. destruct (Nat.eqb_spec (fst y) (fst x)); congruence. }
  assert (VTWO : verdict solver_of x y None -> forall w, (w = x \/ w = y) -> (In (fst w) (lost solver_of ms) <-> verdict solver_of y x (Some w))).
  { intros V w HW. rewrite LOST. assert (M0 : meet1 solver_of g (x, y) = g).
    { destruct (meet1_cases solver_of g x y) as [[F _]|(v & V' & _)]; [exact F|]. pose proof (verdict_fun _ _ _ _ _ V V'). discriminate. }
    rewrite M0. clear M0.
    assert (IQ : In (y, x) q).
    { assert (H : In (y, x) (meetings ms)) by exact MY. rewrite E in H. apply in_app_iff in H as [H|[H|H]]; [apply P in H; tauto|injection H as -> _; congruence|exact H]. }
    assert (L : forall (l : list (obj * obj)) gone, (forall r, In r l -> In r q) -> ~ In (fst x) gone -> ~ In (fst y) gone -> (In (fst w) (fold_left (meet1 solver_of) l gone) -> verdict solver_of y x (Some w)) /\ (In (y, x) l -> verdict solver_of y x (Some w) -> In (fst w) (fold_left (meet1 solver_of) l gone))).
    { induction l as [|[m c] l IH]; intros gone S0 H1 H2; [cbn [fold_left]; split; [intros H; destruct HW as [-> | ->]; contradiction|intros []]|]. cbn [fold_left].
      assert (S1 : forall r, In r l -> In r q) by (intros r Hr; apply S0; right; exact Hr).
      destruct (meet1_cases solver_of gone m c) as [[-> K]|(v & V' & N1 & N2 & ->)].
      - destruct (IH gone S1 H1 H2) as [I1 I2]. split; [exact I1|]. intros [F|F] W2; [|auto]. injection F as -> ->. exfalso. destruct K as [K|(v & V' & K)]; [pose proof (verdict_fun _ _ _ _ _ W2 K); discriminate|].
        unfold other_of in K. destruct (verdict_one _ _ _ _ V') as [-> | ->]; [rewrite Nat.eqb_refl in K; tauto|]. destruct (Nat.eqb_spec (fst x) (fst y)); [congruence|tauto].
      - destruct (QM m c (S0 _ (or_introl eq_refl))) as [K|[K|K]].
        + injection K as -> ->. pose proof (verdict_fun _ _ _ _ _ V V'). discriminate.
        + injection K as -> ->. assert (ZG : In (fst v) (fold_left (meet1 solver_of) l (gone ++ [fst v]))) by (apply meet_grows; apply in_app_iff; right; left; reflexivity).
          assert (OG : ~ In (fst (other_of y x v)) (fold_left (meet1 solver_of) l (gone ++ [fst v]))).
          { apply (R1 v); auto; [|apply in_app_iff; right; left; reflexivity|].
            - unfold other_of. destruct (verdict_one _ _ _ _ V') as [-> | ->]; [rewrite Nat.eqb_refl; auto|]. destruct (Nat.eqb_spec (fst x) (fst y)); [congruence|auto].
            - intros H. apply in_app_iff in H as [H|[H|[]]]; [auto|]. unfold other_of in H. destruct (verdict_one _ _ _ _ V') as [-> | ->]; [rewrite Nat.eqb_refl in H; congruence|]. destruct (Nat.eqb_spec (fst x) (fst y)); congruence. }
          split.
          * intros H. destruct (verdict_one _ _ _ _ V') as [-> | ->]; unfold other_of in OG; [rewrite Nat.eqb_refl in OG|destruct (Nat.eqb_spec (fst x) (fst y)); [congruence|]]; destruct HW as [-> | ->]; auto; contradiction.
          * intros _ W2. pose proof (verdict_fun _ _ _ _ _ W2 V') as F. injection F as ->. exact ZG.
        + destruct K as (K1 & K2 & K3 & K4). assert (NV : fst v <> fst x /\ fst v <> fst y) by (destruct (verdict_one _ _ _ _ V') as [-> | ->]; auto).
          destruct (IH (gone ++ [fst v]) S1) as [I1 I2]; [intros H; apply in_app_iff in H as [H|[H|[]]]; tauto|intros H; apply in_app_iff in H as [H|[H|[]]]; tauto|]. split; [exact I1|]. intros [F|F]; [injection F as -> ->; congruence|auto]. }
    destruct (L q g ltac:(auto) (proj1 G) (proj2 G)) as [L1 L2]. split; [exact L1|]. intros H. apply L2; auto. }
  intros z Z. assert (HZ : nth_error ms (fst z) = Some (snd z)) by (destruct Z as [-> | ->]; assumption). rewrite (SX z HZ). split.
  - intros H. destruct (to_remove solver_of x y) as [w|] eqn:F; apply to_remove_verdict in F; [|right; split; [exact F|]; apply VTWO; auto].
    left. destruct (VONE w F) as [V1 V2]. destruct (verdict_one _ _ _ _ F) as [-> | ->]; unfold other_of in V2; [rewrite Nat.eqb_refl in V2|destruct (Nat.eqb_spec (fst y) (fst x)); [congruence|]]; destruct Z as [-> | ->]; auto; contradiction.
  - intros [V|[V1 V2]]; [apply VONE; exact V|]. apply VTWO; auto.
Qed.
(** the longest of those it overlaps stays, if no solver has a word to say *)
Theorem C97_longest solver_of ms x : nth_error ms (fst x) = Some (snd x) ->
  (forall c, nth_error ms (fst c) = Some (snd c) -> overlap (snd x) (snd c) -> silent solver_of x c /\ silent solver_of c x /\ whole_width (snd c) <= whole_width (snd x)) -> stays solver_of ms x.
Proof.
  intros H A. split; [exact H|]. intros L. assert (N : ~ stays solver_of ms x) by (intros [_ S0]; auto). apply (C97_reason _ _ _ H) in N as (P & k & K1 & K2 & K3 & K4 & V). destruct (A k K1 K3) as (S1 & S2 & W).
  destruct V as [V|V]; inversion V as [r Q|r _ Q|_ _ Q E|_ _ Q E|]; subst; try (exact (S1 _ Q)); try (exact (S2 _ Q)); try lia; congruence.
Qed.
(** without private matches the rest *)
Theorem C97_private ms : forall m, distinct ms -> (In m (PrivateRemover ms) <-> In m ms /\ m_private m = false).
Proof.
  intros m D. unfold PrivateRemover. rewrite (remove_all_filter _ _ D), filter_In, Bool.negb_true_iff, mmem_false. split; intros [H K]; (split; [exact H|]).
  - destruct (m_private m) eqn:E; [|reflexivity]. exfalso. apply (K m); [apply filter_In; auto|reflexivity].
  - intros x Hx E. apply filter_In in Hx as [Hx P]. rewrite (distinct_inj ms x m D Hx H E) in P. congruence.
Qed.

(** the extension of the file wins over the sources, video codecs and names of containers it overlaps *)
Theorem C97_extension solver_of ms x : distinct ms -> nth_error ms (fst x) = Some (snd x) -> solver_of x = Some extension_solver -> m_private (snd x) = false ->
  (forall c, nth_error ms (fst c) = Some (snd c) -> m_private (snd c) = false -> fst c <> fst x -> overlap (snd x) (snd c) ->
     ~ says solver_of c x (Some x) /\
     (m_name (snd c) = lit "source" \/ m_name (snd c) = lit "video_codec" \/ m_name (snd c) = lit "container" /\ ~ In (lit "extension") (m_tags (snd c)))) ->
  stays solver_of ms x /\
  forall c, nth_error ms (fst c) = Some (snd c) -> m_private (snd c) = false -> fst c <> fst x -> overlap (snd x) (snd c) -> ~ stays solver_of ms c.
Proof.
  intros D H S0 P A.
  assert (W : forall c, nth_error ms (fst c) = Some (snd c) -> m_private (snd c) = false -> fst c <> fst x -> overlap (snd x) (snd c) -> says solver_of x c (Some c)).
  { intros c C PC N O. destruct (A c C PC N O) as [_ K]. apply (says_other _ _ _ extension_solver S0). unfold extension_solver. destruct K as [-> |[-> |[K1 K2]]]; try reflexivity.
    destruct (smem (m_name (snd c)) _); [reflexivity|]. assert (has_name (lit "container") (snd c) = true) as -> by (apply has_name_iff; exact K1). assert (has_tag (lit "extension") (snd c) = false) as -> by (apply Bool.not_true_iff_false; rewrite has_tag_iff; exact K2). reflexivity. }
  assert (ST : stays solver_of ms x).
  { split; [exact H|]. intros L. assert (N : ~ stays solver_of ms x) by (intros [_ S1]; auto). apply (C97_reason _ _ _ H) in N as (_ & k & K1 & K2 & K3 & K4 & V).
    assert (NK : fst k <> fst x) by (intros E; rewrite E in K1; congruence). specialize (W k K1 K2 NK K3). destruct (A k K1 K2 NK K3) as [Q _].
    destruct V as [V|V].
    - inversion V as [r R|r R1 R2|R1 R2 R|R1 R2 R|]; subst; try (apply Q; exact R); try (exact (R2 _ W)). apply ask_says in R2, W. rewrite W in R2. injection R2 as ->. congruence.
    - inversion V as [r R|r R1 R2|R1 R2 R|R1 R2 R|]; subst; try (exact (R1 _ W)). apply ask_says in R, W. rewrite W in R. injection R as ->. congruence. }
  split; [exact ST|]. intros c C PC N O SC. destruct (C97_settled solver_of ms x c D ST SC P PC O (not_eq_sym N)) as [_ V]. specialize (W c C PC N O).
  inversion V as [r R|r R1 R2|R1 R2 R|R1 R2 R|R1 R2 R]; subst; try (exact (R1 _ W)). apply ask_says in R, W. congruence.
Qed.

(** ** Examples: "20.avi" as a source name, an extension and a container name; "S1" inside "2001" *)
Definition ext := simple 2 6 (lit "container") (MvStr (lit "avi")) [lit "extension"].
Definition word := simple 3 6 (lit "container") (MvStr (lit "avi")) [].
Definition some_year := simple 0 4 (lit "year") (MvInt 2001) [].
Definition some_episode := simple 0 2 (lit "episode") (MvInt 20) [].
Definition by_kind (o : obj) : option solver :=
  if has_name (lit "year") (snd o) then Some year_solver else if has_tag (lit "extension") (snd o) then Some extension_solver else if has_name (lit "container") (snd o) then Some container_solver else None.
Example ex_ext : ConflictSolver by_kind [word; ext] = [ext]. Proof. vm_compute. reflexivity. Qed.
(* the year gives up the numbers only through its own solver: it removes them *)
Example ex_year : ConflictSolver by_kind [some_year; some_episode] = [some_year]. Proof. vm_compute. reflexivity. Qed.
(* without solvers, equal lengths both stay *)
Example ex_equal : ConflictSolver (fun _ => None) [some_episode; set_name some_episode (lit "season")] = [some_episode; set_name some_episode (lit "season")]. Proof. vm_compute. reflexivity. Qed.
(* a loses to b which loses to c, which a does not overlap: a comes back only if b is gone before it meets a *)
Definition la := simple 0 2 (lit "a") (MvInt 1) [].
Definition lb := simple 1 4 (lit "b") (MvInt 2) [].
Definition lc := simple 3 8 (lit "c") (MvInt 3) [].
Example ex_chain : ConflictSolver (fun _ => None) [la; lb; lc] = [lc]. Proof. vm_compute. reflexivity. Qed.
(** the hypotheses of the theorems are met *)
Example ex_pair_hyps : exists ms x y, nth_error ms (fst x) = Some (snd x) /\ nth_error ms (fst y) = Some (snd y) /\ overlap (snd x) (snd y) /\ width (snd x) < width (snd y) /\ mkey (snd x) <> mkey (snd y) /\
  (forall o, nth_error ms (fst o) = Some (snd o) -> overlap (snd o) (snd x) \/ overlap (snd o) (snd y) -> o = x \/ o = y) /\ verdict by_kind x y (Some x).
Proof.
  exists [word; ext], (0, word), (1, ext). repeat split; try (cbn; lia); try discriminate.
  - exists 3. cbn. lia.
  - intros [[|[|[|n]]] o] H _; cbn [fst snd nth_error] in H; try discriminate; injection H as <-; auto.
  - apply v_its. apply (says_other _ _ _ extension_solver); reflexivity.
Qed.
(** Limit: the shorter match [la] is removed although [lb], which it lost to, does not stay and nothing that stays overlaps it *)
Theorem C97_limit : exists ms x, nth_error ms (fst x) = Some (snd x) /\ ~ stays (fun _ => None) ms x /\ forall k, stays (fun _ => None) ms k -> ~ overlap (snd x) (snd k).
Proof.
  exists [la; lb; lc], (0, la). split; [reflexivity|]. split.
  - intros [_ H]. apply H. vm_compute. auto.
  - intros [[|[|[|n]]] o] [K H] O; cbn [fst snd nth_error] in K, H; try (apply H; vm_compute; auto); [injection K as <-; destruct O as (i & O1 & O2); cbn in O1, O2; lia|destruct n; discriminate].
Qed.
Print Assumptions C97_result.
Print Assumptions C97_reason.
Print Assumptions C97_apart.
Print Assumptions C97_left.
Print Assumptions C97_settled.
Print Assumptions C97_pair.
Print Assumptions C97_longest.
Print Assumptions C97_private.
Print Assumptions C97_extension.
Print Assumptions C97_limit.
