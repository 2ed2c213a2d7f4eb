(** C15 and C16: path parts and bracket groups *)
From Coq Require Import Sorting.Sorted Sorting.Permutation ZifyBool ZifyNat ZifyN.
From Verif Require Import Py PyFacts Text TextFacts Sort Markers.

(** * Specification *)
Definition is_pathsep (c : char) : bool := N.eqb c (ch "/") || N.eqb c (ch "\").
(** [p0 c0 p1 c1 ... pn] *)
Fixpoint rejoin (parts : list str) (cs : str) : str :=
  match parts with
  | [] => []
  | p :: ps => match cs with [] => p | c :: cs' => p ++ c :: rejoin ps cs' end
  end.
(** spans of consecutive parts separated by one character, the first starting at [pos] *)
Fixpoint offsets (pos : nat) (parts : list str) : list (Z * Z) :=
  match parts with
  | [] => []
  | p :: ps => (Z.of_nat pos, Z.of_nat (pos + List.length p)) :: offsets (pos + List.length p + 1) ps
  end.

(** balanced: as many closings as openings, and never more closings in a prefix *)
Definition delta (op cl : str) (c : char) : Z := if cmem c op then 1 else if cmem c cl then -1 else 0.
Definition height (op cl s : str) : Z := fold_right (fun c h => (delta op cl c + h)%Z) 0%Z s.
Definition balanced (op cl s : str) : Prop :=
  height op cl s = 0%Z /\ forall k, (0 <= height op cl (firstn k s))%Z.

(** * Proofs: path *)
Fixpoint sep_positions (pos : nat) (s : str) : list nat :=
  match s with
  | [] => []
  | c :: r => if is_pathsep c then pos :: sep_positions (S pos) r else sep_positions (S pos) r
  end.
Fixpoint split_parts (s : str) : list str :=
  match s with
  | [] => [[]]
  | c :: r => if is_pathsep c then [] :: split_parts r
              else match split_parts r with p :: ps => (c :: p) :: ps | [] => [[c]] end
  end.
Lemma split_parts_cons s : exists p ps, split_parts s = p :: ps.
Proof.
  induction s as [|c s [p [ps IH]]]; simpl; [eauto|]. destruct (is_pathsep c); [eauto|]. rewrite IH; eauto.
Qed.

Lemma sep_positions_In s : forall pos i, In i (sep_positions pos s) <->
  pos <= i /\ exists c, nth_error s (i - pos) = Some c /\ is_pathsep c = true.
Proof.
  induction s as [|x s IH]; intros pos i; simpl.
  - split; [tauto|]. intros [_ [c [H _]]]. destruct (i - pos); discriminate.
  - assert (G : pos < i -> nth_error (x :: s) (i - pos) = nth_error s (i - S pos)).
    { intros H. replace (i - pos) with (S (i - S pos)) by lia. reflexivity. }
    destruct (is_pathsep x) eqn:E; simpl; rewrite IH.
    + split.
      * intros [<-|[H [c Hc]]]; [split; [lia|]; rewrite Nat.sub_diag; simpl; eauto|]. split; [lia|]. rewrite G by lia; eauto.
      * intros [H [c Hc]]. destruct (Nat.eq_dec pos i) as [->|Hn]; [left; reflexivity|right]. split; [lia|]. rewrite G in Hc by lia; eauto.
    + split.
      * intros [H [c Hc]]. split; [lia|]. rewrite G by lia; eauto.
      * intros [H [c [Hc Hs]]]. destruct (Nat.eq_dec pos i) as [->|Hn].
        -- rewrite Nat.sub_diag in Hc; simpl in Hc. congruence.
        -- split; [lia|]. rewrite G in Hc by lia; eauto.
Qed.
Lemma sep_positions_sorted s : forall pos, StronglySorted lt (sep_positions pos s).
Proof.
  induction s as [|x s IH]; intros pos; simpl; [constructor|].
  destruct (is_pathsep x); [|apply IH]. constructor; [apply IH|].
  apply Forall_forall. intros i Hi. apply sep_positions_In in Hi; lia.
Qed.

Lemma SS_map_Z l : StronglySorted lt l -> StronglySorted (Le Z.leb) (map Z.of_nat l).
Proof.
  induction 1 as [|x l H IH Hf]; simpl; constructor; [exact IH|].
  apply Forall_map. eapply Forall_impl; [|exact Hf]. intros y Hy; unfold Le; apply Z.leb_le; simpl in Hy; lia.
Qed.
Lemma SS_lt_NoDup l : StronglySorted lt l -> NoDup l.
Proof.
  induction 1 as [|x l H IH Hf]; constructor; [|exact IH]. rewrite Forall_forall in Hf. intros Hi; apply Hf in Hi; lia.
Qed.
Lemma SS_snoc {A} (R : A -> A -> Prop) l x : StronglySorted R l -> Forall (fun y => R y x) l -> StronglySorted R (l ++ [x]).
Proof.
  induction 1 as [|y l H IH Hf]; simpl; intros Hx; [repeat constructor|].
  inversion Hx; subst. constructor; [apply IH; assumption|]. apply Forall_app; split; [exact Hf|repeat constructor; assumption].
Qed.

Lemma spans_split s : forall pos,
  spans_between (Z.of_nat pos - 1 :: map Z.of_nat (sep_positions pos s) ++ [Z.of_nat (pos + List.length s)])%Z
  = offsets pos (split_parts s).
Proof.
  assert (C : forall a b l, spans_between (a :: b :: l) = (a + 1, b)%Z :: spans_between (b :: l)) by reflexivity.
  induction s as [|c s IH]; intros pos.
  - simpl. rewrite Nat.add_0_r. repeat f_equal; lia.
  - cbn [sep_positions split_parts List.length]. destruct (is_pathsep c) eqn:E.
    + cbn [map app]. rewrite C. cbn [offsets List.length]. rewrite Nat.add_0_r.
      specialize (IH (S pos)). replace (Z.of_nat (S pos) - 1)%Z with (Z.of_nat pos) in IH by lia.
      replace (pos + S (List.length s)) with (S pos + List.length s) by lia. rewrite IH.
      replace (pos + 1) with (S pos) by lia. repeat f_equal; lia.
    + specialize (IH (S pos)). replace (pos + S (List.length s)) with (S pos + List.length s) by lia.
      destruct (split_parts_cons s) as (p & ps & Hp). rewrite Hp in *. cbn [offsets List.length] in *.
      assert (D : forall a b l r, spans_between (a :: l ++ [b]) = r -> forall a', l ++ [b] = [] \/
                  spans_between (a' :: l ++ [b]) = match r with (_, y) :: q => (a' + 1, y)%Z :: q | [] => [] end).
      { intros a b l r Hr a'. right. destruct l as [|z l]; simpl in *; subst r; reflexivity. }
      destruct (D _ _ _ _ IH (Z.of_nat pos - 1)%Z) as [Hbad|Hg]; [destruct (map Z.of_nat (sep_positions (S pos) s)); discriminate|].
      rewrite Hg. f_equal; [f_equal; lia|]. f_equal; lia.
Qed.

Lemma rejoin_split s : rejoin (split_parts s) (filter is_pathsep s) = s.
Proof.
  induction s as [|c s IH]; [reflexivity|]. simpl. destruct (is_pathsep c) eqn:E.
  - simpl. rewrite IH; reflexivity.
  - destruct (split_parts_cons s) as (p & ps & Hp). rewrite Hp in *. simpl in *.
    destruct (filter is_pathsep s); simpl in *; rewrite IH; reflexivity.
Qed.
Lemma split_no_sep s : Forall (Forall (fun c => is_pathsep c = false)) (split_parts s).
Proof.
  induction s as [|c s IH]; simpl; [repeat constructor|]. destruct (is_pathsep c) eqn:E; [constructor; [constructor|exact IH]|].
  destruct (split_parts s) as [|p ps]; [repeat constructor; exact E|]. inversion IH; subst. constructor; [constructor; assumption|assumption].
Qed.
Lemma split_length s : List.length (split_parts s) = S (List.length (filter is_pathsep s)).
Proof.
  induction s as [|c s IH]; simpl; [reflexivity|]. destruct (is_pathsep c); simpl; [rewrite IH; reflexivity|].
  destruct (split_parts s); simpl in *; lia.
Qed.

Lemma mark_path_split s : mark_path false s = Ok (offsets 0 (split_parts s)).
Proof.
  unfold mark_path.
  destruct (find_all_char (ch "/") s) as (l1 & E1 & S1 & I1). destruct (find_all_char (ch "\") s) as (l2 & E2 & S2 & I2).
  change (find_all false s (lit "/") = Ok l1) in E1. change (find_all false s (lit "\") = Ok l2) in E2.
  rewrite E1; cbn [bind]. rewrite E2; cbn [bind]. f_equal.
  rewrite <- (spans_split s 0). f_equal. simpl (Z.of_nat 0 - 1)%Z. simpl (0 + List.length s).
  apply (sorted_unique (Le Z.leb)).
  - intros x y _ _. unfold Le. lia.
  - apply isort_sorted; intros *; lia.
  - change ((-1)%Z :: map Z.of_nat (sep_positions 0 s) ++ [Z.of_nat (List.length s)])
      with (((-1)%Z :: map Z.of_nat (sep_positions 0 s)) ++ [Z.of_nat (List.length s)]).
    apply SS_snoc.
    + constructor; [apply SS_map_Z, sep_positions_sorted|]. apply Forall_map, Forall_forall. intros i _; unfold Le; lia.
    + constructor; [unfold Le; lia|]. apply Forall_map, Forall_forall. intros i Hi; unfold Le.
      apply sep_positions_In in Hi as [_ [c [Hc _]]]. rewrite Nat.sub_0_r in Hc.
      assert (i < List.length s) by (apply nth_error_Some; congruence). lia.
  - rewrite isort_perm, app_assoc.
    change [(-1)%Z; Z.of_nat (List.length s)] with ([(-1)%Z] ++ [Z.of_nat (List.length s)]). rewrite app_assoc.
    change ((-1)%Z :: map Z.of_nat (sep_positions 0 s) ++ [Z.of_nat (List.length s)])
      with (((-1)%Z :: map Z.of_nat (sep_positions 0 s)) ++ [Z.of_nat (List.length s)]).
    apply Permutation_app_tail. rewrite Permutation_app_comm; simpl. apply perm_skip. rewrite <- map_app. apply Permutation_map.
    apply NoDup_Permutation.
    + apply SS_lt_NoDup in S1, S2. clear - S1 S2 I1 I2.
      induction S1 as [|x l H1 H2 IH]; [exact S2|]. simpl.
      assert (G : forall i, In i (x :: l) -> In i l2 -> False).
      { intros i Hi Hj. apply I1 in Hi; apply I2 in Hj. rewrite Hi in Hj. discriminate. }
      assert (Hnd : NoDup (l ++ l2)); [|constructor; [|exact Hnd]].
      * clear - H2 S2 G. induction H2 as [|y l Hy Hl IH]; [exact S2|]. simpl. constructor.
        -- rewrite in_app_iff. intros [Hi|Hi]; [exact (Hy Hi)|]. apply (G y); [right; left; reflexivity|exact Hi].
        -- apply IH. intros i Hi; apply G. destruct Hi; [left; assumption|right; right; assumption].
      * rewrite in_app_iff. intros [Hi|Hi]; [exact (H1 Hi)|]. apply (G x); [left; reflexivity|exact Hi].
    + apply SS_lt_NoDup, sep_positions_sorted.
    + intros i. rewrite in_app_iff, I1, I2, sep_positions_In, Nat.sub_0_r. unfold is_pathsep. split.
      * intros [H|H]; (split; [lia|]); eexists; (split; [exact H|]); reflexivity.
      * intros [_ [c [Hc Hs]]]. apply Bool.orb_true_iff in Hs as [Hs|Hs]; apply N.eqb_eq in Hs; subst c; auto.
Qed.

(** C15: the path parts, with their spans, are the maximal separator-free segments. *)
Theorem C15_path_parts : forall s, exists parts,
  mark_path false s = Ok (offsets 0 parts) /\
  rejoin parts (filter is_pathsep s) = s /\
  List.length parts = S (List.length (filter is_pathsep s)) /\
  Forall (Forall (fun c => is_pathsep c = false)) parts.
Proof.
  intros s; exists (split_parts s). split; [apply mark_path_split|]. split; [apply rejoin_split|].
  split; [apply split_length|apply split_no_sep].
Qed.
Print Assumptions C15_path_parts.
Theorem C15_name_only : forall s, mark_path true s = Ok [(0, Z.of_nat (List.length s))%Z].
Proof. reflexivity. Qed.
Print Assumptions C15_name_only.
Example ex_path : mark_path false (lit "a/bc\/d") = Ok [(0, 1); (2, 4); (5, 5); (6, 7)]%Z.
Proof. reflexivity. Qed.

(** * Proofs: groups *)
Section Groups.
  Context (op cl : str).
  Hypothesis same : List.length op = List.length cl.
  Hypothesis disjoint : forall c, In c op -> ~ In c cl.

  (** the shared list is one stack *)
  Definition step1 (st : nat * list nat * list (nat * nat)) (c : char) : nat * list nat * list (nat * nat) :=
    let '(i, k, r) := st in
    if cmem c op then (S i, i :: k, r)
    else if cmem c cl then match k with a :: k' => (S i, k', r ++ [(a, S i)]) | [] => (S i, [], r) end
    else (S i, k, r).

  Lemma cfind_mem c s : match cfind c s with Some t => cmem c s = true /\ t < List.length s | None => cmem c s = false end.
  Proof.
    induction s as [|x s IH]; simpl; [reflexivity|]. unfold cmem in *; simpl. destruct (N.eqb c x); simpl; [split; [reflexivity|lia]|].
    destruct (cfind c s); simpl; [destruct IH; split; [assumption|lia]|exact IH].
  Qed.
  Lemma nth_repeat0 n t : t < n -> nth_error (repeat 0 n) t = Some 0.
  Proof. revert t; induction n as [|n IH]; intros [|t] H; simpl; try lia; [reflexivity|apply IH; lia]. Qed.

  Lemma group_char_step1 i k r c :
    group_char op cl (repeat 0 (List.length op)) (mk_g i [k] r) c =
    (let '(i', k', r') := step1 (i, k, r) c in mk_g i' [k'] r').
  Proof.
    unfold group_char, step1; cbn [g_i g_heap g_ret].
    pose proof (cfind_mem c op) as H1. pose proof (cfind_mem c cl) as H2.
    destruct (cfind c op) as [t|].
    - destruct H1 as [H1 Ht]. rewrite H1. rewrite nth_repeat0 by exact Ht. cbn [upd nth].
      destruct (cfind c cl) as [t2|]; [|reflexivity]. destruct H2 as [H2 _].
      exfalso. apply cmem_In in H1, H2. exact (disjoint c H1 H2).
    - rewrite H1. destruct (cfind c cl) as [t2|]; [|rewrite H2; reflexivity].
      destruct H2 as [H2 Ht]. rewrite H2, nth_repeat0 by (rewrite same; exact Ht). cbn [nth].
      destruct k; reflexivity.
  Qed.
  Lemma fold_step1 s : forall i k r,
    fold_left (group_char op cl (repeat 0 (List.length op))) s (mk_g i [k] r) =
    (let '(i', k', r') := fold_left step1 s (i, k, r) in mk_g i' [k'] r').
  Proof.
    induction s as [|c s IH]; intros i k r; [reflexivity|]. cbn [fold_left]. rewrite group_char_step1.
    destruct (step1 (i, k, r) c) as [[i' k'] r']. apply IH.
  Qed.
  Definition result (s : str) := snd (fold_left step1 s (0, [], [])).
  Lemma mark_groups_result s : mark_groups op cl s = Ok (result s).
  Proof.
    unfold mark_groups, result. rewrite same, Nat.eqb_refl; cbn [negb]. rewrite <- same, fold_step1.
    destruct (fold_left step1 s (0, [], [])) as [[i k] r]; reflexivity.
  Qed.

  (** Dyck words, inductively *)
  Inductive dyck : str -> Prop :=
  | dyck_nil : dyck []
  | dyck_other w c : dyck w -> cmem c op = false -> cmem c cl = false -> dyck (w ++ [c])
  | dyck_pair w o v c : dyck w -> dyck v -> cmem o op = true -> cmem c op = false -> cmem c cl = true -> dyck (w ++ o :: v ++ [c]).

  Lemma fold_dyck w : dyck w -> forall i k r, exists r',
    fold_left step1 w (i, k, r) = (i + List.length w, k, r').
  Proof.
    induction 1 as [|w c Hw IH H1 H2|w o v c Hw IHw Hv IHv Ho Hc1 Hc2]; intros i k r.
    - exists r. simpl. rewrite Nat.add_0_r; reflexivity.
    - destruct (IH i k r) as [r' E]. exists r'. rewrite fold_left_app, E. simpl. rewrite H1, H2, app_length. simpl. repeat f_equal; lia.
    - destruct (IHw i k r) as [r1 E1]. rewrite fold_left_app, E1. cbn [fold_left]. unfold step1 at 2. rewrite Ho.
      destruct (IHv (S (i + List.length w)) ((i + List.length w) :: k) r1) as [r2 E2]. rewrite fold_left_app, E2. cbn [fold_left].
      unfold step1. rewrite Hc1, Hc2. eexists. rewrite app_length; cbn [List.length]; rewrite app_length; simpl. repeat f_equal; lia.
  Qed.

  (** the results only grow *)
  Lemma step1_grows st c : exists e, snd (step1 st c) = snd st ++ e.
  Proof.
    destruct st as [[i k] r]; unfold step1. destruct (cmem c op); [exists []; simpl; rewrite app_nil_r; reflexivity|].
    destruct (cmem c cl); [|exists []; simpl; rewrite app_nil_r; reflexivity].
    destruct k; simpl; [exists []; rewrite app_nil_r; reflexivity|eexists; reflexivity].
  Qed.
  Lemma fold_grows s : forall st, exists e, snd (fold_left step1 s st) = snd st ++ e.
  Proof.
    induction s as [|c s IH]; intros st; [exists []; rewrite app_nil_r; reflexivity|].
    cbn [fold_left]. destruct (IH (step1 st c)) as [e1 E1]. destruct (step1_grows st c) as [e2 E2].
    rewrite E1, E2, <- app_assoc. eexists; reflexivity.
  Qed.
  Lemma fold_i s : forall i k r, exists k' r', fold_left step1 s (i, k, r) = (i + List.length s, k', r').
  Proof.
    induction s as [|c s IH]; intros i k r; [simpl; rewrite Nat.add_0_r; eauto|].
    cbn [fold_left List.length]. unfold step1 at 2. replace (i + S (List.length s)) with (S i + List.length s) by lia.
    destruct (cmem c op); [apply IH|]. destruct (cmem c cl); [|apply IH]. destruct k; apply IH.
  Qed.

  (** what the stack means *)
  Inductive stk : str -> list nat -> Prop :=
  | stk_nil p : stk p []
  | stk_cons p o w k : stk p k -> cmem o op = true -> dyck w -> stk (p ++ o :: w) (List.length p :: k).

  Definition good (s : str) (ab : nat * nat) : Prop :=
    exists p o w c q, s = p ++ o :: w ++ c :: q /\ cmem o op = true /\ cmem c cl = true /\ dyck w /\
      fst ab = List.length p /\ snd ab = List.length p + S (List.length w) + 1.

  Lemma dyck_app w v : dyck w -> dyck v -> dyck (w ++ v).
  Proof.
    intros Hw; induction 1 as [|v c Hv IH H1 H2|v o u c Hv IHv Hu _ Ho Hc1 Hc2]; [rewrite app_nil_r; exact Hw| |].
    - rewrite app_assoc. constructor; assumption.
    - rewrite app_assoc. constructor; assumption.
  Qed.
  Lemma cl_not_op c : cmem c cl = true -> cmem c op = false.
  Proof.
    intros H; destruct (cmem c op) eqn:E; [|reflexivity]. apply cmem_In in H, E. exfalso; exact (disjoint c E H).
  Qed.

  Lemma inv s : let '(i, k, r) := fold_left step1 s (0, [], []) in
    i = List.length s /\ stk s k /\ Forall (good s) r.
  Proof.
    induction s as [|c s IH] using rev_ind; [simpl; split; [reflexivity|split; constructor]|].
    rewrite fold_left_app. destruct (fold_left step1 s (0, [], [])) as [[i k] r]. destruct IH as (-> & Hk & Hr).
    assert (Hr' : Forall (good (s ++ [c])) r).
    { eapply Forall_impl; [|exact Hr]. intros [a b] (p & o & w & c' & q & -> & H). exists p, o, w, c', (q ++ [c]).
      split; [rewrite <- !app_assoc; simpl; rewrite <- app_assoc; reflexivity|exact H]. }
    cbn [fold_left]. unfold step1. rewrite app_length; simpl List.length.
    destruct (cmem c op) eqn:Eo.
    - split; [lia|]. split; [|exact Hr'].
      apply (stk_cons s c [] k); [exact Hk|exact Eo|constructor].
    - destruct (cmem c cl) eqn:Ec.
      + destruct k as [|a k].
        * split; [lia|]. split; [constructor|exact Hr'].
        * inversion Hk as [|p o w k' Hp Ho Hw]; subst. split; [lia|]. split.
          -- rewrite <- app_assoc; cbn [app]. inversion Hp as [|p1 o1 w1 k1 Hp1 Ho1 Hw1]; subst; [constructor|].
             rewrite <- app_assoc; cbn [app]. constructor; [exact Hp1|exact Ho1|].
             apply dyck_pair; assumption.
          -- apply Forall_app; split; [exact Hr'|]. constructor; [|constructor].
             exists p, o, w, c, []. rewrite <- app_assoc. repeat split; auto. simpl. rewrite app_length; simpl; lia.
      + split; [lia|]. split; [|exact Hr'].
        inversion Hk as [|p o w k' Hp Ho Hw]; subst; [constructor|]. rewrite <- app_assoc; cbn [app].
        constructor; [exact Hp|exact Ho|]. constructor; assumption.
  Qed.

  Lemma result_iff s ab : In ab (result s) <-> good s ab.
  Proof.
    split.
    - unfold result. pose proof (inv s) as H. destruct (fold_left step1 s (0, [], [])) as [[i k] r].
      destruct H as (_ & _ & H). rewrite Forall_forall in H. apply H.
    - intros (p & o & w & c & q & -> & Ho & Hc & Hw & Ha & Hb). unfold result.
      rewrite fold_left_app. destruct (fold_i p 0 [] []) as (k & r & E). rewrite E. cbn [fold_left].
      unfold step1 at 2. rewrite Ho. rewrite fold_left_app.
      destruct (fold_dyck w Hw (S (0 + List.length p)) ((0 + List.length p) :: k) r) as [r1 E1]. rewrite E1. cbn [fold_left].
      unfold step1 at 2. rewrite (cl_not_op c Hc), Hc.
      match goal with |- In _ (snd (fold_left step1 q ?st)) => destruct (fold_grows q st) as [e He]; rewrite He end.
      cbn [snd]. rewrite !in_app_iff. left; right; left. destruct ab as [a b]; simpl in Ha, Hb; subst. f_equal; lia.
  Qed.

  (** Dyck words are exactly the balanced ones *)
  Lemma height_app u v : height op cl (u ++ v) = (height op cl u + height op cl v)%Z.
  Proof. unfold height; induction u as [|c u IH]; simpl; [reflexivity|]. rewrite IH; lia. Qed.
  Lemma delta_op c : cmem c op = true -> delta op cl c = 1%Z.
  Proof. unfold delta; intros ->; reflexivity. Qed.
  Lemma delta_cl c : cmem c cl = true -> delta op cl c = (-1)%Z.
  Proof. intros H; unfold delta. rewrite (cl_not_op c H), H; reflexivity. Qed.

  Definition nonneg (s : str) : Prop := forall k, (0 <= height op cl (firstn k s))%Z.
  Lemma nonneg_app u v : nonneg u -> (forall k, 0 <= height op cl u + height op cl (firstn k v))%Z -> nonneg (u ++ v).
  Proof.
    intros Hu Hv k. rewrite firstn_app. destruct (Nat.le_gt_cases k (List.length u)) as [H|H].
    - replace (k - List.length u) with 0 by lia. simpl. rewrite app_nil_r. apply Hu.
    - rewrite firstn_all2 by lia. rewrite height_app. apply Hv.
  Qed.
  Lemma dyck_balanced w : dyck w -> balanced op cl w.
  Proof.
    induction 1 as [|w c Hw [IH0 IH] H1 H2|w o v c Hw [IHw0 IHw] Hv [IHv0 IHv] Ho Hc1 Hc2].
    - split; [reflexivity|]. intros k; rewrite firstn_nil; reflexivity.
    - assert (D : delta op cl c = 0%Z) by (unfold delta; rewrite H1, H2; reflexivity).
      split; [rewrite height_app; simpl; lia|]. apply nonneg_app; [exact IH|]. intros [|k]; simpl; [lia|]. rewrite firstn_nil; simpl; lia.
    - pose proof (delta_op o Ho) as Do. pose proof (delta_cl c Hc2) as Dc.
      split; [rewrite height_app; simpl; rewrite height_app; simpl; lia|].
      apply nonneg_app; [exact IHw|]. intros [|k]; simpl; [lia|]. rewrite IHw0, Do.
      rewrite firstn_app, height_app. pose proof (IHv k) as Hvk.
      assert (G : (-1 <= height op cl (firstn (k - List.length v) [c]))%Z).
      { destruct (k - List.length v) as [|n]; simpl; [lia|]. rewrite firstn_nil; simpl; lia. }
      lia.
  Qed.

  (** a balanced word is a Dyck word: scan from the left keeping the last unmatched opening *)
  Inductive pre : str -> nat -> Prop :=
  | pre_dyck w : dyck w -> pre w 0
  | pre_open u o w n : pre u n -> cmem o op = true -> dyck w -> pre (u ++ o :: w) (S n).
  Lemma pre_step u n c : pre u n ->
    (cmem c op = true -> pre (u ++ [c]) (S n)) /\
    (cmem c op = false -> cmem c cl = false -> pre (u ++ [c]) n) /\
    (cmem c cl = true -> match n with S m => pre (u ++ [c]) m | O => True end).
  Proof.
    intros H. split; [|split].
    - intros Ho. apply (pre_open u c [] n); [exact H|exact Ho|constructor].
    - intros H1 H2. inversion H as [w Hw|u' o w m Hu Ho Hw]; subst; [constructor; constructor; assumption|].
      rewrite <- app_assoc; cbn [app]. constructor; [exact Hu|exact Ho|constructor; assumption].
    - intros Hc. destruct n as [|n]; [trivial|]. inversion H as [|u' o w m Hu Ho Hw]; subst. rewrite <- app_assoc; cbn [app].
      inversion Hu as [w2 Hw2|u2 o2 w2 m2 Hu2 Ho2 Hw2]; subst.
      + constructor. apply dyck_pair; auto. apply cl_not_op; exact Hc.
      + rewrite <- app_assoc; cbn [app]. constructor; [exact Hu2|exact Ho2|]. apply dyck_pair; auto. apply cl_not_op; exact Hc.
  Qed.
  Lemma nonneg_pre u : nonneg u -> pre u (Z.to_nat (height op cl u)).
  Proof.
    induction u as [|c u IH] using rev_ind; intros H; [simpl; constructor; constructor|].
    assert (Hu : nonneg u).
    { intros k. destruct (Nat.le_gt_cases k (List.length u)) as [Hk|Hk].
      - specialize (H k). rewrite firstn_app in H. replace (k - List.length u) with 0 in H by lia. simpl in H. rewrite app_nil_r in H. exact H.
      - specialize (H (List.length u)). rewrite firstn_app, Nat.sub_diag, firstn_all in H. simpl in H. rewrite app_nil_r in H.
        rewrite firstn_all2 by lia. exact H. }
    specialize (IH Hu). destruct (pre_step u _ c IH) as (P1 & P2 & P3).
    assert (Hh : (0 <= height op cl u)%Z) by (specialize (Hu (List.length u)); rewrite firstn_all in Hu; exact Hu).
    assert (Hall : (0 <= height op cl (u ++ [c]))%Z) by (specialize (H (List.length (u ++ [c]))); rewrite firstn_all in H; exact H).
    rewrite height_app in *. simpl in *. destruct (cmem c op) eqn:Eo.
    - rewrite (delta_op c Eo) in *. replace (Z.to_nat (height op cl u + (1 + 0))) with (S (Z.to_nat (height op cl u))) by lia. apply P1; reflexivity.
    - destruct (cmem c cl) eqn:Ec.
      + rewrite (delta_cl c Ec) in *. specialize (P3 eq_refl). destruct (Z.to_nat (height op cl u)) as [|m] eqn:E; [lia|].
        replace (Z.to_nat (height op cl u + (-1 + 0))) with m by lia. exact P3.
      + assert (D : delta op cl c = 0%Z) by (unfold delta; rewrite Eo, Ec; reflexivity). rewrite D.
        replace (height op cl u + (0 + 0))%Z with (height op cl u) by lia. apply P2; reflexivity.
  Qed.
  Lemma balanced_dyck w : balanced op cl w -> dyck w.
  Proof.
    intros [H0 H]. apply nonneg_pre in H. rewrite H0 in H. simpl in H. inversion H; assumption.
  Qed.

  Lemma good_iff s a b : good s (a, b) <->
    a + 2 <= b <= List.length s /\
    (exists o, nth_error s a = Some o /\ In o op) /\ (exists c, nth_error s (b - 1) = Some c /\ In c cl) /\
    balanced op cl (slice (a + 1) (b - 1) s).
  Proof.
    split.
    - intros (p & o & w & c & q & -> & Ho & Hc & Hw & Ha & Hb); simpl in Ha, Hb; subst a b.
      split; [rewrite !app_length; simpl; rewrite app_length; simpl; lia|]. split; [|split].
      + exists o. rewrite nth_error_app2, Nat.sub_diag by lia. split; [reflexivity|apply cmem_In; exact Ho].
      + exists c. rewrite nth_error_app2 by lia. replace (List.length p + S (List.length w) + 1 - 1 - List.length p) with (S (List.length w)) by lia.
        simpl. rewrite nth_error_app2, Nat.sub_diag by lia. split; [reflexivity|apply cmem_In; exact Hc].
      + unfold slice. replace (List.length p + S (List.length w) + 1 - 1 - (List.length p + 1)) with (List.length w) by lia.
        rewrite skipn_app, skipn_all2 by lia. replace (List.length p + 1 - List.length p) with 1 by lia. simpl.
        rewrite firstn_app, Nat.sub_diag, firstn_all. simpl; rewrite app_nil_r. apply dyck_balanced; exact Hw.
    - intros (Hab & (o & Hno & Ho) & (c & Hnc & Hc) & Hw). apply balanced_dyck in Hw.
      apply nth_error_split in Hno as (p & s2 & Hs & Hlp). subst s.
      exists p, o, (slice (a + 1) (b - 1) (p ++ o :: s2)).
      rewrite nth_error_app2 in Hnc by lia. replace (b - 1 - List.length p) with (S (b - 2 - List.length p)) in Hnc by lia. simpl in Hnc.
      apply nth_error_split in Hnc as (w & q & Hs & Hlw). subst s2. exists c, q.
      assert (E : slice (a + 1) (b - 1) (p ++ o :: w ++ c :: q) = w).
      { unfold slice. rewrite skipn_app, skipn_all2 by lia. replace (a + 1 - List.length p) with 1 by lia. simpl.
        rewrite firstn_app. rewrite firstn_all2 by lia. replace (b - 1 - (a + 1) - List.length w) with 0 by lia. simpl. apply app_nil_r. }
      rewrite E in *. split; [reflexivity|]. split; [apply cmem_In; exact Ho|]. split; [apply cmem_In; exact Hc|]. split; [exact Hw|].
      simpl. split; lia.
  Qed.

  (** height of a segment starting at [a] *)
  Lemma good_heights s a b : good s (a, b) -> a < b /\
    (forall k, a < k < b -> (1 <= height op cl (slice a k s))%Z) /\ height op cl (slice a b s) = 0%Z.
  Proof.
    intros (p & o & w & c & q & -> & Ho & Hc & Hw & Ha & Hb); simpl in Ha, Hb; subst a b.
    apply dyck_balanced in Hw as [H0 H]. split; [lia|]. unfold slice.
    rewrite skipn_app, skipn_all, Nat.sub_diag. simpl app. cbn [skipn]. split.
    - intros k Hk. replace (k - List.length p) with (S (k - List.length p - 1)) by lia. rewrite firstn_cons.
      rewrite firstn_app. replace (k - List.length p - 1 - List.length w) with 0 by lia. simpl firstn. rewrite app_nil_r.
      unfold height at 1; cbn [fold_right]. fold (height op cl (firstn (k - List.length p - 1) w)). rewrite (delta_op o Ho). specialize (H (k - List.length p - 1)).
      lia.
    - replace (List.length p + S (List.length w) + 1 - List.length p) with (S (S (List.length w))) by lia. rewrite firstn_cons.
      rewrite firstn_app, firstn_all2 by lia. replace (S (List.length w) - List.length w) with 1 by lia. cbn [firstn].
      change (delta op cl o + height op cl (w ++ [c]) = 0)%Z. rewrite height_app, H0, (delta_op o Ho).
      change (height op cl [c]) with (delta op cl c + 0)%Z. rewrite (delta_cl c Hc). reflexivity.
  Qed.
  Lemma slice_split {A} a b c (s : list A) : a <= b <= c -> slice a c s = slice a b s ++ slice b c s.
  Proof.
    intros H. unfold slice. replace (c - a) with ((b - a) + (c - b)) by lia.
    rewrite <- (firstn_skipn (b - a) (skipn a s)) at 1.
    rewrite firstn_app. rewrite firstn_firstn. replace (Nat.min (b - a + (c - b)) (b - a)) with (b - a) by lia. f_equal.
    rewrite skipn_skipn'. replace (a + (b - a)) with b by lia.
    rewrite firstn_length, skipn_length. destruct (Nat.le_gt_cases (b - a) (List.length s - a)) as [Hl|Hl].
    - f_equal; lia.
    - rewrite skipn_all2 by lia. rewrite !firstn_nil; reflexivity.
  Qed.
  Lemma nested s a b c d : good s (a, b) -> good s (c, d) -> a < c < b -> d < b.
  Proof.
    intros H1 H2 Hc. apply good_heights in H1 as (_ & H1 & E1). apply good_heights in H2 as (Hcd & H2 & E2).
    destruct (Nat.lt_trichotomy d b) as [Hd|[->|Hd]]; [exact Hd| |].
    - rewrite (slice_split a c b) in E1 by lia. rewrite height_app, E2 in E1. specialize (H1 c Hc). lia.
    - rewrite (slice_split a c b) in E1 by lia. rewrite height_app in E1. specialize (H1 c Hc). specialize (H2 b ltac:(lia)). lia.
  Qed.
  Lemma same_start s a b d : good s (a, b) -> good s (a, d) -> b = d.
  Proof.
    intros H1 H2. apply good_heights in H1 as (Hb & H1 & E1). apply good_heights in H2 as (Hd & H2 & E2).
    destruct (Nat.lt_trichotomy d b) as [H|[->|H]]; [|reflexivity|].
    - specialize (H1 d ltac:(lia)). lia.
    - specialize (H2 b ltac:(lia)). lia.
  Qed.
  Lemma result_sorted s : StronglySorted (fun x y => snd x < snd y) (result s).
  Proof.
    unfold result. assert (G : forall s, let '(i, k, r) := fold_left step1 s (0, [], []) in
      i = List.length s /\ StronglySorted (fun x y : nat * nat => snd x < snd y) r /\ Forall (fun x : nat * nat => snd x <= i) r).
    { clear s. induction s as [|c s IH] using rev_ind; [simpl; repeat constructor|].
      rewrite fold_left_app. destruct (fold_left step1 s (0, [], [])) as [[i k] r]. destruct IH as (-> & Hs & Hr).
      assert (Hr' : Forall (fun x : nat * nat => snd x <= S (List.length s)) r) by (eapply Forall_impl; [|exact Hr]; simpl; intros; lia).
      cbn [fold_left]. unfold step1. rewrite app_length; simpl List.length. replace (List.length s + 1) with (S (List.length s)) by lia.
      destruct (cmem c op); [auto|]. destruct (cmem c cl); [|auto]. destruct k as [|a k]; [auto|].
      split; [reflexivity|]. split.
      - apply SS_snoc; [exact Hs|]. eapply Forall_impl; [|exact Hr]. simpl; intros; lia.
      - apply Forall_app; split; [exact Hr'|repeat constructor]. }
    specialize (G s). destruct (fold_left step1 s (0, [], [])) as [[i k] r]. apply G.
  Qed.
End Groups.

(** C16: exactly the balanced bracket pairs (bracket kinds ignored). *)
Theorem C16_groups : forall op cl s,
  List.length op = List.length cl -> (forall c, In c op -> ~ In c cl) ->
  exists groups, mark_groups op cl s = Ok groups /\
  forall a b, In (a, b) groups <->
    a + 2 <= b <= List.length s /\
    (exists o, nth_error s a = Some o /\ In o op) /\
    (exists c, nth_error s (b - 1) = Some c /\ In c cl) /\
    balanced op cl (slice (a + 1) (b - 1) s).
Proof.
  intros op cl s H1 H2. exists (result op cl s). split; [apply mark_groups_result; assumption|].
  intros a b. rewrite result_iff by assumption. apply good_iff; assumption.
Qed.
Print Assumptions C16_groups.
(** C16: two groups are disjoint or one is strictly inside the other; no bracket is in two groups. *)
Theorem C16_groups_nested : forall op cl s groups,
  List.length op = List.length cl -> (forall c, In c op -> ~ In c cl) ->
  mark_groups op cl s = Ok groups ->
  NoDup groups /\
  forall a b c d, In (a, b) groups -> In (c, d) groups ->
    (a = c /\ b = d) \/ b <= c \/ d <= a \/ (a < c /\ d < b) \/ (c < a /\ b < d).
Proof.
  intros op cl s groups H1 H2 E. rewrite mark_groups_result in E by assumption. injection E as <-. split.
  - pose proof (result_sorted op cl H1 H2 s) as H. induction H as [|x l Hs IH Hf]; constructor; [|exact IH].
    rewrite Forall_forall in Hf. intros Hi. apply Hf in Hi. lia.
  - intros a b c d Hi Hj. rewrite result_iff in Hi by assumption. rewrite result_iff in Hj by assumption.
    destruct (Nat.lt_trichotomy a c) as [H|[H|H]].
    + destruct (Nat.le_gt_cases b c) as [Hb|Hb]; [auto|]. right; right; right; left. split; [exact H|].
      apply (nested op cl H1 H2 s a b c d Hi Hj); lia.
    + subst c. left. split; [reflexivity|]. exact (same_start op cl H1 H2 s a b d Hi Hj).
    + destruct (Nat.le_gt_cases d a) as [Hb|Hb]; [auto|]. right; right; right; right. split; [exact H|].
      apply (nested op cl H1 H2 s c d a b Hj Hi); lia.
Qed.
Print Assumptions C16_groups_nested.
(** C16: different numbers of opening and closing brackets are rejected. *)
Theorem C16_bad_configuration : forall op cl s,
  List.length op <> List.length cl -> mark_groups op cl s = Err ConfigurationException.
Proof.
  intros op cl s H; unfold mark_groups. apply Nat.eqb_neq in H; rewrite H; reflexivity.
Qed.
Print Assumptions C16_bad_configuration.
(** C16, limit: the two ends of a group need not be of the same kind. *)
Theorem C16_same_kind_refuted : exists s a b,
  mark_groups (lit "([{") (lit ")]}") s = Ok [(a, b)] /\
  nth_error s a = Some (ch "(") /\ nth_error s (b - 1) = Some (ch "]").
Proof. exists (lit "(a]"), 0, 3. repeat split. Qed.
Print Assumptions C16_same_kind_refuted.
Example ex_groups : mark_groups (lit "([{") (lit ")]}") (lit "a(b[c]d)) [") = Ok [(3, 6); (1, 8)].
Proof. reflexivity. Qed.
Example ex_default_brackets : List.length (lit "([{") = List.length (lit ")]}") /\ forall c, In c (lit "([{") -> ~ In c (lit ")]}").
Proof. split; [reflexivity|]. intros c H1 H2. simpl in H1, H2. destruct H1 as [<-|[<-|[<-|[]]]]; destruct H2 as [H|[H|[H|[]]]]; discriminate. Qed.
