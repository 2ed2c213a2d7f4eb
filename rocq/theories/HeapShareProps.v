(** Property C53, positive half: without sharing, merging objects merges their contents, option by option. *)
From Verif Require Import Py PyFacts Options OptionsProofs Heap HeapProofs HeapOwn HeapRefine.

(** C53: if no list or dict object of the layers is reachable twice ([NoDup F]), then whatever their contents, merging the
    objects gives the contents that merging the values gives, in a result without sharing, and raises the same error
    otherwise.  (The fuel is Python's recursion limit: it must exceed the nesting depth of every layer.) *)
Theorem C53_without_sharing : forall fuel h layers vs F,
  all_read h layers vs F -> NoDup F -> (forall v, In v vs -> vdepth v < fuel) ->
  match merge_options vs with
  | Ok D => exists h' m F', h_merge_options fuel h layers = (h', Ok m) /\ reads_as h' (HRef m) (VDict D) F' /\ NoDup F'
  | Err e => exists h', h_merge_options fuel h layers = (h', Err e)
  end.
Proof.
  intros fuel h layers vs F H ND Hd. rewrite cnt_NoDup in ND.
  destruct H as [|v0 layers V0 vs G0 G H0 Hl]; cbn [merge_options h_merge_options].
  { unfold alloc. eexists; exists (List.length h), [List.length h]. split; [reflexivity|]. split.
    - apply ra_dict with (d := []); [apply alloc_new|constructor].
    - repeat constructor. intros []. }
  assert (Dl : ldepth vs < fuel).
  { assert (0 < fuel) by (specialize (Hd V0 (or_introl eq_refl)); lia).
    assert (Hd' : forall v, In v vs -> vdepth v < fuel) by (intros v Hv; apply Hd; right; exact Hv).
    clear -H Hd'. induction vs as [|v vs IH]; [cbn; lia|]. rewrite ldepth_cons.
    pose proof (Hd' v (or_introl eq_refl)). specialize (IH (fun w Hw => Hd' w (or_intror Hw))). lia. }
  specialize (Hd V0 (or_introl eq_refl)).
  pose proof (chain_refine fuel fuel h v0 V0 G0 layers vs G (merge2_refines fuel) ltac:(lia) H0 Hl
    ltac:(intros l; specialize (ND l); cnts; lia) Hd ltac:(lia) ltac:(lia) ltac:(lia)) as H.
  destruct (m0 <- first_layer V0; foldM (fun m l => merge_layer l m) vs m0) as [D|e]; [|exact H].
  destruct H as (h' & m & E & (d' & F' & R1 & R2 & R3 & R4 & R5)). exists h', m, (m :: F').
  split; [exact E|]. split; [apply ra_dict with (d := d'); assumption|].
  rewrite cnt_NoDup. intros a. destruct (Nat.lt_ge_cases a (List.length h)) as [Q|Q]; [|exact (R5 a Q)].
  specialize (R4 a Q). specialize (ND a). cnts. lia.
Qed.
Print Assumptions C53_without_sharing.

Lemma mov_other k k' V D D' : k' <> k -> merge_option_value merge_layer k V D = Ok D' -> dget D' k' = dget D k'.
Proof.
  intros Hk H. unfold merge_option_value in H. destruct (is_none V || key_eqb k k_pristine); [injection H as <-; reflexivity|].
  assert (X : forall w, Ok (dset D k w) = Ok D' -> dget D' k' = dget D k').
  { intros w E; injection E as <-; apply dget_dset_ne; exact Hk. }
  destruct (dget D k) as [[|b|z|q|s|s|l|d]|]; try exact (X _ H).
  - destruct (py_iter V); cbn [bind] in H; [exact (X _ H)|discriminate].
  - destruct (merge_layer V d); cbn [bind] in H; [exact (X _ H)|discriminate].
Qed.
Lemma items_other k' items : (forall v, ~ In (k', v) items) -> forall D D', merge_items items D = Ok D' -> dget D' k' = dget D k'.
Proof.
  induction items as [|[k v] items IH]; intros Hk D D' H; [rewrite merge_items_nil in H; injection H as <-; reflexivity|].
  rewrite merge_items_cons in H. destruct (merge_option_value merge_layer k v D) as [D1|] eqn:E; cbn [bind] in H; [|discriminate].
  rewrite (IH (fun w Hw => Hk w (or_intror Hw)) _ _ H). apply (mov_other k k' v D D1); [|exact E].
  intros ->. exact (Hk v (or_introl eq_refl)).
Qed.

(** C53: extending some options in one more layer leaves the contents of every other option as they were: the option [k]
    that the last layer (without [pristine]) does not mention reads the same with and without that layer. *)
Theorem C53_other_options : forall fuel h layers vs last c F k h1 m1 h2 m2,
  all_read h (layers ++ [last]) (vs ++ [VDict c]) F -> NoDup F -> (forall v, In v (vs ++ [VDict c]) -> vdepth v < fuel) ->
  layers <> [] -> (forall v, ~ In (k, v) c) -> (forall v, ~ In (KS (lit "pristine"), v) c) ->
  h_merge_options fuel h layers = (h1, Ok m1) -> h_merge_options fuel h (layers ++ [last]) = (h2, Ok m2) ->
  exists D1 F1 D2 F2, reads_as h1 (HRef m1) (VDict D1) F1 /\ reads_as h2 (HRef m2) (VDict D2) F2 /\
    dget D2 k = dget D1 k.
Proof.
  intros fuel h layers vs last c F k h1 m1 h2 m2 H ND Hd Hne Hk Hp E1 E2.
  assert (Hs : forall ls ws G, all_read h (ls ++ [last]) (ws ++ [VDict c]) G -> exists G', all_read h ls ws G' /\ forall l, cnt G' l <= cnt G l).
  { clear. induction ls as [|x ls IH]; intros ws G H.
    - destruct ws as [|w ws]; [exists []; split; [constructor|intros; cnts; lia]|].
      inversion H as [|x0 xs0 w0 ws0 G1 G2 Q1 Q2]; subst. inversion Q2; subst. destruct ws; discriminate.
    - destruct ws as [|w ws]; inversion H as [|x0 xs0 w0 ws0 G1 G2 Q1 Q2]; subst.
      + exfalso. inversion Q2; subst. destruct ls; discriminate.
      + destruct (IH ws G2 Q2) as (G' & A & B). exists (G1 ++ G'). split; [constructor; assumption|].
        intros l; specialize (B l); cnts; lia. }
  destruct (Hs layers vs F H) as (F0 & H0 & HF0).
  assert (ND0 : NoDup F0) by (rewrite cnt_NoDup in *; intros l; specialize (ND l); specialize (HF0 l); lia).
  assert (Hvs : vs <> []) by (intros ->; inversion H0; subst; congruence).
  pose proof (C53_without_sharing fuel h layers vs F0 H0 ND0 (fun v Hv => Hd v (in_or_app _ _ _ (or_introl Hv)))) as R1.
  pose proof (C53_without_sharing fuel h _ _ F H ND Hd) as R2.
  rewrite merge_options_snoc in R2 by exact Hvs.
  destruct (merge_options vs) as [D1|e]; [|destruct R1 as (h' & R1); congruence].
  destruct R1 as (h1' & m1' & F1 & R1 & R1' & _). rewrite E1 in R1. injection R1 as <- <-.
  cbn [bind] in R2. destruct (merge_layer (VDict c) D1) as [D2|e] eqn:Em; [|destruct R2 as (h' & R2); congruence].
  destruct R2 as (h2' & m2' & F2 & R2 & R2' & _). rewrite E2 in R2. injection R2 as <- <-.
  exists D1, F1, D2, F2. split; [exact R1'|]. split; [exact R2'|].
  destruct c as [|kv c]; [cbn in Em; injection Em as <-; reflexivity|].
  rewrite merge_layer_dict in Em by discriminate.
  assert (Ep : dget (kv :: c) k_pristine = None).
  { destruct (dget (kv :: c) k_pristine) as [v|] eqn:E; [|reflexivity]. apply dget_In in E. destruct (Hp v E). }
  rewrite Ep in Em. cbn [apply_pristine bind] in Em. exact (items_other k _ Hk _ _ Em).
Qed.
Print Assumptions C53_other_options.

(** Non-vacuity: two layers without sharing, nested lists and dicts; option [b] keeps its list. *)
Example ex_unshared :
  let h := [CDict [(KS (lit "a"), HRef 1); (KS (lit "b"), HRef 2); (KS (lit "d"), HRef 3)]; CList [HInt 1]; CList [HInt 1];
            CDict [(KS (lit "x"), HRef 4)]; CList []; CDict [(KS (lit "a"), HRef 6); (KS (lit "d"), HRef 7)];
            CList [HInt 2; HRef 8]; CDict [(KS (lit "x"), HStr (lit "uv"))]; CList [HNone]] in
  let vs := [VDict [(KS (lit "a"), VList [VInt 1]); (KS (lit "b"), VList [VInt 1]); (KS (lit "d"), VDict [(KS (lit "x"), VList [])])];
             VDict [(KS (lit "a"), VList [VInt 2; VList [VNone]]); (KS (lit "d"), VDict [(KS (lit "x"), VStr (lit "uv"))])]] in
  all_read h [HRef 0; HRef 5] vs [0; 1; 2; 3; 4; 5; 6; 8; 7] /\ NoDup [0; 1; 2; 3; 4; 5; 6; 8; 7] /\
  (forall v, In v vs -> vdepth v < 4) /\
  merge_options vs = Ok [(KS (lit "a"), VList [VInt 1; VInt 2; VList [VNone]]); (KS (lit "b"), VList [VInt 1]);
                         (KS (lit "d"), VDict [(KS (lit "x"), VList [VStr (lit "u"); VStr (lit "v")])])].
Proof.
  cbv zeta. split; [|split; [|split]].
  - change [0; 1; 2; 3; 4; 5; 6; 8; 7] with ((0 :: (1 :: ([] ++ [])) ++ (2 :: ([] ++ [])) ++ (3 :: (4 :: []) ++ []) ++ []) ++
      (5 :: (6 :: ([] ++ (8 :: ([] ++ [])) ++ [])) ++ (7 :: ([] ++ [])) ++ []) ++ @nil loc).
    repeat (econstructor; try reflexivity).
  - repeat (constructor; [intros Q; repeat (destruct Q as [Q|Q]; [discriminate|]); destruct Q|]). constructor.
  - intros v [<-|[<-|[]]]; vm_compute; lia.
  - reflexivity.
Qed.
