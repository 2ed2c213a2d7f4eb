(** Proofs about [Options.v]. *)
From Verif Require Import Py PyFacts Options OptionsSpec.

Lemma wf_dict_iff d : wf (VDict d) <-> NoDup (dkeys d) /\ Forall (fun kv => wf (snd kv)) d.
Proof. split; [intros H; inversion H; subst; tauto | intros [? ?]; constructor; assumption]. Qed.
Lemma wf_list_iff l : wf (VList l) <-> Forall wf l.
Proof. split; [intros H; inversion H; subst; tauto | intros ?; constructor; assumption]. Qed.

Lemma wf_dget d k v : wf (VDict d) -> dget d k = Some v -> wf v.
Proof.
  rewrite wf_dict_iff; intros [_ Hf] H; apply dget_In in H.
  rewrite Forall_forall in Hf; apply (Hf (k, v) H).
Qed.
Lemma wf_dset d k v : wf (VDict d) -> wf v -> wf (VDict (dset d k v)).
Proof.
  rewrite !wf_dict_iff; intros [Hn Hf] Hv; split; [apply dset_NoDup; exact Hn|].
  clear Hn; induction d as [|[k' v'] d IH]; simpl.
  - constructor; [exact Hv|constructor].
  - inversion Hf; subst; destruct (key_eqb k k'); constructor; auto.
Qed.
Lemma wf_ddel d k : wf (VDict d) -> wf (VDict (ddel d k)).
Proof.
  rewrite !wf_dict_iff; intros [Hn Hf]; split; [apply ddel_NoDup; exact Hn|].
  unfold ddel; apply Forall_forall; intros x Hx; apply filter_In in Hx.
  rewrite Forall_forall in Hf; apply Hf; tauto.
Qed.
Lemma wf_iter v l : wf v -> py_iter v = Ok l -> Forall wf l.
Proof.
  intros Hw; destruct v; simpl; intros H; try discriminate; injection H as <-.
  - apply Forall_forall; intros x Hx; apply in_map_iff in Hx; destruct Hx as (c & <- & _); constructor.
  - apply Forall_forall; intros x Hx; apply in_map_iff in Hx; destruct Hx as (c & <- & _); constructor.
  - apply wf_list_iff; exact Hw.
  - apply Forall_forall; intros x Hx; apply in_map_iff in Hx.
    destruct Hx as ([[s|s] v] & <- & _); simpl; constructor.
Qed.

Lemma mapM_Forall2 {A B} (f : A -> res B) l l' :
  mapM f l = Ok l' <-> Forall2 (fun x y => f x = Ok y) l l'.
Proof.
  revert l'; induction l as [|x l IH]; simpl; intros l'.
  - split; [intros H; injection H as <-; constructor | intros H; inversion H; reflexivity].
  - split.
    + destruct (f x) as [y|] eqn:E; simpl; [|discriminate].
      destruct (mapM f l) as [ys|] eqn:E2; simpl; [|discriminate].
      intros H; injection H as <-; constructor; [exact E|apply IH; reflexivity].
    + intros H; inversion H as [|? y ? ys Hx Hl]; subst.
      apply IH in Hl; rewrite Hx; simpl; rewrite Hl; reflexivity.
Qed.

(** ** append_new *)
Lemma append_new_fresh new : forall l,
  exists added, append_new l new = l ++ added /\ fresh_elems l new added.
Proof.
  induction new as [|x new IH]; intros l.
  - exists []; rewrite app_nil_r; split; [reflexivity|constructor].
  - change (append_new l (x :: new)) with (append_new (append_one l x) new); unfold append_one.
    destruct (py_in x l) eqn:E; simpl.
    + destruct (IH l) as (a & Ha & Hf); exists a; split; [exact Ha|].
      apply fe_skip; [|exact Hf]. right; apply existsb_exists in E; exact E.
    + destruct (is_none x) eqn:En; simpl.
      * destruct (IH l) as (a & Ha & Hf); exists a; split; [exact Ha|].
        apply fe_skip; [left; exact En|exact Hf].
      * destruct (IH (l ++ [x])) as (a & Ha & Hf); exists (x :: a); split.
        -- rewrite Ha, <- app_assoc; reflexivity.
        -- apply fe_take; [exact En| |exact Hf].
           intros y Hy; unfold py_in in E; rewrite existsb_false in E; apply E; exact Hy.
Qed.
Lemma append_new_wf new : forall l, Forall wf l -> Forall wf new -> Forall wf (append_new l new).
Proof.
  unfold append_new; induction new as [|x new IH]; simpl; intros l Hl Hn; [exact Hl|].
  inversion Hn; subst; apply IH; [|assumption].
  unfold append_one; destruct (_ && _); [apply Forall_app; split; auto|exact Hl].
Qed.
Lemma fresh_elems_fun seen l a : fresh_elems seen l a -> forall b, fresh_elems seen l b -> a = b.
Proof.
  induction 1 as [seen | seen x l out H H1 IH | seen x l out Hn Hf H1 IH]; intros b Hb;
    inversion Hb as [|? ? ? ? H2 H3|? ? ? ? H2 H3 H4]; subst; auto.
  - exfalso; destruct H as [H|(y & Hy & E)]; [congruence|]. rewrite (H3 y Hy) in E; discriminate.
  - exfalso; destruct H2 as [H2|(y & Hy & E)]; [congruence|]. rewrite (Hf y Hy) in E; discriminate.
  - f_equal; auto.
Qed.

(** ** the loop over the items of a layer *)
Lemma merge_layer_dict d merged :
  d <> [] ->
  merge_layer (VDict d) merged =
  (merged0 <- apply_pristine (dget d k_pristine) merged; merge_items d merged0).
Proof.
  intros Hd; unfold merge_items.
  assert (E : truthy (VDict d) = true) by (destruct d; [congruence|reflexivity]).
  cbn [merge_layer]; rewrite E.
  destruct (apply_pristine (dget d k_pristine) merged) as [m0|]; [|reflexivity]; simpl.
  clear. revert m0; induction d as [|[k v] d IH]; intros m0; [reflexivity|].
  simpl. destruct (merge_option_value merge_layer k v m0) as [m1|]; [|reflexivity]; simpl; apply IH.
Qed.
Lemma merge_layer_falsy v merged : truthy v = false -> merge_layer v merged = Ok merged.
Proof. intros H; destruct v; cbn [merge_layer]; rewrite H; reflexivity. Qed.
Lemma merge_layer_not_dict v merged :
  truthy v = true -> (forall d, v <> VDict d) -> merge_layer v merged = Err AttributeError.
Proof. intros H Hd; destruct v; cbn [merge_layer]; rewrite H; try reflexivity. congruence. Qed.

Lemma merge_items_nil m : merge_items [] m = Ok m.
Proof. reflexivity. Qed.
Lemma merge_items_cons k v r m :
  merge_items ((k, v) :: r) m = (m' <- merge_option_value merge_layer k v m; merge_items r m').
Proof. reflexivity. Qed.

(** ** pristine *)
Lemma reset_all_spec l : forall merged m,
  foldM reset_one l merged = Ok m ->
  (wf (VDict merged) -> wf (VDict m)) /\
  (forall k, In (val_of_key k) l -> dget m k = None) /\
  (forall k, ~ In (val_of_key k) l -> dget m k = dget merged k).
Proof.
  induction l as [|x l IH]; simpl; intros merged m H.
  - injection H as <-; repeat split; auto; intros k [].
  - destruct (reset_one merged x) as [m1|] eqn:E; simpl in H; [|discriminate].
    destruct (IH m1 m H) as (Hw & Hin & Hout).
    assert (H1 : (wf (VDict merged) -> wf (VDict m1)) /\
                 (forall k, val_of_key k = x -> dget m1 k = None) /\
                 (forall k, val_of_key k <> x -> dget m1 k = dget merged k)).
    { destruct x; simpl in E; try discriminate; injection E as <-;
        (split; [solve [auto using wf_ddel]|]);
        split; intros [s'|s'] Hk; simpl in Hk; try discriminate; try reflexivity;
        try (injection Hk as ->; apply dget_ddel_eq);
        apply dget_ddel_ne; congruence. }
    destruct H1 as (Hw1 & Hin1 & Hout1).
    split; [auto|]. split.
    + intros k [Hk|Hk]; [|auto].
      destruct (dget m k) eqn:Em; [|reflexivity]. exfalso.
        assert (Hn : ~ In (val_of_key k) l) by (intros Hc; rewrite (Hin k Hc) in Em; discriminate).
        rewrite (Hout k Hn) in Em. rewrite (Hin1 k (eq_sym Hk)) in Em; discriminate.
    + intros k Hk. rewrite Hout by tauto. apply Hout1; intros E2; apply Hk; left; congruence.
Qed.

Lemma names_truthy p k : names p k -> truthy p = true.
Proof.
  intros (l & Hl & Hin); destruct p; simpl in *; try discriminate; injection Hl as <-.
  - destruct s; [destruct Hin|reflexivity].
  - destruct s; [destruct Hin|reflexivity].
  - destruct l0; [destruct Hin|reflexivity].
  - destruct d; [destruct Hin|reflexivity].
Qed.

Lemma apply_pristine_spec d merged m :
  apply_pristine (dget d k_pristine) merged = Ok m ->
  (wf (VDict merged) -> wf (VDict m)) /\
  (forall k, discards d k -> dget m k = None) /\
  (forall k, ~ discards d k -> dget m k = dget merged k).
Proof.
  unfold apply_pristine; intros H.
  destruct (dget d k_pristine) as [p|] eqn:Ep.
  2:{ injection H as <-; split; [auto|]; split; [|reflexivity].
      intros k (p & Hp & _); unfold k_pristine in Ep; congruence. }
  assert (Hd : forall k, discards d k <-> p = VBool true \/ names p k).
  { intros k; split.
    - intros (p' & Hp' & Hor); unfold k_pristine in Ep; rewrite Ep in Hp'; injection Hp' as <-; exact Hor.
    - intros Hor; exists p; split; [exact Ep|exact Hor]. }
  assert (Hcase : p = VBool true /\ m = [] \/
                  p <> VBool true /\ (if truthy p then l <- py_iter p; foldM reset_one l merged else Ok merged) = Ok m).
  { destruct p; try (right; split; [discriminate|exact H]).
    destruct b; [left|right]; split; congruence. }
  destruct Hcase as [[-> ->]|[Hp H']].
  - split; [intros _; constructor; constructor|]; split; [reflexivity|].
    intros k Hk; exfalso; apply Hk, Hd; left; reflexivity.
  - destruct (truthy p) eqn:Et.
    + destruct (py_iter p) as [l|] eqn:El; simpl in H'; [|discriminate].
      destruct (reset_all_spec l merged m H') as (Hw & Hin & Hout).
      assert (Hn : forall k, names p k <-> In (val_of_key k) l).
      { intros k; split; [intros (l' & Hl' & Hi); congruence | intros Hi; exists l; tauto]. }
      split; [exact Hw|]; split.
      * intros k Hk; apply Hd in Hk; destruct Hk as [Hk|Hk]; [contradiction|]. apply Hin, Hn, Hk.
      * intros k Hk; apply Hout; intros Hi; apply Hk, Hd; right; apply Hn, Hi.
    + injection H' as <-; split; [auto|]; split; [|reflexivity].
      intros k Hk; apply Hd in Hk; destruct Hk as [Hk|Hk]; [contradiction|].
      apply names_truthy in Hk; congruence.
Qed.

Lemma discards_dec d k : discards d k \/ ~ discards d k.
Proof.
  unfold discards. destruct (dget d (KS (lit "pristine"))) as [p|] eqn:Ep.
  2:{ right; intros (p & Hp & _); congruence. }
  assert (Hdec : (p = VBool true) \/ (p <> VBool true)).
  { destruct p; try (right; discriminate). destruct b; [left|right]; congruence. }
  destruct Hdec as [->|Hn]; [left; eexists; split; [reflexivity|left; reflexivity]|].
  assert (Hdec : names p k \/ ~ names p k).
  { unfold names; destruct (py_iter p) as [l|] eqn:El.
    2:{ right; intros (l & Hl & _); congruence. }
    destruct (existsb (py_eq (val_of_key k)) l) eqn:Ex.
    - left; exists l; split; [reflexivity|].
      apply existsb_exists in Ex; destruct Ex as (x & Hx & E).
      destruct k as [s|s], x; simpl in E; try discriminate; apply str_eqb_eq in E; subst; exact Hx.
    - right; intros (l' & Hl' & Hin); injection Hl' as <-.
      rewrite existsb_false in Ex; specialize (Ex _ Hin).
      destruct k; simpl in Ex; rewrite str_eqb_refl in Ex; discriminate. }
  destruct Hdec as [Hd|Hd]; [left; exists p; tauto|].
  right; intros (p' & Hp' & [H|H]); injection Hp' as <-; tauto.
Qed.

Lemma is_none_spec v : is_none v = true <-> v = VNone.
Proof. destruct v; simpl; split; congruence. Qed.

(** one option *)
Definition layer_spec (v : val) : Prop :=
  wf v -> forall a c, wf (VDict a) -> merge_layer v a = Ok c ->
  wf (VDict c) /\ (truthy v = false /\ c = a \/ exists b, v = VDict b /\ b <> [] /\ over a b c).

Lemma mov_spec k v m m' :
  layer_spec v -> wf v -> wf (VDict m) ->
  merge_option_value merge_layer k v m = Ok m' ->
  wf (VDict m') /\
  (k <> k_pristine -> put_over (dget m k) (Some v) (dget m' k)) /\
  (forall k2, k2 <> k -> dget m' k2 = dget m k2) /\
  (k = k_pristine -> m' = m).
Proof.
  intros IH Hwv Hwm; unfold merge_option_value.
  destruct (is_none v) eqn:En; simpl.
  { intros H; injection H as <-; apply is_none_spec in En; subst.
    repeat split; auto; intros; apply po_none. }
  assert (Hn : v <> VNone) by (intros E; apply is_none_spec in E; congruence).
  destruct (key_eqb_spec k k_pristine) as [->|Hk].
  { intros H; injection H as <-; repeat split; auto; tauto. }
  assert (Hset : forall w, wf w -> put_over (dget m k) (Some v) (Some w) -> m' = dset m k w ->
            wf (VDict m') /\
            (k <> k_pristine -> put_over (dget m k) (Some v) (dget m' k)) /\
            (forall k2, k2 <> k -> dget m' k2 = dget m k2) /\
            (k = k_pristine -> m' = m)).
  { intros w Hw Hp ->; split; [apply wf_dset; assumption|].
    rewrite dget_dset_eq; split; [auto|]; split; [|congruence].
    intros k2 H2; apply dget_dset_ne; exact H2. }
  destruct (dget m k) as [old|] eqn:Eg.
  2:{ intros H; injection H as <-; apply (Hset v); auto. apply po_new; exact Hn. }
  assert (Hwo : wf old) by (eapply wf_dget; eassumption).
  destruct old; try (intros H; injection H as <-; apply (Hset v); auto; apply po_plain; simpl; auto; fail).
  - destruct (py_iter v) as [items|] eqn:Ei; simpl; [|discriminate].
    intros H; injection H as <-.
    destruct (append_new_fresh items l) as (added & Ha & Hf).
    apply (Hset (VList (append_new l items))); auto.
    + apply wf_list_iff, append_new_wf; [apply wf_list_iff; exact Hwo | exact (wf_iter v items Hwv Ei)].
    + rewrite Ha; eapply po_list; eassumption.
  - destruct (merge_layer v d) as [d'|] eqn:El; simpl; [|discriminate].
    intros H; injection H as <-.
    destruct (IH Hwv d d' Hwo El) as (Hwd & [[Ht ->]|(b & -> & Hb & Ho)]).
    + apply (Hset (VDict d)); auto; apply po_dict_empty; assumption.
    + apply (Hset (VDict d')); auto; apply po_dict; assumption.
Qed.

Lemma merge_items_spec items : forall m c,
  Forall (fun kv => layer_spec (snd kv)) items -> Forall (fun kv => wf (snd kv)) items ->
  NoDup (dkeys items) -> wf (VDict m) -> merge_items items m = Ok c ->
  wf (VDict c) /\
  (forall k, k <> k_pristine -> put_over (dget m k) (dget items k) (dget c k)) /\
  dget c k_pristine = dget m k_pristine.
Proof.
  induction items as [|[k v] items IH]; intros m c HIH Hwi Hnd Hwm.
  - rewrite merge_items_nil; intros H; injection H as <-; split; [exact Hwm|]; split; [|reflexivity].
    intros; apply po_absent.
  - rewrite merge_items_cons. destruct (merge_option_value merge_layer k v m) as [m1|] eqn:E; simpl; [|discriminate].
    intros H; inversion HIH; inversion Hwi; inversion Hnd as [|? ? Hni Hnd']; subst; simpl in *.
    destruct (mov_spec k v m m1) as (Hw1 & Hp1 & Ho1 & Hpr1); auto.
    destruct (IH m1 c) as (Hwc & Hpc & Hprc); auto.
    split; [exact Hwc|]; split.
    + intros k2 Hk2; destruct (key_eqb_spec k2 k) as [->|Hne].
      * specialize (Hpc k Hk2).
        assert (En : dget items k = None) by (apply dget_None; exact Hni).
        rewrite En in Hpc. inversion Hpc; subst.
        replace (dget c k) with (dget m1 k) by congruence. apply Hp1; exact Hk2.
      * rewrite <- (Ho1 k2 Hne); apply Hpc; exact Hk2.
    + rewrite Hprc; destruct (key_eqb_spec k k_pristine) as [->|Hne]; [rewrite Hpr1; reflexivity|].
      apply Ho1; congruence.
Qed.

Lemma merge_layer_spec v : layer_spec v.
Proof.
  induction v as [|b|z|q|s|s|l IH|d IH] using val_ind'; intros Hwv a c Hwa H;
    try (match type of H with merge_layer ?v _ = _ => destruct (truthy v) eqn:Et end;
         [rewrite (merge_layer_not_dict _ _ Et) in H; [discriminate|congruence]
         |rewrite (merge_layer_falsy _ _ Et) in H; injection H as <-; split; [exact Hwa|left; auto]]; fail).
  destruct d as [|kv d'] eqn:Ed.
  - rewrite merge_layer_falsy in H by reflexivity; injection H as <-; split; [exact Hwa|left; auto].
  - rewrite <- Ed in *. assert (Hd : d <> []) by (rewrite Ed; discriminate). clear Ed.
    rewrite (merge_layer_dict d a Hd) in H.
    destruct (apply_pristine (dget d k_pristine) a) as [m0|] eqn:Ep; simpl in H; [|discriminate].
    destruct (apply_pristine_spec d a m0 Ep) as (Hw0 & Hd0 & Hk0).
    pose proof Hwv as Hwv'; rewrite wf_dict_iff in Hwv'; destruct Hwv' as [Hnd Hfw].
    destruct (merge_items_spec d m0 c IH Hfw Hnd (Hw0 Hwa) H) as (Hwc & Hpc & Hprc).
    split; [exact Hwc|right; exists d; split; [reflexivity|split; [exact Hd|]]].
    constructor.
    + apply wf_dict_iff in Hwc; tauto.
    + intros k Hk Hdis; rewrite <- (Hd0 k Hdis); apply Hpc; exact Hk.
    + intros k Hk Hdis; rewrite <- (Hk0 k Hdis); apply Hpc; exact Hk.
    + intros Hdis; change (dget c k_pristine = None); rewrite Hprc; apply Hd0; exact Hdis.
    + intros Hdis; change (dget c k_pristine = dget a k_pristine); rewrite Hprc; apply Hk0; exact Hdis.
Qed.

(** ** When merging raises *)
Definition ok_spec (v : val) : Prop :=
  wf v -> forall a, wf (VDict a) ->
  (exists c, merge_layer v a = Ok c) <-> (truthy v = false \/ exists b, v = VDict b /\ mergeable a b).

Lemma mov_ok k v m :
  ok_spec v -> wf v -> wf (VDict m) ->
  (exists m', merge_option_value merge_layer k v m = Ok m') <->
  (k = k_pristine \/ mergeable_val (dget m k) v).
Proof.
  intros IH Hwv Hwm; unfold merge_option_value.
  destruct (is_none v) eqn:En; simpl.
  { apply is_none_spec in En; subst; split; [intros _; right; apply mv_none|intros _; eexists; reflexivity]. }
  destruct (key_eqb_spec k k_pristine) as [->|Hk].
  { split; [left; reflexivity|intros _; eexists; reflexivity]. }
  assert (Hor : forall P, (k = k_pristine \/ P) <-> P) by (intros P; tauto).
  rewrite Hor.
  destruct (dget m k) as [old|] eqn:Eg.
  2:{ split; [intros _; apply mv_absent|intros _; eexists; reflexivity]. }
  assert (Hwo : wf old) by (eapply wf_dget; eassumption).
  destruct old; try (split; [intros _; apply mv_plain; exact I|intros _; eexists; reflexivity]).
  - split.
    + intros (m' & H); apply mv_list. destruct v; simpl in *; try exact I; discriminate.
    + intros H; inversion H as [| |? ? Hp|? ? Hit| |]; subst; try (simpl in *; contradiction || discriminate).
      destruct v; simpl in *; try contradiction; eexists; reflexivity.
  - specialize (IH Hwv d Hwo). split.
    + intros (m' & H). destruct (merge_layer v d) as [d'|] eqn:El; simpl in H; [|discriminate].
      destruct IH as [IH _]; destruct IH as [Ht|(b & -> & Hb)]; [eexists; reflexivity| |].
      * apply mv_dict_falsy; exact Ht.
      * apply mv_dict; exact Hb.
    + intros H. assert (Hx : exists c, merge_layer v d = Ok c).
      { apply IH; inversion H; subst; try (simpl in *; contradiction || discriminate); eauto. }
      destruct Hx as (c & ->); eexists; reflexivity.
Qed.

Lemma merge_items_ok items : forall m,
  Forall (fun kv => ok_spec (snd kv)) items -> Forall (fun kv => wf (snd kv)) items ->
  NoDup (dkeys items) -> wf (VDict m) ->
  (exists c, merge_items items m = Ok c) <->
  (forall k v, k <> k_pristine -> dget items k = Some v -> mergeable_val (dget m k) v).
Proof.
  induction items as [|[k v] items IH]; intros m HIH Hwi Hnd Hwm.
  - split; [intros _ k v _ H; discriminate | intros _; eexists; reflexivity].
  - rewrite merge_items_cons.
    inversion HIH as [|? ? Hokv HIH']; inversion Hwi as [|? ? Hwv Hwi']; inversion Hnd as [|? ? Hni Hnd']; subst; simpl in *.
    pose proof (mov_ok k v m Hokv Hwv Hwm) as Hmov.
    split.
    + intros (c & Hc) k2 v2 Hk2 Hg.
      destruct (merge_option_value merge_layer k v m) as [m1|] eqn:E; simpl in Hc; [|discriminate].
      destruct (mov_spec k v m m1) as (Hw1 & Hp1 & Ho1 & Hpr1); auto using merge_layer_spec.
      destruct (key_eqb_spec k2 k) as [->|Hne].
      * injection Hg as <-; destruct Hmov as [Hmov _]; destruct Hmov; [eexists; reflexivity|contradiction|assumption].
      * rewrite <- (Ho1 k2 Hne). apply (IH m1); auto. exists c; exact Hc.
    + intros Hall.
      assert (Hx : exists m', merge_option_value merge_layer k v m = Ok m').
      { apply Hmov. destruct (key_eqb_spec k k_pristine) as [->|Hk]; [left; reflexivity|right].
        apply Hall; [exact Hk|rewrite key_eqb_refl; reflexivity]. }
      destruct Hx as (m1 & E); rewrite E; simpl.
      destruct (mov_spec k v m m1) as (Hw1 & Hp1 & Ho1 & Hpr1); auto using merge_layer_spec.
      apply IH; auto. intros k2 v2 Hk2 Hg.
      assert (Hne : k2 <> k).
      { intros ->; apply Hni; eapply dget_Some_key; eassumption. }
      rewrite (Ho1 k2 Hne); apply Hall; [exact Hk2|].
      destruct (key_eqb_spec k2 k); [contradiction|exact Hg].
Qed.

Lemma reset_ok l : forall m, (exists c, foldM reset_one l m = Ok c) <-> Forall hashable l.
Proof.
  induction l as [|x l IH]; intros m; simpl.
  - split; [constructor|intros _; eexists; reflexivity].
  - split.
    + intros (c & Hc); destruct (reset_one m x) as [m1|] eqn:E; simpl in Hc; [|discriminate].
      constructor; [destruct x; simpl in *; try exact I; discriminate|].
      apply (IH m1); exists c; exact Hc.
    + intros H; inversion H as [|? ? Hx Hl]; subst.
      assert (E : exists m1, reset_one m x = Ok m1) by (destruct x; simpl in *; try contradiction; eexists; reflexivity).
      destruct E as (m1 & ->); simpl; apply IH; exact Hl.
Qed.
Lemma apply_pristine_ok p m : (exists c, apply_pristine p m = Ok c) <-> valid_pristine p.
Proof.
  destruct p as [p|]; simpl; [|split; [auto|intros _; eexists; reflexivity]].
  assert (Hcase : p = VBool true \/ (p <> VBool true /\
     apply_pristine (Some p) m = if truthy p then l <- py_iter p; foldM reset_one l m else Ok m)).
  { destruct p; try (right; split; [discriminate|reflexivity]).
    destruct b; [left; reflexivity|right; split; [discriminate|reflexivity]]. }
  destruct Hcase as [->|[Hn Heq]].
  - split; [left; reflexivity|intros _; eexists; reflexivity].
  - change (match p with VBool true => Ok [] | _ => if truthy p then l <- py_iter p; foldM reset_one l m else Ok m end)
      with (apply_pristine (Some p) m).
    rewrite Heq. destruct (truthy p) eqn:Et.
    + destruct (py_iter p) as [l|] eqn:El; simpl.
      * rewrite reset_ok; split; [intros H; right; right; exists l; tauto|].
        intros [H|[H|(l' & Hl' & H)]]; [contradiction|discriminate|congruence].
      * split; [intros (c & H); discriminate|].
        intros [H|[H|(l' & Hl' & H)]]; [contradiction|discriminate|discriminate].
    + split; [auto|intros _; eexists; reflexivity].
Qed.

Lemma merge_layer_ok v : ok_spec v.
Proof.
  induction v as [|b|z|q|s|s|l IH|d IH] using val_ind'; intros Hwv a Hwa;
    try (match goal with |- (exists c, merge_layer ?v _ = _) <-> _ => destruct (truthy v) eqn:Et end;
         [rewrite (merge_layer_not_dict _ _ Et) by congruence;
          split; [intros (c & H); discriminate|intros [H|(b' & H & _)]; discriminate]
         |rewrite (merge_layer_falsy _ _ Et); split; [left; reflexivity|intros _; eexists; reflexivity]]; fail).
  destruct d as [|kv d'] eqn:Ed.
  - rewrite merge_layer_falsy by reflexivity; split; [left; reflexivity|intros _; eexists; reflexivity].
  - rewrite <- Ed in *. assert (Hd : d <> []) by (rewrite Ed; discriminate).
    assert (Et : truthy (VDict d) = true) by (rewrite Ed; reflexivity). clear Ed.
    rewrite (merge_layer_dict d a Hd).
    pose proof Hwv as Hwv'; rewrite wf_dict_iff in Hwv'; destruct Hwv' as [Hnd Hfw].
    pose proof (apply_pristine_ok (dget d k_pristine) a) as Hpok.
    split.
    + intros (c & Hc); right; exists d; split; [reflexivity|].
      destruct (apply_pristine (dget d k_pristine) a) as [m0|] eqn:Ep; simpl in Hc; [|discriminate].
      destruct (apply_pristine_spec d a m0 Ep) as (Hw0 & Hd0 & Hk0).
      constructor; [apply Hpok; eexists; reflexivity|].
      intros k v Hk Hg Hnd2; rewrite <- (Hk0 k Hnd2).
      destruct (merge_items_ok d m0 IH Hfw Hnd (Hw0 Hwa)) as [Hmi _].
      apply Hmi; [exists c; exact Hc|exact Hk|exact Hg].
    + intros [H|(b & Hb & Hm)]; [congruence|]. injection Hb as <-.
      inversion Hm as [? ? Hvp Hall]; subst. apply Hpok in Hvp; destruct Hvp as (m0 & Ep).
      rewrite Ep; simpl. destruct (apply_pristine_spec d a m0 Ep) as (Hw0 & Hd0 & Hk0).
      apply merge_items_ok; auto. intros k v Hk Hg.
      destruct (discards_dec d k) as [Hdis|Hdis].
      * rewrite (Hd0 k Hdis); apply mv_absent.
      * rewrite (Hk0 k Hdis); apply Hall; assumption.
Qed.

(** ** n-ary merge *)
Lemma foldM_app {A B} (f : B -> A -> res B) l1 l2 b :
  foldM f (l1 ++ l2) b = (b' <- foldM f l1 b; foldM f l2 b').
Proof.
  revert b; induction l1 as [|x l1 IH]; intros b; simpl; [reflexivity|].
  destruct (f b x); simpl; [apply IH|reflexivity].
Qed.
Lemma merge_options_snoc ls l :
  ls <> [] -> merge_options (ls ++ [l]) = (m <- merge_options ls; merge_layer l m).
Proof.
  destruct ls as [|l0 ls]; [congruence|intros _]; simpl.
  destruct (first_layer l0) as [m0|]; simpl; [|reflexivity].
  rewrite foldM_app; destruct (foldM _ ls m0) as [m|]; simpl; [|reflexivity].
  destruct (merge_layer l m); reflexivity.
Qed.
Lemma merge_options_app ls ls' m :
  ls <> [] -> merge_options ls = Ok m ->
  merge_options (ls ++ ls') = foldM (fun m l => merge_layer l m) ls' m.
Proof.
  destruct ls as [|l0 ls]; [congruence|intros _]; simpl.
  destruct (first_layer l0) as [m0|]; simpl; [|discriminate].
  rewrite foldM_app; intros ->; reflexivity.
Qed.

Lemma first_layer_wf l m : wf l -> first_layer l = Ok m -> wf (VDict m).
Proof.
  unfold first_layer; intros Hw; destruct (truthy l).
  - destruct l; try discriminate; intros H; injection H as <-; exact Hw.
  - intros H; injection H as <-; repeat constructor.
Qed.
Lemma fold_layers_wf ls : forall m c,
  Forall wf ls -> wf (VDict m) -> foldM (fun m l => merge_layer l m) ls m = Ok c -> wf (VDict c).
Proof.
  induction ls as [|l ls IH]; simpl; intros m c Hl Hm H; [injection H as <-; exact Hm|].
  inversion Hl; subst. destruct (merge_layer l m) as [m1|] eqn:E; simpl in H; [|discriminate].
  apply (IH m1); auto. destruct (merge_layer_spec l ltac:(assumption) m m1 Hm E); assumption.
Qed.
Lemma merge_options_wf ls m : Forall wf ls -> merge_options ls = Ok m -> wf (VDict m).
Proof.
  destruct ls as [|l0 ls]; simpl; [intros _ H; injection H as <-; repeat constructor|].
  intros Hf; inversion Hf; subst. destruct (first_layer l0) as [m0|] eqn:E; simpl; [|discriminate].
  apply fold_layers_wf; [assumption|]. eapply first_layer_wf; eassumption.
Qed.

Lemma first_layer_dict d : first_layer (VDict d) = Ok d.
Proof. unfold first_layer; destruct d; reflexivity. Qed.

Lemma layer_over a b c :
  wf (VDict a) -> wf (VDict b) -> merge_layer (VDict b) a = Ok c -> over a b c.
Proof.
  intros Ha Hb H.
  destruct (merge_layer_spec (VDict b) Hb a c Ha H) as (Hwc & [[Ht ->]|(b' & E & Hn & Ho)]).
  - destruct b; [|discriminate].
    assert (Hnd : forall k, ~ discards [] k) by (intros k (p & Hp & _); discriminate).
    constructor.
    + apply wf_dict_iff in Ha; tauto.
    + intros k _ Hd; destruct (Hnd k Hd).
    + intros; apply po_absent.
    + intros Hd; destruct (Hnd _ Hd).
    + reflexivity.
  - injection E as <-; exact Ho.
Qed.

(** over, general n-ary step *)
Lemma merge_options_step ls b c :
  ls <> [] -> Forall wf ls -> wf (VDict b) ->
  merge_options (ls ++ [VDict b]) = Ok c ->
  exists a, merge_options ls = Ok a /\ over a b c.
Proof.
  intros Hne Hls Hb H; rewrite merge_options_snoc in H by exact Hne.
  destruct (merge_options ls) as [a|] eqn:E; simpl in H; [|discriminate].
  exists a; split; [reflexivity|]. apply layer_over; auto. eapply merge_options_wf; eassumption.
Qed.

Lemma merge_options_total ls a b :
  ls <> [] -> Forall wf ls -> wf (VDict b) -> merge_options ls = Ok a ->
  ((exists c, merge_options (ls ++ [VDict b]) = Ok c) <-> mergeable a b).
Proof.
  intros Hne Hls Hb Ha; rewrite merge_options_snoc by exact Hne; rewrite Ha; simpl.
  rewrite (merge_layer_ok (VDict b) Hb a (merge_options_wf _ _ Hls Ha)). split.
  - intros [H|(b' & E & H)]; [|injection E as <-; exact H].
    destruct b; [|discriminate]. constructor; [exact I|]. intros k v _ Hg; discriminate.
  - intros H; right; exists b; tauto.
Qed.

(** scalar layering *)
Lemma fold_last k : k <> KS (lit "pristine") -> forall rest a m,
  Forall (fun d => wf (VDict d)) rest -> wf (VDict a) ->
  Forall no_pristine rest ->
  (forall v, dget a k = Some v -> plain v) ->
  Forall (fun d => forall v, dget d k = Some v -> plain v) rest ->
  foldM (fun m l => merge_layer l m) (map VDict rest) a = Ok m ->
  dget m k = match last_defined k rest with Some v => Some v | None => dget a k end.
Proof.
  intros Hk rest; induction rest as [|d rest IH]; intros a m Hwr Hwa Hnp Hpa Hpr H.
  - simpl in *; injection H as <-; reflexivity.
  - cbn [map foldM] in H. destruct (merge_layer (VDict d) a) as [a1|] eqn:E; [|discriminate].
    change (foldM (fun m l => merge_layer l m) (map VDict rest) a1 = Ok m) in H.
    inversion Hwr; inversion Hnp as [|? ? Hnp1 Hnp2]; inversion Hpr as [|? ? Hp1 Hp2]; subst.
    pose proof (layer_over a d a1 Hwa ltac:(assumption) E) as Ho.
    assert (Hwa1 : wf (VDict a1)) by (destruct (merge_layer_spec (VDict d) ltac:(assumption) a a1 Hwa E); assumption).
    inversion Ho as [? ? ? _ _ Hkeep _ _]; subst.
    assert (Hnd : ~ discards d k) by (intros (p & Hp & _); unfold no_pristine in Hnp1; congruence).
    specialize (Hkeep k Hk Hnd).
    assert (Hstep : dget a1 k = match dget d k with
                                | Some v => if is_none v then dget a k else Some v
                                | None => dget a k end).
    { inversion Hkeep as [o E1 E2 E3|o E1 E2 E3|n Hn E1 E2 E3|o n Hpl Hn E1 E2 E3|l n it ad Hn Hi Hf E1 E2 E3
                         |x y z Hb Ho2 E1 E2 E3|x n Hn Ht E1 E2 E3]; try reflexivity.
      - destruct (is_none n) eqn:En; [apply is_none_spec in En; contradiction|reflexivity].
      - destruct (is_none n) eqn:En; [apply is_none_spec in En; contradiction|reflexivity].
      - exfalso; apply (Hpa (VList l)); symmetry; exact E1.
      - exfalso; apply (Hpa (VDict x)); symmetry; exact E1.
      - exfalso; apply (Hpa (VDict x)); symmetry; exact E1. }
    assert (Hpa1 : forall v, dget a1 k = Some v -> plain v).
    { intros v Hv; rewrite Hstep in Hv; destruct (dget d k) as [w|] eqn:Ed; [|auto].
      destruct (is_none w); [auto|injection Hv as <-; auto]. }
    rewrite (IH a1 m); auto. simpl.
    destruct (last_defined k rest); [reflexivity|].
    rewrite Hstep; destruct (dget d k) as [w|]; [|reflexivity]; destruct (is_none w); reflexivity.
Qed.

Lemma last_wins k first rest m :
  k <> KS (lit "pristine") ->
  Forall (fun d => wf (VDict d)) (first :: rest) ->
  Forall no_pristine rest ->
  Forall (fun d => forall v, dget d k = Some v -> plain v) (first :: rest) ->
  merge_options (map VDict (first :: rest)) = Ok m ->
  dget m k = match last_defined k rest with Some v => Some v | None => dget first k end.
Proof.
  intros Hk Hw Hnp Hp H; inversion Hw; inversion Hp; subst. cbn [map merge_options] in H.
  rewrite first_layer_dict in H; cbn [bind] in H. apply (fold_last k Hk rest first m); auto.
Qed.

(** no key is invented; pristine of later layers is never copied *)
Lemma put_over_None_inv old new : put_over old new None -> old = None /\ (new = None \/ new = Some VNone).
Proof. intros H; inversion H; subst; auto. Qed.
Lemma over_keys a b c k v :
  over a b c -> dget c k = Some v ->
  dget a k <> None \/ (k <> KS (lit "pristine") /\ dget b k <> None).
Proof.
  intros Ho Hc; inversion Ho as [? ? ? _ H1 H2 H3 H4]; subst.
  destruct (key_eqb_spec k (KS (lit "pristine"))) as [->|Hk].
  - left; destruct (discards_dec b (KS (lit "pristine"))) as [Hd|Hd].
    + rewrite (H3 Hd) in Hc; discriminate.
    + rewrite <- (H4 Hd); congruence.
  - destruct (discards_dec b k) as [Hd|Hd].
    + specialize (H1 k Hk Hd); inversion H1; subst; [left|left|right; split; [exact Hk|congruence]]; congruence.
    + specialize (H2 k Hk Hd); destruct (dget a k); [left; discriminate|].
      inversion H2; subst; [left|left|right; split; [exact Hk|congruence]]; congruence.
Qed.
Lemma fold_keys rest : forall a m k v,
  Forall (fun d => wf (VDict d)) rest -> wf (VDict a) ->
  foldM (fun m l => merge_layer l m) (map VDict rest) a = Ok m -> dget m k = Some v ->
  dget a k <> None \/ (k <> KS (lit "pristine") /\ exists d, In d rest /\ dget d k <> None).
Proof.
  induction rest as [|d rest IH]; intros a m k v Hwr Hwa H Hg.
  - simpl in H; injection H as <-; left; congruence.
  - cbn [map foldM] in H. destruct (merge_layer (VDict d) a) as [a1|] eqn:E; [|discriminate].
    change (foldM (fun m l => merge_layer l m) (map VDict rest) a1 = Ok m) in H.
    inversion Hwr; subst.
    pose proof (layer_over a d a1 Hwa ltac:(assumption) E) as Ho.
    assert (Hwa1 : wf (VDict a1)) by (destruct (merge_layer_spec (VDict d) ltac:(assumption) a a1 Hwa E); assumption).
    destruct (IH a1 m k v ltac:(assumption) Hwa1 H Hg) as [Hn|(Hk & d' & Hin & Hn)].
    + destruct (dget a1 k) as [w|] eqn:Ew; [|congruence].
      destruct (over_keys a d a1 k w Ho Ew) as [|[Hk Hd]]; [left; assumption|].
      right; split; [exact Hk|exists d; split; [left; reflexivity|exact Hd]].
    + right; split; [exact Hk|exists d'; split; [right; exact Hin|exact Hn]].
Qed.
Lemma merge_keys first rest m k v :
  Forall (fun d => wf (VDict d)) (first :: rest) ->
  merge_options (map VDict (first :: rest)) = Ok m -> dget m k = Some v ->
  dget first k <> None \/ (k <> KS (lit "pristine") /\ exists d, In d rest /\ dget d k <> None).
Proof.
  intros Hw H Hg; inversion Hw; subst. cbn [map merge_options] in H.
  rewrite first_layer_dict in H; cbn [bind] in H. eapply fold_keys; eassumption.
Qed.

(** lists *)
Definition list_spec (l items added : list val) : Prop :=
  (forall x, In x added -> In x items /\ x <> VNone) /\
  (forall x, In x items -> x <> VNone -> exists y, In y (l ++ added) /\ py_eq y x = true) /\
  (forall i j x y, (i < j)%nat -> (List.length l <= j)%nat ->
     nth_error (l ++ added) i = Some x -> nth_error (l ++ added) j = Some y -> py_eq x y = false).

Lemma fresh_elems_spec l items added :
  Forall wf items -> fresh_elems l items added -> list_spec l items added.
Proof.
  intros Hw H; revert Hw.
  induction H as [seen | seen x l out H H1 IH | seen x l out Hn Hf H1 IH]; intros Hw.
  - split; [intros x []|]; split; [intros x []|].
    intros i j x y Hij Hj _ Hy; rewrite app_nil_r in Hy.
    apply nth_error_None in Hj; congruence.
  - inversion Hw; subst. destruct (IH ltac:(assumption)) as (Ha & Hb & Hc).
    split; [intros y Hy; destruct (Ha y Hy); split; [right|]; assumption|]; split; [|exact Hc].
    intros y [->|Hy] Hyn; [|apply Hb; assumption].
    destruct H as [H|(z & Hz & E)]; [apply is_none_spec in H; contradiction|].
    exists z; split; [apply in_or_app; left; exact Hz|exact E].
  - inversion Hw; subst. destruct (IH ltac:(assumption)) as (Ha & Hb & Hc).
    rewrite <- app_assoc in Hb, Hc; simpl in Hb, Hc.
    split; [|split].
    + intros y [->|Hy]; [split; [left; reflexivity|intros ->; discriminate]|].
      destruct (Ha y Hy); split; [right|]; assumption.
    + intros y [->|Hy] Hyn; [|apply Hb; assumption].
      exists y; split; [apply in_or_app; right; left; reflexivity|apply py_eq_refl; assumption].
    + intros i j y z Hij Hj Hy Hz.
      destruct (Nat.eq_dec j (List.length seen)) as [->|Hne].
      * rewrite nth_error_app2 in Hz by lia. rewrite Nat.sub_diag in Hz; simpl in Hz; injection Hz as <-.
        rewrite nth_error_app1 in Hy by lia. apply Hf; eapply nth_error_In; eassumption.
      * apply (Hc i j); auto. rewrite app_length; simpl; lia.
Qed.

(** ** fix_encoding *)
Lemma decode_ascii_inv s s' : decode_ascii s = Ok s' -> s' = s.
Proof. unfold decode_ascii; destruct (forallb _ s); intros H; congruence. Qed.

Fixpoint fix_list (l : list val) : res (list val) :=
  match l with [] => Ok [] | x :: r => y <- fix_encoding x; ys <- fix_list r; Ok (y :: ys) end.
Fixpoint fix_dict (d : list (key * val)) (acc : dict) : res dict :=
  match d with
  | [] => Ok acc
  | (k, v) :: r => k' <- fix_key k; v' <- fix_encoding v; fix_dict r (dset acc k' v')
  end.
Lemma fix_encoding_list l : fix_encoding (VList l) = (l' <- fix_list l; Ok (VList l')).
Proof. reflexivity. Qed.
Lemma fix_encoding_dict d : fix_encoding (VDict d) = (d' <- fix_dict d []; Ok (VDict d')).
Proof. reflexivity. Qed.

Definition decode_key (k : key) : key := match k with KS s | KB s => KS s end.
Definition distinct_keys_decoded (d : dict) : Prop := NoDup (map (fun kv => decode_key (fst kv)) d).
Inductive no_clash : val -> Prop :=
| nc_plain v : plain v -> no_clash v
| nc_list l : Forall no_clash l -> no_clash (VList l)
| nc_dict d : distinct_keys_decoded d -> Forall (fun kv => no_clash (snd kv)) d -> no_clash (VDict d).

Lemma fix_key_inv k k' : fix_key k = Ok k' -> k' = decode_key k.
Proof.
  destruct k as [s|s]; simpl; [intros H; congruence|].
  destruct (decode_ascii s) eqn:E; simpl; [|discriminate]. apply decode_ascii_inv in E; subst; intros H; congruence.
Qed.
Lemma decoded_key k : decoded (val_of_key k) (val_of_key (decode_key k)).
Proof. destruct k; simpl; [apply dc_same; [exact I|discriminate]|apply dc_bytes]. Qed.

Lemma fix_dict_shape d : forall acc d',
  Forall (fun kv => forall v', no_clash (snd kv) -> fix_encoding (snd kv) = Ok v' ->
                     decoded (snd kv) v' /\ no_bytes v') d ->
  Forall (fun kv => no_clash (snd kv)) d ->
  NoDup (dkeys acc ++ map (fun kv => decode_key (fst kv)) d) ->
  fix_dict d acc = Ok d' ->
  exists d2, d' = acc ++ d2 /\
    Forall2 (fun a b => decoded (val_of_key (fst a)) (val_of_key (fst b)) /\
                        decoded (snd a) (snd b)) d d2 /\
    Forall (fun kv => (exists s, fst kv = KS s) /\ no_bytes (snd kv)) d2.
Proof.
  induction d as [|[k v] d IH]; intros acc d' HIH Hnc Hnd H; simpl in H.
  - injection H as <-; exists []; rewrite app_nil_r; repeat split; constructor.
  - destruct (fix_key k) as [k'|] eqn:Ek; simpl in H; [|discriminate].
    destruct (fix_encoding v) as [v'|] eqn:Ev; simpl in H; [|discriminate].
    inversion HIH as [|? ? H1 H2]; inversion Hnc as [|? ? Hv Hd]; subst.
    apply fix_key_inv in Ek; subst k'.
    simpl in Hnd, H1, Hv. destruct (H1 v' Hv Ev) as [Hdec Hnb].
    assert (Hni : dget acc (decode_key k) = None).
    { apply dget_None; intros Hin. apply NoDup_remove_2 in Hnd; apply Hnd, in_or_app; left; exact Hin. }
    rewrite (dkeys_NoDup_app_dset acc _ v' Hni) in H.
    destruct (IH (acc ++ [(decode_key k, v')]) d' H2 Hd) as (d2 & -> & Hf & Hb); [|exact H|].
    + unfold dkeys; rewrite map_app; simpl. rewrite <- app_assoc; exact Hnd.
    + exists ((decode_key k, v') :: d2). rewrite <- app_assoc. split; [reflexivity|].
      split; constructor; auto; simpl.
      * split; [apply decoded_key|exact Hdec].
      * split; [destruct k; eexists; reflexivity|exact Hnb].
Qed.

Lemma fix_encoding_shape v : forall v', no_clash v -> fix_encoding v = Ok v' -> decoded v v' /\ no_bytes v'.
Proof.
  induction v as [|b|z|q|s|s|l IH|d IH] using val_ind'; intros v' Hnc H;
    try (simpl in H; injection H as <-; split; [apply dc_same; [exact I|discriminate]|constructor]).
  - simpl in H; destruct (decode_ascii s) eqn:E; simpl in H; [|discriminate].
    injection H as <-; apply decode_ascii_inv in E; subst; split; constructor.
  - rewrite fix_encoding_list in H; destruct (fix_list l) as [l'|] eqn:E; simpl in H; [|discriminate].
    injection H as <-. inversion Hnc as [? Hp|? Hl|]; subst; [destruct Hp|].
    assert (Hall : Forall2 decoded l l' /\ Forall no_bytes l').
    { clear Hnc; revert l' E Hl; induction IH as [|x l Hx Hl' IHl]; intros l' E Hl; simpl in E.
      - injection E as <-; split; constructor.
      - destruct (fix_encoding x) as [y|] eqn:Ey; simpl in E; [|discriminate].
        destruct (fix_list l) as [ys|] eqn:Ef; simpl in E; [|discriminate]. injection E as <-.
        inversion Hl; subst. destruct (Hx y) as [? ?]; auto.
        destruct (IHl ys) as [? ?]; auto. }
    split; constructor; tauto.
  - rewrite fix_encoding_dict in H; destruct (fix_dict d []) as [d'|] eqn:E; simpl in H; [|discriminate].
    injection H as <-. inversion Hnc as [? Hp| |? Hdk Hd]; subst; [destruct Hp|].
    destruct (fix_dict_shape d [] d') as (d2 & -> & Hf & Hb); auto.
    simpl; split; constructor; assumption.
Qed.

(** totality: only non-ASCII byte strings make it fail *)
Inductive ascii_bytes : val -> Prop :=
| ab_bytes s : Forall (fun c => (c < 128)%N) s -> ascii_bytes (VBytes s)
| ab_plain v : plain v -> (forall s, v <> VBytes s) -> ascii_bytes v
| ab_list l : Forall ascii_bytes l -> ascii_bytes (VList l)
| ab_dict d : Forall (fun kv => ascii_bytes (val_of_key (fst kv)) /\ ascii_bytes (snd kv)) d ->
              ascii_bytes (VDict d).
Lemma decode_ascii_ok s : (exists s', decode_ascii s = Ok s') <-> Forall (fun c => (c < 128)%N) s.
Proof.
  unfold decode_ascii; destruct (forallb _ s) eqn:E.
  - split; [intros _|intros _; eexists; reflexivity].
    apply Forall_forall; intros c Hc; rewrite forallb_forall in E; apply N.ltb_lt, E, Hc.
  - split; [intros (s' & H); discriminate|]. intros H; exfalso.
    assert (forallb (fun c => (c <? 128)%N) s = true); [|congruence].
    apply forallb_forall; intros c Hc; rewrite Forall_forall in H; apply N.ltb_lt, H, Hc.
Qed.
Lemma fix_key_ok k : (exists k', fix_key k = Ok k') <-> ascii_bytes (val_of_key k).
Proof.
  destruct k as [s|s]; simpl.
  - split; [intros _; apply ab_plain; [exact I|discriminate]|intros _; eexists; reflexivity].
  - pose proof (decode_ascii_ok s) as Hd. destruct (decode_ascii s) as [s'|] eqn:E; simpl.
    + split; [intros _; apply ab_bytes, Hd; eexists; reflexivity|intros _; eexists; reflexivity].
    + split; [intros (k' & H); discriminate|]. intros H; inversion H as [? Hs|? ? Hn| |]; subst.
      * apply Hd in Hs; destruct Hs; discriminate.
      * congruence.
Qed.
Lemma fix_encoding_ok v : (exists v', fix_encoding v = Ok v') <-> ascii_bytes v.
Proof.
  induction v as [|b|z|q|s|s|l IH|d IH] using val_ind';
    try (split; [intros _; apply ab_plain; [exact I|discriminate]|intros _; eexists; reflexivity]).
  - change (fix_encoding (VBytes s)) with (s' <- decode_ascii s; Ok (VStr s')).
    pose proof (decode_ascii_ok s) as Hd. destruct (decode_ascii s) as [s'|] eqn:E; simpl.
    + split; [intros _; apply ab_bytes, Hd; eexists; reflexivity|intros _; eexists; reflexivity].
    + split; [intros (k' & H); discriminate|]. intros H; inversion H as [? Hs|? ? Hn| |]; subst.
      * apply Hd in Hs; destruct Hs; discriminate.
      * congruence.
  - assert (Hl : (exists l', fix_list l = Ok l') <-> Forall ascii_bytes l).
    { induction IH as [|x l Hx Hl' IHl]; simpl.
      - split; [constructor|intros _; eexists; reflexivity].
      - split.
        + intros (l' & H). destruct (fix_encoding x) as [y|] eqn:Ey; simpl in H; [|discriminate].
          destruct (fix_list l) as [ys|] eqn:Ef; simpl in H; [|discriminate].
          constructor; [apply Hx; eexists; reflexivity|apply IHl; eexists; reflexivity].
        + intros H; inversion H as [|? ? Ha Hb]; subst. apply Hx in Ha; destruct Ha as (y & ->).
          apply IHl in Hb; destruct Hb as (ys & ->); eexists; reflexivity. }
    rewrite fix_encoding_list; destruct (fix_list l) as [l'|] eqn:E; simpl.
    + split; [intros _; apply ab_list, Hl; eexists; reflexivity|intros _; eexists; reflexivity].
    + split; [intros (k' & H); discriminate|]. intros H; inversion H as [|? Hp|? Hf|]; subst; [destruct Hp|].
      apply Hl in Hf; destruct Hf; discriminate.
  - assert (Hl : forall acc, (exists d', fix_dict d acc = Ok d') <->
        Forall (fun kv => ascii_bytes (val_of_key (fst kv)) /\ ascii_bytes (snd kv)) d).
    { induction IH as [|[k x] d Hx Hd' IHd]; intros acc; simpl.
      - split; [constructor|intros _; eexists; reflexivity].
      - pose proof (fix_key_ok k) as Hk. split.
        + intros (d' & H). destruct (fix_key k) as [k'|] eqn:Ek; simpl in H; [|discriminate].
          destruct (fix_encoding x) as [y|] eqn:Ey; simpl in H; [|discriminate].
          constructor; [split; simpl|].
          * apply Hk; eexists; reflexivity.
          * apply Hx; simpl; rewrite Ey; eexists; reflexivity.
          * eapply IHd; eexists; exact H.
        + intros H; inversion H as [|? ? [Ha Hb] Hc]; subst; simpl in *.
          apply Hk in Ha; destruct Ha as (k' & ->). apply Hx in Hb; destruct Hb as (y & ->); simpl.
          apply IHd; exact Hc. }
    rewrite fix_encoding_dict; specialize (Hl []); destruct (fix_dict d []) as [d'|] eqn:E; simpl.
    + split; [intros _; apply ab_dict, Hl; eexists; reflexivity|intros _; eexists; reflexivity].
    + split; [intros (k' & H); discriminate|]. intros H; inversion H as [|? Hp| |? Hf]; subst; [destruct Hp|].
      apply Hl in Hf; destruct Hf; discriminate.
Qed.

(** identity on byte-free values *)
Lemma fix_dict_id d : forall acc,
  Forall (fun kv => fix_encoding (snd kv) = Ok (snd kv)) d ->
  Forall (fun kv => exists s, fst kv = KS s) d ->
  NoDup (dkeys acc ++ dkeys d) -> fix_dict d acc = Ok (acc ++ d).
Proof.
  induction d as [|[k v] d IH]; intros acc Hv Hk Hnd; simpl; [rewrite app_nil_r; reflexivity|].
  inversion Hv as [|? ? Hv1 Hv2]; inversion Hk as [|? ? [s Hs] Hk2]; subst; simpl in *; subst k; simpl.
  rewrite Hv1; simpl. rewrite dkeys_NoDup_app_dset.
  - rewrite IH; auto.
    + rewrite <- app_assoc; reflexivity.
    + unfold dkeys in *; rewrite map_app, <- app_assoc; exact Hnd.
  - apply dget_None; intros Hin; apply NoDup_remove_2 in Hnd; apply Hnd, in_or_app; left; exact Hin.
Qed.
Lemma fix_encoding_id v : wf v -> no_bytes v -> fix_encoding v = Ok v.
Proof.
  induction v as [|b|z|q|s|s|l IH|d IH] using val_ind'; intros Hw Hn; try reflexivity.
  - inversion Hn.
  - rewrite fix_encoding_list. rewrite wf_list_iff in Hw; inversion Hn as [| | | | |? Hl|]; subst.
    assert (E : fix_list l = Ok l); [|rewrite E; reflexivity].
    clear Hn; induction IH as [|x l Hx Hl' IHl]; [reflexivity|]; simpl.
    inversion Hw; inversion Hl; subst. rewrite Hx by assumption; simpl. rewrite IHl by assumption; reflexivity.
  - rewrite fix_encoding_dict. rewrite wf_dict_iff in Hw; destruct Hw as [Hnd Hw].
    inversion Hn as [| | | | | |? Hl]; subst. rewrite (fix_dict_id d []); [reflexivity| | |exact Hnd].
    + rewrite Forall_forall in *; intros kv Hkv; apply IH; [exact Hkv|apply Hw; exact Hkv|apply Hl; exact Hkv].
    + eapply Forall_impl; [|exact Hl]; intros kv [Hk _]; exact Hk.
Qed.

(** ** load_config *)
Lemma Forall2_load_mapM e files vals :
  Forall2 (fun f v => env_load e f = Ok v) files vals -> mapM (env_load e) files = Ok vals.
Proof. intros H; apply mapM_Forall2; exact H. Qed.
Lemma mapM_app {A B} (f : A -> res B) l1 l2 v1 v2 :
  mapM f l1 = Ok v1 -> mapM f l2 = Ok v2 -> mapM f (l1 ++ l2) = Ok (v1 ++ v2).
Proof. rewrite !mapM_Forall2; intros; apply Forall2_app; assumption. Qed.

Lemma load_config_eq e o files vals_user vals_files :
  dget o k_config = Some (VList files) \/ (otruthy (dget o k_config) = false /\ files = []) ->
  Forall2 (fun f v => env_load e f = Ok v) (user_config_files e o) vals_user ->
  Forall2 (fun f v => env_load e f = Ok v) files vals_files ->
  load_config e o =
   (config <- merge_options ((if otruthy (dget o k_no_default_config) then [] else [VDict (env_default e)])
                             ++ filter truthy vals_user ++ filter truthy vals_files);
    if dmem config k_advanced_config then Ok config
    else match dget (env_default e) k_advanced_config with
         | Some a => Ok (dset config k_advanced_config a)
         | None => Err KeyError
         end).
Proof.
  intros Hc Hu Hf; unfold load_config.
  assert (E : all_config_files e o = Ok (user_config_files e o ++ files)).
  { unfold all_config_files; destruct Hc as [->|[Ht ->]].
    - destruct files; simpl; [rewrite app_nil_r|]; reflexivity.
    - destruct (dget o k_config) as [c|]; simpl in *; [rewrite Ht|]; rewrite app_nil_r; reflexivity. }
  rewrite E; simpl; unfold load_files.
  rewrite (mapM_app (env_load e) _ _ vals_user vals_files) by (apply Forall2_load_mapM; assumption).
  simpl. rewrite filter_app; reflexivity.
Qed.
Lemma load_config_frame e o o' :
  dget o k_config = dget o' k_config ->
  dget o k_no_user_config = dget o' k_no_user_config ->
  dget o k_no_default_config = dget o' k_no_default_config ->
  load_config e o = load_config e o'.
Proof.
  intros H1 H2 H3; unfold load_config, all_config_files, user_config_files.
  rewrite H1, H2, H3; reflexivity.
Qed.
Lemma load_config_adv e o c : load_config e o = Ok c -> exists a, dget c k_advanced_config = Some a.
Proof.
  unfold load_config; destruct (all_config_files e o) as [f|]; simpl; [|discriminate].
  destruct (load_files e f) as [l|]; simpl; [|discriminate].
  destruct (merge_options _) as [m|]; simpl; [|discriminate].
  unfold dmem; destruct (dget m k_advanced_config) as [a|] eqn:E.
  - intros H; injection H as <-; exists a; exact E.
  - destruct (dget (env_default e) k_advanced_config) as [a|]; [|discriminate].
    intros H; injection H as <-; exists a; apply dget_dset_eq.
Qed.
Lemma load_files_err e files f err :
  In f files -> env_load e f = Err err -> exists err', load_files e files = Err err'.
Proof.
  intros Hin He; unfold load_files.
  assert (H : exists e', mapM (env_load e) files = Err e'); [|destruct H as (e' & ->); eexists; reflexivity].
  induction files as [|g files IH]; [destruct Hin|]; simpl.
  destruct Hin as [->|Hin]; [rewrite He; eexists; reflexivity|].
  destruct (env_load e g); simpl; [|eexists; reflexivity].
  destruct (IH Hin) as (e' & ->); eexists; reflexivity.
Qed.

(** ** merging twice (used by the command line, which merges before calling the API) *)
Lemma pristine_true ls b rest m :
  ls <> [] -> merge_options ls = Ok m -> dget b k_pristine = Some (VBool true) ->
  merge_options (ls ++ VDict b :: rest) = merge_options (VDict [] :: VDict b :: rest).
Proof.
  intros Hne Hm Hp. rewrite (merge_options_app ls (VDict b :: rest) m Hne Hm).
  cbn [merge_options]. rewrite first_layer_dict; cbn [bind foldM].
  assert (Hb : b <> []) by (intros ->; discriminate).
  rewrite !(merge_layer_dict b _ Hb), Hp; reflexivity.
Qed.
Lemma over_dict_value a b c k x y :
  k <> k_pristine -> dget a k = Some (VDict x) -> dget b k = Some (VDict y) -> ~ discards b k ->
  wf (VDict a) -> wf (VDict b) ->
  merge_options [VDict a; VDict b] = Ok c ->
  exists z, dget c k = Some (VDict z) /\ merge_options [VDict x; VDict y] = Ok z.
Proof.
  intros Hk Ha Hb Hd Hwa Hwb H. cbn [merge_options] in *. rewrite first_layer_dict in *; cbn [bind foldM] in *.
  assert (Hbn : b <> []) by (intros ->; discriminate).
  destruct (merge_layer (VDict b) a) as [c0|] eqn:E; cbn [bind] in H; [injection H as <-|discriminate].
  rewrite (merge_layer_dict b _ Hbn) in E.
  destruct (apply_pristine (dget b k_pristine) a) as [m0|] eqn:Ep; simpl in E; [|discriminate].
  destruct (apply_pristine_spec b a m0 Ep) as (Hw0 & _ & Hk0).
  specialize (Hk0 k Hd); rewrite Ha in Hk0. specialize (Hw0 Hwa).
  rewrite wf_dict_iff in Hwb; destruct Hwb as [Hnd Hfw].
  assert (G : exists z, dget c0 k = Some (VDict z) /\ merge_layer (VDict y) x = Ok z).
  2:{ destruct G as (z & G1 & G2); exists z; rewrite G2; split; [exact G1|reflexivity]. }
  (* follow the loop *)
  clear Ep Hd Hbn Ha Hwa. revert m0 Hk0 Hw0 E.
  induction b as [|[k1 v1] b IH]; intros m0 Hk0 Hw0 E; [discriminate|].
  rewrite merge_items_cons in E.
  destruct (merge_option_value merge_layer k1 v1 m0) as [m1|] eqn:E1; simpl in E; [|discriminate].
  inversion Hnd as [|? ? Hni Hnd']; inversion Hfw as [|? ? Hf1 Hf2]; subst; cbn [dget snd] in *.
  destruct (mov_spec k1 v1 m0 m1) as (Hw1 & _ & Ho1 & _); auto using merge_layer_spec.
  destruct (key_eqb_spec k k1) as [->|Hne].
  - injection Hb as ->. unfold merge_option_value in E1.
    destruct (key_eqb_spec k1 k_pristine); [contradiction|]; cbn [is_none orb] in E1.
    rewrite Hk0 in E1. destruct (merge_layer (VDict y) x) as [z|] eqn:Ez; cbn [bind] in E1; [|discriminate].
    injection E1 as <-. exists z; split; [|reflexivity].
    destruct (merge_items_spec b (dset m0 k1 (VDict z)) c0) as (_ & Hp & _); auto.
    + apply Forall_forall; intros; apply merge_layer_spec.
    + specialize (Hp k1 Hk). assert (En : dget b k1 = None) by (apply dget_None; exact Hni).
      rewrite En, dget_dset_eq in Hp; inversion Hp; reflexivity.
  - apply (IH Hb Hnd' Hf2 m1); auto. rewrite (Ho1 k Hne); exact Hk0.
Qed.
