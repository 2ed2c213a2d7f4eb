(** merge_options on objects that are not shared computes what [Options.merge_options] computes on their contents. *)
From Verif Require Import Py PyFacts Options OptionsProofs Heap HeapProofs HeapOwn.

(** ** depth of merged values *)
Lemma ddepth_dset D k v : ddepth (dset D k v) <= Nat.max (ddepth D) (vdepth v).
Proof.
  induction D as [|[k' v'] D IH]; cbn [dset]; [rewrite ddepth_cons; cbn; lia|].
  destruct (key_eqb k k'); rewrite !ddepth_cons; lia.
Qed.
Lemma ddepth_dget D k v : dget D k = Some v -> vdepth v <= ddepth D.
Proof.
  induction D as [|[k' v'] D IH]; cbn [dget]; [discriminate|]. rewrite ddepth_cons.
  destruct (key_eqb k k'); [intros H; injection H as ->; lia|intros H; specialize (IH H); lia].
Qed.
Lemma ddepth_ddel D k : ddepth (ddel D k) <= ddepth D.
Proof.
  induction D as [|[k' v'] D IH]; [cbn; lia|]. unfold ddel in *; cbn [filter fst].
  destruct (negb (key_eqb k k')); rewrite !ddepth_cons; lia.
Qed.
Lemma ldepth_append ws : forall vs, ldepth (append_new vs ws) <= Nat.max (ldepth vs) (ldepth ws).
Proof.
  unfold append_new. induction ws as [|w ws IH]; intros vs; cbn [fold_left]; [lia|].
  rewrite ldepth_cons. specialize (IH (append_one vs w)). unfold append_one in *.
  destruct (negb (py_in w vs) && negb (is_none w)); [rewrite ldepth_app, ldepth_cons in IH; cbn [ldepth fold_right] in IH|]; lia.
Qed.
Lemma iter_depth V ws : py_iter V = Ok ws -> ldepth ws <= vdepth V - 1.
Proof.
  destruct V; cbn [py_iter]; intros H; try discriminate; injection H as <-.
  - induction s; [cbn; lia|]. cbn [map]; rewrite ldepth_cons; cbn [vdepth] in *; lia.
  - induction s; [cbn; lia|]. cbn [map]; rewrite ldepth_cons; cbn [vdepth] in *; lia.
  - rewrite vdepth_list; lia.
  - enough (ldepth (map (fun kv : key * val => val_of_key (fst kv)) d) = 0) by lia.
    induction d as [|[[s|s] v] d IH]; [reflexivity| |]; cbn [map]; rewrite ldepth_cons, IH; reflexivity.
Qed.
Lemma reset_depth ns : forall D D', foldM reset_one ns D = Ok D' -> ddepth D' <= ddepth D.
Proof.
  induction ns as [|n ns IH]; intros D D' H; cbn [foldM] in H; [injection H as <-; lia|].
  destruct (reset_one D n) as [D1|] eqn:E; cbn [bind] in H; [|discriminate]. specialize (IH _ _ H).
  enough (ddepth D1 <= ddepth D) by lia.
  destruct n; cbn [reset_one] in E; try discriminate; injection E as <-; try lia; apply ddepth_ddel.
Qed.
Lemma pristine_depth p D D' : apply_pristine p D = Ok D' -> ddepth D' <= ddepth D.
Proof.
  intros H. assert (X : forall p, (if truthy p then l <- py_iter p; foldM reset_one l D else Ok D) = Ok D' -> ddepth D' <= ddepth D).
  { intros q. destruct (truthy q); [|intros E; injection E as <-; lia].
    destruct (py_iter q); cbn [bind]; [apply reset_depth|discriminate]. }
  destruct p as [[|[|]|z|q|s|s|l|d]|]; cbn [apply_pristine] in H; try (injection H as <-; cbn; lia);
    try (apply (X _ H)); try (apply (X (VBool false) H)).
Qed.

Definition deep (V : val) : Prop := forall D D', merge_layer V D = Ok D' -> ddepth D' <= Nat.max (ddepth D) (vdepth V - 1).
Lemma mov_depth k V D D' : deep V -> merge_option_value merge_layer k V D = Ok D' -> ddepth D' <= Nat.max (ddepth D) (vdepth V).
Proof.
  intros HV H. unfold merge_option_value in H.
  destruct (is_none V || key_eqb k k_pristine); [injection H as <-; lia|].
  assert (X : Ok (dset D k V) = Ok D' -> ddepth D' <= Nat.max (ddepth D) (vdepth V)).
  { intros E; injection E as <-; apply ddepth_dset. }
  destruct (dget D k) as [[|b|z|q|s|s|l|d]|] eqn:Eg; try (exact (X H)); apply ddepth_dget in Eg.
  - destruct (py_iter V) as [ws|] eqn:Ei; cbn [bind] in H; [|discriminate]. injection H as <-.
    pose proof (iter_depth _ _ Ei). pose proof (ddepth_dset D k (VList (append_new l ws))).
    rewrite vdepth_list in *. pose proof (ldepth_append ws l). lia.
  - destruct (merge_layer V d) as [d'|] eqn:Em; cbn [bind] in H; [|discriminate]. injection H as <-.
    pose proof (HV _ _ Em). pose proof (ddepth_dset D k (VDict d')). rewrite vdepth_dict in *. lia.
Qed.
Lemma items_depth items : Forall (fun kv => deep (snd kv)) items -> forall D D', merge_items items D = Ok D' ->
  ddepth D' <= Nat.max (ddepth D) (ddepth items).
Proof.
  induction 1 as [|[k v] items Hv Hi IH]; intros D D' H; [rewrite merge_items_nil in H; injection H as <-; lia|].
  rewrite merge_items_cons in H. destruct (merge_option_value merge_layer k v D) as [D1|] eqn:E; cbn [bind] in H; [|discriminate].
  specialize (IH _ _ H). apply mov_depth in E; [|exact Hv]. rewrite ddepth_cons. lia.
Qed.
Lemma layer_depth V : deep V.
Proof.
  assert (X : forall V, (forall d, V <> VDict d) -> deep V).
  { intros W HW D D' H. destruct (truthy W) eqn:E.
    - rewrite merge_layer_not_dict in H by assumption; discriminate.
    - rewrite merge_layer_falsy in H by assumption; injection H as <-; lia. }
  induction V using val_ind'; try (apply X; congruence).
  intros D D' Hm. destruct d as [|kv d]; [cbn in Hm; injection Hm as <-; lia|].
  rewrite merge_layer_dict in Hm by discriminate.
  destruct (apply_pristine (dget (kv :: d) k_pristine) D) as [D1|] eqn:E; cbn [bind] in Hm; [|discriminate].
  apply pristine_depth in E. apply items_depth in Hm; [|assumption]. rewrite vdepth_dict. lia.
Qed.

(** ** the operations *)
Lemma iter_refine h v V G : reads_as h v V G ->
  match py_iter V with
  | Ok ws => exists xs G', h_iter h v = Ok xs /\ all_read h xs ws G' /\ forall l, cnt G' l <= cnt G l
  | Err e => h_iter h v = Err e
  end.
Proof.
  intros H; destruct H as [|b|z|q|s|s|l xs vs F Hl Hx|l d vd F Hl Hx]; cbn [py_iter h_iter]; try reflexivity.
  - eexists; exists []; split; [reflexivity|]. split; [|intros; lia].
    induction s; cbn [map]; [constructor|]. change (@nil loc) with (@nil loc ++ []). constructor; [constructor|assumption].
  - eexists; exists []; split; [reflexivity|]. split; [|intros; lia].
    induction s; cbn [map]; [constructor|]. change (@nil loc) with (@nil loc ++ []). constructor; [constructor|assumption].
  - rewrite Hl. exists xs, F. split; [reflexivity|]. split; [exact Hx|]. intros; cnts; lia.
  - rewrite Hl. eexists; exists []; split; [reflexivity|]. split; [|intros; cnts; lia]. clear Hl.
    induction Hx as [|k x d v vd F1 F2 H1 H2 IH]; cbn [map]; [constructor|].
    change (@nil loc) with (@nil loc ++ []). constructor; [|assumption]. cbn [fst]; destruct k; constructor.
Qed.

Lemma in_refine fuel h x w Fx : reads_as h x w Fx -> vdepth w < fuel ->
  forall xs vs F, all_read h xs vs F -> ldepth vs < fuel -> existsb (fun y => h_eq fuel h y x) xs = py_in w vs.
Proof.
  intros Hx Hw xs vs F H; induction H as [|y xs v vs F1 F2 H1 H2 IH]; intros Hd; [reflexivity|].
  rewrite ldepth_cons in Hd. unfold py_in in *. cbn [existsb]. rewrite IH by lia.
  rewrite (reads_eq fuel h y v F1 x w Fx) by (assumption || lia). reflexivity.
Qed.

Lemma append_refine fuel : forall vals ws h l xs vs F G,
  nth_error h l = Some (CList xs) -> all_read h xs vs F -> all_read h vals ws G -> cnt F l = 0 -> cnt G l = 0 ->
  ldepth vs < fuel -> ldepth ws < fuel ->
  exists xs' F', nth_error (h_append fuel h l vals) l = Some (CList xs') /\
    all_read (h_append fuel h l vals) xs' (append_new vs ws) F' /\ grows h (h_append fuel h l vals) [l] /\
    forall a, cnt F' a <= cnt F a + cnt G a.
Proof.
  induction vals as [|x vals IH]; intros ws h l xs vs F G Hl Hx Hw F0 G0 D1 D2.
  { inversion Hw; subst. cbn [h_append append_new fold_left]. exists xs, F. split; [exact Hl|]. split; [exact Hx|]. split; [apply grows_refl|]. intros; lia. }
  inversion Hw as [|x0 xs0 w ws0 G1 G2 Hw1 Hw2]; subst. rewrite ldepth_cons in D2. cnts.
  cbn [h_append]. rewrite Hl. rewrite (in_refine fuel h x w G1 Hw1) with (vs := vs) (F := F) by (assumption || lia).
  assert (En : match x with HNone => true | _ => false end = is_none w) by (destruct Hw1; reflexivity).
  rewrite En. change (append_new vs (w :: ws0)) with (append_new (append_one vs w) ws0). unfold append_one.
  destruct (negb (py_in w vs) && negb (is_none w)).
  - assert (Lt : l < List.length h) by (eapply nth_Some_lt; eassumption).
    assert (Ag : forall H0, cnt H0 l = 0 -> agree h (store h l (CList (xs ++ [x]))) H0).
    { intros H0 E a Ha. unfold store; apply set_nth_ne. intros <-; lia. }
    destruct (IH ws0 (store h l (CList (xs ++ [x]))) l (xs ++ [x]) (vs ++ [w]) (F ++ (G1 ++ [])) G2)
      as (xs' & F' & R1 & R2 & R3 & R4); auto.
    + apply store_at; exact Lt.
    + apply all_app; [|constructor; [|constructor]].
      * apply (all_frame h) with (1 := Hx). apply Ag; lia.
      * apply (reads_frame h) with (1 := Hw1). apply Ag; lia.
    + apply (all_frame h) with (1 := Hw2). apply Ag; lia.
    + cnts; lia.
    + lia.
    + rewrite ldepth_app, ldepth_cons. cbn [ldepth fold_right]. lia.
    + lia.
    + exists xs', F'. split; [exact R1|]. split; [exact R2|]. split.
      * apply grows_trans with (h2 := store h l (CList (xs ++ [x]))) (M1 := [l]) (M2 := [l]); [apply store_grows|exact R3|auto].
      * intros a. specialize (R4 a). cnts. lia.
  - destruct (IH ws0 h l xs vs F G2) as (xs' & F' & R1 & R2 & R3 & R4); auto; try lia.
    exists xs', F'. split; [exact R1|]. split; [exact R2|]. split; [exact R3|]. intros a. specialize (R4 a). cnts. lia.
Qed.

Lemma entries_split h d D F k : entries_read h d D F ->
  exists F1 F2 F3, F = F1 ++ F2 ++ F3 /\
    match dget d k, dget D k with
    | Some x, Some v => reads_as h x v F2
    | None, None => F2 = []
    | _, _ => False
    end /\
    forall h' y w G, agree h h' (F1 ++ F3) -> reads_as h' y w G -> entries_read h' (dset d k y) (dset D k w) (F1 ++ G ++ F3).
Proof.
  intros H; induction H as [|k' x d v D F1 F2 H1 H2 IH].
  { exists [], [], []. cbn. repeat split. intros. change (G ++ []) with (G ++ @nil loc). constructor; [assumption|constructor]. }
  cbn [dget dset]. destruct (key_eqb k k').
  - exists [], F1, F2. split; [reflexivity|]. split; [exact H1|]. intros h' y w G Hag Hy. cbn [app] in *. constructor; [exact Hy|].
    apply (entries_frame h) with (1 := H2); exact Hag.
  - destruct IH as (A & B & C & -> & HB & Hset). exists (F1 ++ A), B, C. split; [rewrite <- !app_assoc; reflexivity|].
    split; [exact HB|]. intros h' y w G Hag Hy. rewrite <- app_assoc. constructor.
    + apply (reads_frame h) with (1 := H1). intros a Ha; apply Hag; cnts; lia.
    + apply Hset; [|exact Hy]. intros a Ha; apply Hag; cnts; lia.
Qed.
Lemma entries_del h d D F k : entries_read h d D F ->
  exists F', entries_read h (ddel d k) (ddel D k) F' /\ forall a, cnt F' a <= cnt F a.
Proof.
  intros H; induction H as [|k' x d v D F1 F2 H1 H2 IH]; [exists []; split; [constructor|auto]|].
  destruct IH as (F' & HF & Hc). unfold ddel in *; cbn [filter fst]. destruct (negb (key_eqb k k')).
  - exists (F1 ++ F'); split; [constructor; assumption|]. intros a; specialize (Hc a); cnts; lia.
  - exists F'; split; [assumption|]. intros a; specialize (Hc a); cnts; lia.
Qed.
Lemma entries_at h m d : nth_error h m = Some (CDict d) -> entries h m = d.
Proof. unfold entries; intros ->; reflexivity. Qed.

(** the dict object [m] now has the contents [D']; only [M] and new objects were written; what is met below [m] was met
    below [Fold] before, or is new *)
Definition becomes (h h' : heap) (m : loc) (D' : dict) (M Fold : list loc) : Prop :=
  exists d' F', nth_error h' m = Some (CDict d') /\ entries_read h' d' D' F' /\ grows h h' M /\
    within (List.length h) (m :: F') Fold.

Lemma reset_refine h0 m names ns G : all_read h0 names ns G -> forall h d D F,
  nth_error h m = Some (CDict d) -> entries_read h d D F -> cnt F m = 0 ->
  match foldM reset_one ns D with
  | Ok D' => exists h' d' F', h_reset h m names = (h', Ok tt) /\ nth_error h' m = Some (CDict d') /\
      entries_read h' d' D' F' /\ grows h h' [m] /\ forall a, cnt F' a <= cnt F a
  | Err e => exists h', h_reset h m names = (h', Err e)
  end.
Proof.
  intros H; induction H as [|x names n ns G1 G2 H1 H2 IH]; intros h d D F Hm Hd F0; cbn [foldM h_reset].
  { exists h, d, F. repeat split; auto. }
  assert (Del : forall k, match foldM reset_one ns (ddel D k) with
      | Ok D' => exists h' d' F', h_reset (store h m (CDict (ddel (entries h m) k))) m names = (h', Ok tt) /\
          nth_error h' m = Some (CDict d') /\ entries_read h' d' D' F' /\ grows h h' [m] /\ forall a, cnt F' a <= cnt F a
      | Err e => exists h', h_reset (store h m (CDict (ddel (entries h m) k))) m names = (h', Err e)
      end).
  { intros k. rewrite (entries_at h m d Hm). destruct (entries_del h d D F k Hd) as (F1 & HF1 & Hc).
    assert (Lt : m < List.length h) by (eapply nth_Some_lt; eassumption).
    specialize (IH (store h m (CDict (ddel d k))) (ddel d k) (ddel D k) F1).
    destruct (foldM reset_one ns (ddel D k)) as [D'|e].
    - destruct IH as (h' & d' & F' & R1 & R2 & R3 & R4 & R5).
      + apply store_at; exact Lt.
      + apply (entries_frame h) with (1 := HF1). intros a Ha; unfold store; apply set_nth_ne. intros <-. specialize (Hc m); lia.
      + specialize (Hc m); lia.
      + exists h', d', F'. repeat split; auto.
        * destruct R4 as [L _]. unfold store in L; rewrite set_nth_length in L; exact L.
        * intros a Ha Hn. destruct R4 as [L R4]. rewrite R4; [|unfold store; rewrite set_nth_length; exact Ha|exact Hn].
          unfold store; apply set_nth_ne. intros <-. cnts. destruct (Nat.eq_dec m m); [lia|congruence].
        * intros a. specialize (R5 a). specialize (Hc a). lia.
    - apply IH.
      + apply store_at; exact Lt.
      + apply (entries_frame h) with (1 := HF1). intros a Ha; unfold store; apply set_nth_ne. intros <-. specialize (Hc m); lia.
      + specialize (Hc m); lia. }
  destruct H1 as [|b|z|q|s|s|l xs vs F1 Hl Hx|l dd vd F1 Hl Hx]; cbn [reset_one bind];
    try (apply (IH h d D F Hm Hd F0)); try (apply Del); eauto.
Qed.

Definition rec_refines (f : nat) (rec : heap -> hval -> hval -> heap * res loc) : Prop :=
  forall h a D b V Fa Fb, reads_as h a (VDict D) Fa -> reads_as h b V Fb -> (forall l, cnt Fa l + cnt Fb l <= 1) ->
  vdepth (VDict D) < f -> vdepth V < f ->
  match merge_layer V D with
  | Ok D' => exists h' m, rec h a b = (h', Ok m) /\ becomes h h' m D' [] Fb
  | Err e => exists h', rec h a b = (h', Err e)
  end.

Lemma mov_refine f fuel rec k v V G h m d D F : rec_refines f rec -> f <= fuel ->
  nth_error h m = Some (CDict d) -> entries_read h d D F -> reads_as h v V G ->
  (forall l, cnt (m :: F) l + cnt G l <= 1) -> ddepth D < f -> vdepth V < f ->
  match merge_option_value merge_layer k V D with
  | Ok D' => exists h', h_merge_option_value fuel rec k v h m = (h', Ok tt) /\ becomes h h' m D' (m :: F) (m :: F ++ G)
  | Err e => exists h', h_merge_option_value fuel rec k v h m = (h', Err e)
  end.
Proof.
  intros Hrec Hf Hm Hd Hv ND DD DV.
  assert (Lt : m < List.length h) by (eapply nth_Some_lt; eassumption).
  assert (OutF : forall l, List.length h <= l -> cnt F l = 0).
  { intros l Hl. destruct (cnt F l) eqn:E; [reflexivity|]. assert (l < List.length h) by (eapply entries_lt; [eassumption|lia]). lia. }
  assert (OutG : forall l, List.length h <= l -> cnt G l = 0).
  { intros l Hl. destruct (cnt G l) eqn:E; [reflexivity|]. assert (l < List.length h) by (eapply reads_lt; [eassumption|lia]). lia. }
  assert (Hm0 : cnt F m = 0 /\ cnt G m = 0).
  { specialize (ND m). rewrite cnt_cons in ND. destruct (Nat.eq_dec m m); [lia|congruence]. }
  destruct Hm0 as [Fm0 Gm0].
  unfold h_merge_option_value, merge_option_value.
  assert (En : match v with HNone => true | _ => false end = is_none V) by (destruct Hv; reflexivity).
  rewrite En. destruct (is_none V || key_eqb k k_pristine).
  { exists h. split; [reflexivity|]. exists d, F. split; [exact Hm|]. split; [exact Hd|]. split; [apply grows_refl|].
    split; intros a Ha; specialize (ND a); cnts; destruct (Nat.eq_dec m a); try lia. }
  rewrite (entries_at h m d Hm).
  destruct (entries_split h d D F k Hd) as (F1 & F2 & F3 & EF & Hget & Hset).
  assert (CF : forall a, cnt F a = cnt F1 a + cnt F2 a + cnt F3 a) by (intros a; rewrite EF; cnts; lia).
  (* writing an entry of [m] in a heap that extends [h] *)
  assert (Put : forall h1 y w G1 M, grows h h1 M -> (forall a, cnt M a <= cnt F2 a) -> nth_error h1 m = Some (CDict d) ->
      reads_as h1 y w G1 -> (forall a, a < List.length h -> cnt G1 a <= cnt F2 a + cnt G a) ->
      (forall a, List.length h <= a -> cnt G1 a <= 1) ->
      becomes h (store h1 m (CDict (dset (entries h1 m) k y))) m (dset D k w) (m :: F) (m :: F ++ G)).
  { intros h1 y w G1 M Hg HM Hm1 Hy HG1 HG2. rewrite (entries_at h1 m d Hm1).
    assert (Lt1 : m < List.length h1) by (eapply nth_Some_lt; eassumption).
    assert (G1m : cnt G1 m = 0) by (specialize (HG1 m Lt); specialize (CF m); lia).
    exists (dset d k y), (F1 ++ G1 ++ F3). split; [apply store_at; exact Lt1|]. split; [|split].
    - apply Hset.
      + intros a Ha. cnts. assert (a < List.length h) by (apply Nat.nle_gt; intros Q; specialize (OutF a Q); specialize (CF a); lia).
        unfold store; rewrite set_nth_ne.
        * apply Hg; [assumption|]. specialize (ND a); specialize (CF a); specialize (HM a). cnts. lia.
        * intros <-. specialize (CF m). lia.
      + apply (reads_frame h1) with (1 := Hy). intros a Ha. unfold store; apply set_nth_ne. intros <-; lia.
    - apply grows_trans with (h2 := h1) (M1 := M) (M2 := [m]); [exact Hg|apply store_grows|].
      intros a _ Ha. cnts. specialize (HM a). specialize (CF a). lia.
    - split; intros a Ha; cnts; specialize (ND a); specialize (CF a); cnts.
      + specialize (HG1 a Ha). lia.
      + specialize (HG2 a Ha). specialize (OutF a Ha). destruct (Nat.eq_dec m a); lia. }
  (* the default: options.py:248-250 *)
  assert (Default : exists h', match v with
      | HRef lv => match nth_error h lv with
                   | Some (CList xs) => let (h1, l') := alloc h (CList xs) in
                       (store h1 m (CDict (dset (entries h1 m) k (HRef l'))), Ok tt)
                   | _ => (store h m (CDict (dset (entries h m) k v)), Ok tt)
                   end
      | _ => (store h m (CDict (dset (entries h m) k v)), Ok tt)
      end = (h', Ok tt) /\ becomes h h' m (dset D k V) (m :: F) (m :: F ++ G)).
  { assert (Plain : becomes h (store h m (CDict (dset (entries h m) k v))) m (dset D k V) (m :: F) (m :: F ++ G)).
    { apply Put with (G1 := G) (M := []); auto; [apply grows_refl|intros; cnts; lia|intros; lia|].
      intros a Ha. rewrite OutG by exact Ha; lia. }
    destruct Hv as [|b|z|q|s|s|l xs vs F4 Hl Hx|l dd vd F4 Hl Hx];
      try (eexists; split; [reflexivity|exact Plain]); rewrite Hl; [|eexists; split; [reflexivity|exact Plain]].
    unfold alloc. eexists; split; [reflexivity|].
    apply Put with (G1 := List.length h :: F4) (M := []).
    - apply alloc_grows.
    - intros; cnts; lia.
    - rewrite nth_error_app1 by exact Lt. exact Hm.
    - apply ra_list with (xs := xs); [apply alloc_new|]. apply (all_frame h) with (1 := Hx).
      intros a Ha. apply nth_error_app1. eapply all_lt; eassumption.
    - intros a Ha. cnts. destruct (Nat.eq_dec (List.length h) a); lia.
    - intros a Ha. specialize (OutG a Ha). cnts. destruct (Nat.eq_dec (List.length h) a); lia. }
  rewrite (entries_at h m d Hm) in Default. cbv zeta.
  destruct (dget d k) as [x|] eqn:Edk; destruct (dget D k) as [X|] eqn:EDk; try contradiction; [|exact Default].
  destruct Hget as [|b|z|q|s|s|l xs vs F4 Hl Hx|l dd vd F4 Hl Hx]; try exact Default; rewrite Hl.
  - (* a list: appended to in place *)
    pose proof (iter_refine h v V G Hv) as Hi. destruct (py_iter V) as [ws|e] eqn:Ei; cbn [bind].
    2:{ rewrite Hi. eexists; reflexivity. }
    destruct Hi as (vals & G' & -> & Hvals & HG').
    assert (L0 : cnt F4 l = 0 /\ cnt G' l = 0 /\ cnt F1 l = 0 /\ cnt F3 l = 0 /\ m <> l).
    { specialize (ND l). specialize (CF l). specialize (HG' l). cnts. destruct (Nat.eq_dec l l); [|congruence].
      destruct (Nat.eq_dec m l); lia. }
    destruct L0 as (L1 & L2 & L3 & L4 & L5).
    apply ddepth_dget in EDk. rewrite vdepth_list in EDk. pose proof (iter_depth _ _ Ei).
    destruct (append_refine fuel vals ws h l xs vs F4 G' Hl Hx Hvals L1 L2) as (xs' & F' & R1 & R2 & R3 & R4); try lia.
    eexists; split; [reflexivity|]. set (h' := h_append fuel h l vals) in *.
    assert (Hm' : nth_error h' m = Some (CDict d)).
    { destruct R3 as [_ R3]. rewrite R3; [exact Hm|exact Lt|]. cnts. destruct (Nat.eq_dec l m); [congruence|lia]. }
    assert (Ed : dset d k (HRef l) = d).
    { clear -Edk. induction d as [|[k' y] d IH]; cbn [dset dget] in *; [discriminate|].
      destruct (key_eqb k k'); [injection Edk as ->; reflexivity|rewrite IH by exact Edk; reflexivity]. }
    exists d, (F1 ++ (l :: F') ++ F3). split; [exact Hm'|]. split; [|split].
    + rewrite <- Ed at 1. apply Hset; [|apply ra_list with (xs := xs'); assumption].
      intros a Ha. destruct R3 as [_ R3]. apply R3.
      * apply Nat.nle_gt; intros Q; specialize (OutF a Q); specialize (CF a); cnts; lia.
      * cnts. destruct (Nat.eq_dec l a); [subst; lia|lia].
    + split; [apply R3|]. intros a Ha Hn. apply R3; [exact Ha|]. specialize (CF a). cnts. lia.
    + split; intros a Ha; specialize (CF a); specialize (R4 a); specialize (HG' a); specialize (ND a); cnts; [lia|].
      specialize (OutF a Ha); specialize (OutG a Ha); destruct (Nat.eq_dec m a); lia.
  - (* a dict: merged recursively *)
    apply ddepth_dget in EDk.
    assert (NDr : forall a, cnt (l :: F4) a + cnt G a <= 1).
    { intros a. specialize (ND a). specialize (CF a). cnts. lia. }
    pose proof (Hrec h (HRef l) vd v V (l :: F4) G (ra_dict h l dd vd F4 Hl Hx) Hv NDr ltac:(lia) ltac:(lia)) as Hr.
    destruct (merge_layer V vd) as [D'|e]; cbn [bind].
    2:{ destruct Hr as (h' & ->). eexists; reflexivity. }
    destruct Hr as (h' & r & -> & (d' & F' & R1 & R2 & R3 & R4 & R5)).
    eexists; split; [reflexivity|]. apply Put with (G1 := r :: F') (M := []); auto.
    + intros; cnts; lia.
    + destruct R3 as [_ R3]. rewrite R3; [exact Hm|exact Lt|reflexivity].
    + apply ra_dict with (d := d'); assumption.
    + intros a Ha. specialize (R4 a Ha). lia.
Qed.

Lemma out_entries h d D F : entries_read h d D F -> forall l, List.length h <= l -> cnt F l = 0.
Proof. intros H l Hl. destruct (cnt F l) eqn:E; [reflexivity|]. assert (l < List.length h) by (eapply entries_lt; [eassumption|lia]). lia. Qed.
Lemma out_reads h v V F : reads_as h v V F -> forall l, List.length h <= l -> cnt F l = 0.
Proof. intros H l Hl. destruct (cnt F l) eqn:E; [reflexivity|]. assert (l < List.length h) by (eapply reads_lt; [eassumption|lia]). lia. Qed.
Lemma out_all h v V F : all_read h v V F -> forall l, List.length h <= l -> cnt F l = 0.
Proof. intros H l Hl. destruct (cnt F l) eqn:E; [reflexivity|]. assert (l < List.length h) by (eapply all_lt; [eassumption|lia]). lia. Qed.

Lemma items_refine f fuel rec m : rec_refines f rec -> f <= fuel -> forall items vitems h d D F G,
  nth_error h m = Some (CDict d) -> entries_read h d D F -> entries_read h items vitems G ->
  (forall l, cnt (m :: F) l + cnt G l <= 1) -> ddepth D < f -> ddepth vitems < f ->
  match merge_items vitems D with
  | Ok D' => exists h', h_items fuel rec items h m = (h', Ok tt) /\ becomes h h' m D' (m :: F ++ G) (m :: F ++ G)
  | Err e => exists h', h_items fuel rec items h m = (h', Err e)
  end.
Proof.
  intros Hrec Hf. induction items as [|[k v] items IH]; intros vitems h d D F G Hm Hd Hi ND D1 D2.
  { inversion Hi; subst. rewrite merge_items_nil. exists h. split; [reflexivity|]. exists d, F.
    split; [exact Hm|]. split; [exact Hd|]. split; [apply grows_refl|].
    split; intros a Ha; specialize (ND a); cnts; lia. }
  inversion Hi as [|k0 x0 d0 V vitems0 G1 G2 Hv Hi2]; subst. rewrite merge_items_cons. rewrite ddepth_cons in D2.
  cbn [h_items].
  assert (Lt : m < List.length h) by (eapply nth_Some_lt; eassumption).
  pose proof (mov_refine f fuel rec k v V G1 h m d D F Hrec Hf Hm Hd Hv
    ltac:(intros l; specialize (ND l); cnts; lia) D1 ltac:(lia)) as H1.
  destruct (merge_option_value merge_layer k V D) as [D'|e] eqn:Em; cbn [bind].
  2:{ destruct H1 as (h' & ->). eexists; reflexivity. }
  destruct H1 as (h1 & -> & (d1 & F1 & R1 & R2 & R3 & R4 & R5)).
  apply mov_depth in Em; [|apply layer_depth].
  assert (OutG2 := out_entries _ _ _ _ Hi2).
  assert (Hi2' : entries_read h1 items vitems0 G2).
  { apply (entries_frame h) with (1 := Hi2). intros a Ha. destruct R3 as [_ R3]. apply R3.
    - eapply entries_lt; eassumption.
    - specialize (ND a). cnts. lia. }
  specialize (IH vitems0 h1 d1 D' F1 G2 R1 R2 Hi2').
  assert (ND1 : forall l, cnt (m :: F1) l + cnt G2 l <= 1).
  { intros a. destruct (Nat.lt_ge_cases a (List.length h)) as [Q|Q].
    - specialize (R4 a Q). specialize (ND a). cnts. lia.
    - specialize (R5 a Q). rewrite (OutG2 a Q). cnts. lia. }
  specialize (IH ND1 ltac:(lia) ltac:(lia)).
  destruct (merge_items vitems0 D') as [D2'|e]; [|exact IH].
  destruct IH as (h2 & E2 & (d2 & F2 & S1 & S2 & S3 & S4)). exists h2. split; [exact E2|].
  exists d2, F2. split; [exact S1|]. split; [exact S2|]. destruct S4 as [S4 S5].
  assert (Lh : List.length h <= List.length h1) by apply R3. split.
  - apply grows_trans with (h2 := h1) (M1 := m :: F) (M2 := m :: F1 ++ G2); [exact R3|exact S3|].
    intros a Ha Hn. specialize (R4 a Ha). cnts. lia.
  - split; intros a Ha.
    + specialize (S4 a ltac:(lia)). specialize (R4 a Ha). cnts. lia.
    + specialize (R5 a Ha). specialize (OutG2 a Ha).
      destruct (Nat.lt_ge_cases a (List.length h1)) as [Q|Q]; [|exact (S5 a Q)].
      specialize (S4 a Q). cnts. lia.
Qed.

(** the step of lines 217-224 inside [h_layer] *)
Definition pristine_step (h : heap) (m : loc) (items : list (key * hval)) : heap * res loc :=
  match dget items k_pristine with
              | Some (HBool true) => let (h1, m1) := alloc h (CDict []) in (h1, Ok m1)
              | Some p => if h_truthy h p then
                            match h_iter h p with
                            | Ok names => match h_reset h m names with
                                          | (h', Ok _) => (h', Ok m)
                                          | (h', Err e) => (h', Err e)
                                          end
                            | Err e => (h, Err e)
                            end
                          else (h, Ok m)
              | None => (h, Ok m)
              end.

Lemma layer_refine f fuel rec h m d D F layer V G : rec_refines f rec -> f <= fuel ->
  nth_error h m = Some (CDict d) -> entries_read h d D F -> reads_as h layer V G ->
  (forall l, cnt (m :: F) l + cnt G l <= 1) -> ddepth D < f -> vdepth V <= f ->
  match merge_layer V D with
  | Ok D' => exists h' m', h_layer fuel rec h m layer = (h', Ok m') /\ becomes h h' m' D' (m :: F ++ G) (m :: F ++ G)
  | Err e => exists h', h_layer fuel rec h m layer = (h', Err e)
  end.
Proof.
  intros Hrec Hf Hm Hd Hv ND D1 D2. unfold h_layer. rewrite (reads_truthy h layer V G Hv).
  assert (Lt : m < List.length h) by (eapply nth_Some_lt; eassumption).
  assert (OutF := out_entries _ _ _ _ Hd). assert (OutG := out_reads _ _ _ _ Hv).
  destruct (truthy V) eqn:ET.
  2:{ rewrite merge_layer_falsy by exact ET. exists h, m. split; [reflexivity|]. exists d, F.
      split; [exact Hm|]. split; [exact Hd|]. split; [apply grows_refl|].
      split; intros a Ha; specialize (ND a); cnts; lia. }
  destruct Hv as [|b|z|q|s|s|l xs vs G0 Hl Hx|l items vd G0 Hl Hx];
    try (rewrite merge_layer_not_dict by (assumption || discriminate); eexists; reflexivity).
  { rewrite merge_layer_not_dict by (assumption || discriminate). rewrite Hl. eexists; reflexivity. }
  rewrite Hl. rewrite merge_layer_dict by (destruct vd; [discriminate|discriminate]).
  rewrite vdepth_dict in D2. assert (OutG0 := out_entries _ _ _ _ Hx).
  destruct (entries_split h items vd G0 k_pristine Hx) as (P1 & P2 & P3 & EG & Hget & _).
  (* lines 217-224 *)
  assert (Step : match apply_pristine (dget vd k_pristine) D with
    | Ok D0 => exists h1 m1 d1 F1,
        pristine_step h m items = (h1, Ok m1) /\ nth_error h1 m1 = Some (CDict d1) /\ entries_read h1 d1 D0 F1 /\ grows h h1 [m] /\
        (forall a, cnt F1 a <= cnt F a) /\ (m1 = m \/ List.length h <= m1)
    | Err e => exists h1,
        pristine_step h m items = (h1, Err e)
    end).
  { assert (Same : exists h1 m1 d1 F1, (h, Ok m) = (h1, @Ok loc m1) /\ nth_error h1 m1 = Some (CDict d1) /\
        entries_read h1 d1 D F1 /\ grows h h1 [m] /\ (forall a, cnt F1 a <= cnt F a) /\ (m1 = m \/ List.length h <= m1)).
    { exists h, m, d, F. split; [reflexivity|]. split; [exact Hm|]. split; [exact Hd|]. split; [apply grows_refl|]. split; [auto|left; reflexivity]. }
    unfold pristine_step. destruct (dget items k_pristine) as [p|]; destruct (dget vd k_pristine) as [P|]; try contradiction;
      [|cbn [apply_pristine]; exact Same].
    assert (Gen : match (if truthy P then l <- py_iter P; foldM reset_one l D else Ok D) with
      | Ok D0 => exists h1 m1 d1 F1,
          (if h_truthy h p then match h_iter h p with
                            | Ok names => match h_reset h m names with
                                          | (h', Ok _) => (h', Ok m)
                                          | (h', Err e) => (h', Err e)
                                          end
                            | Err e => (h, Err e)
                            end
                          else (h, Ok m)) = (h1, Ok m1) /\ nth_error h1 m1 = Some (CDict d1) /\ entries_read h1 d1 D0 F1 /\ grows h h1 [m] /\
          (forall a, cnt F1 a <= cnt F a) /\ (m1 = m \/ List.length h <= m1)
      | Err e => exists h1,
          (if h_truthy h p then match h_iter h p with
                            | Ok names => match h_reset h m names with
                                          | (h', Ok _) => (h', Ok m)
                                          | (h', Err e) => (h', Err e)
                                          end
                            | Err e => (h, Err e)
                            end
                          else (h, Ok m)) = (h1, Err e)
      end).
    { rewrite (reads_truthy h p P P2 Hget). destruct (truthy P); [|exact Same].
      pose proof (iter_refine h p P P2 Hget) as Hi. destruct (py_iter P) as [ns|e]; cbn [bind].
      2:{ rewrite Hi. eexists; reflexivity. }
      destruct Hi as (names & G' & -> & Hns & _).
      assert (Fm0 : cnt F m = 0) by (specialize (ND m); rewrite cnt_cons in ND; destruct (Nat.eq_dec m m); [lia|congruence]).
      pose proof (reset_refine h m names ns G' Hns h d D F Hm Hd Fm0) as Hr.
      destruct (foldM reset_one ns D) as [D0|e].
      - destruct Hr as (h1 & d1 & F1 & -> & S1 & S2 & S3 & S4). exists h1, m, d1, F1. split; [reflexivity|].
        split; [exact S1|]. split; [exact S2|]. split; [exact S3|]. split; [exact S4|left; reflexivity].
      - destruct Hr as (h1 & ->). eexists; reflexivity. }
    destruct Hget as [|[|]|z|q|s|s|l1 xs vs G1 Hl1 Hx1|l1 items1 vd1 G1 Hl1 Hx1]; try exact Gen.
    cbn [apply_pristine]. unfold alloc. exists (h ++ [CDict []]), (List.length h), [], [].
    split; [reflexivity|]. split; [apply alloc_new|]. split; [constructor|]. split; [|split; [intros; cnts; lia|right; lia]].
    destruct (alloc_grows h (CDict [])) as [A B]. split; [exact A|]. intros a Ha _; apply B; [exact Ha|reflexivity]. }
  destruct (apply_pristine (dget vd k_pristine) D) as [D0|e] eqn:Ep; cbn [bind].
  2:{ destruct Step as (h1 & Es). fold (pristine_step h m items). cbv zeta. rewrite Es. eexists; reflexivity. }
  apply pristine_depth in Ep. fold (pristine_step h m items). cbv zeta.
  destruct Step as (h1 & m1 & d1 & F1 & -> & S1 & S2 & S3 & S4 & S5).
  assert (Gm : cnt G0 m = 0).
  { specialize (ND m). cnts. destruct (Nat.eq_dec m m); [lia|congruence]. }
  assert (Hx1 : entries_read h1 items vd G0).
  { apply (entries_frame h) with (1 := Hx). intros a Ha. destruct S3 as [_ S3]. apply S3; [eapply entries_lt; eassumption|].
    cnts. destruct (Nat.eq_dec m a) as [<-|]; lia. }
  assert (ND1 : forall a, cnt (m1 :: F1) a + cnt G0 a <= 1).
  { intros a. specialize (S4 a). specialize (ND a). cnts. destruct S5 as [->|S5]; [lia|].
    destruct (Nat.eq_dec m1 a) as [<- |]; [|lia]. rewrite (OutF m1 S5) in S4. rewrite (OutG0 m1 S5). lia. }
  pose proof (items_refine f fuel rec m1 Hrec Hf items vd h1 d1 D0 F1 G0 S1 S2 Hx1 ND1 ltac:(lia) ltac:(lia)) as Hi.
  destruct (merge_items vd D0) as [D'|e].
  2:{ destruct Hi as (h2 & ->). eexists; reflexivity. }
  destruct Hi as (h2 & -> & (d2 & F2 & T1 & T2 & T3 & T4 & T5)).
  exists h2, m1. split; [reflexivity|]. exists d2, F2. split; [exact T1|]. split; [exact T2|].
  assert (Lh : List.length h <= List.length h1) by apply S3. split.
  - apply grows_trans with (h2 := h1) (M1 := [m]) (M2 := m1 :: F1 ++ G0); [exact S3|exact T3|].
    intros a Ha Hn. specialize (S4 a). cnts. destruct S5 as [->|S5]; [lia|].
    destruct (Nat.eq_dec m1 a); lia.
  - split; intros a Ha.
    + specialize (T4 a ltac:(lia)). specialize (S4 a). cnts. destruct S5 as [->|S5]; [lia|].
      destruct (Nat.eq_dec m1 a); lia.
    + destruct (Nat.lt_ge_cases a (List.length h1)) as [Q|Q]; [|exact (T5 a Q)].
      specialize (T4 a Q). specialize (ND1 a). cnts. lia.
Qed.

Lemma layers_refine f fuel rec : rec_refines f rec -> f <= fuel -> forall layers vs h m d D F G,
  nth_error h m = Some (CDict d) -> entries_read h d D F -> all_read h layers vs G ->
  (forall l, cnt (m :: F) l + cnt G l <= 1) -> ddepth D < f -> ldepth vs <= f ->
  match foldM (fun m l => merge_layer l m) vs D with
  | Ok D' => exists h' m', h_layers fuel rec h m layers = (h', Ok m') /\ becomes h h' m' D' (m :: F ++ G) (m :: F ++ G)
  | Err e => exists h', h_layers fuel rec h m layers = (h', Err e)
  end.
Proof.
  intros Hrec Hf. induction layers as [|v layers IH]; intros vs h m d D F G Hm Hd Hi ND D1 D2.
  { inversion Hi; subst. cbn [foldM h_layers]. exists h, m. split; [reflexivity|]. exists d, F.
    split; [exact Hm|]. split; [exact Hd|]. split; [apply grows_refl|].
    split; intros a Ha; specialize (ND a); cnts; lia. }
  inversion Hi as [|x0 d0 V vs0 G1 G2 Hv Hi2]; subst. rewrite ldepth_cons in D2. cbn [foldM h_layers].
  pose proof (layer_refine f fuel rec h m d D F v V G1 Hrec Hf Hm Hd Hv
    ltac:(intros l; specialize (ND l); cnts; lia) D1 ltac:(lia)) as H1.
  destruct (merge_layer V D) as [D'|e] eqn:Em; cbn [bind].
  2:{ destruct H1 as (h' & ->). eexists; reflexivity. }
  destruct H1 as (h1 & m1 & -> & (d1 & F1 & R1 & R2 & R3 & R4 & R5)).
  apply layer_depth in Em.
  assert (OutG2 := out_all _ _ _ _ Hi2).
  assert (Hi2' : all_read h1 layers vs0 G2).
  { apply (all_frame h) with (1 := Hi2). intros a Ha. destruct R3 as [_ R3]. apply R3.
    - eapply all_lt; eassumption.
    - specialize (ND a). cnts. lia. }
  assert (ND1 : forall l, cnt (m1 :: F1) l + cnt G2 l <= 1).
  { intros a. destruct (Nat.lt_ge_cases a (List.length h)) as [Q|Q].
    - specialize (R4 a Q). specialize (ND a). cnts. lia.
    - specialize (R5 a Q). rewrite (OutG2 a Q). cnts. lia. }
  assert (D3 : ddepth D' < f) by lia.
  specialize (IH vs0 h1 m1 d1 D' F1 G2 R1 R2 Hi2' ND1 D3 ltac:(lia)).
  destruct (foldM (fun m l => merge_layer l m) vs0 D') as [D2'|e]; [|exact IH].
  destruct IH as (h2 & m2 & E2 & (d2 & F2 & S1 & S2 & S3 & S4)). exists h2, m2. split; [exact E2|].
  exists d2, F2. split; [exact S1|]. split; [exact S2|]. destruct S4 as [S4 S5].
  assert (Lh : List.length h <= List.length h1) by apply R3. split.
  - apply grows_trans with (h2 := h1) (M1 := m :: F ++ G1) (M2 := m1 :: F1 ++ G2); [exact R3|exact S3|].
    intros a Ha Hn. specialize (R4 a Ha). cnts. lia.
  - split; intros a Ha.
    + specialize (S4 a ltac:(lia)). specialize (R4 a Ha). cnts. lia.
    + specialize (R5 a Ha). specialize (OutG2 a Ha).
      destruct (Nat.lt_ge_cases a (List.length h1)) as [Q|Q]; [|exact (S5 a Q)].
      specialize (S4 a Q). cnts. lia.
Qed.

Lemma first_refine fuel h v V G : reads_as h v V G -> (forall l, cnt G l <= 1) -> vdepth V < fuel ->
  match first_layer V with
  | Ok D' => exists h' m, h_first fuel h v = (h', Ok m) /\ becomes h h' m D' [] []
  | Err e => exists h', h_first fuel h v = (h', Err e)
  end.
Proof.
  intros Hv ND Hd. unfold first_layer, h_first, alloc.
  assert (Hv1 : reads_as (h ++ [CDict []]) v V G).
  { apply (reads_frame h) with (1 := Hv). intros a Ha. apply nth_error_app1. eapply reads_lt; eassumption. }
  rewrite (reads_truthy _ v V G Hv1). destruct (truthy V) eqn:ET.
  2:{ eexists; eexists; split; [reflexivity|]. exists [], []. split; [apply alloc_new|]. split; [constructor|].
      split; [apply alloc_grows|]. split; intros a Ha; cnts; destruct (Nat.eq_dec (List.length h) a); lia. }
  set (h1 := h ++ [CDict []]) in *.
  destruct (deepcopy_reads fuel h1 [] v V G Hv1 ND ltac:(reflexivity) Hd)
    as (h2 & m2 & v' & F' & -> & Hv' & (R1 & R2 & R3 & _)).
  destruct Hv' as [|b|z|q|s|s|l xs vs G0 Hl Hx|l items vd G0 Hl Hx]; try (eexists; reflexivity).
  { rewrite Hl. eexists; reflexivity. }
  rewrite Hl. eexists; eexists; split; [reflexivity|]. exists items, G0.
  assert (L1 : List.length h1 = S (List.length h)) by (unfold h1; rewrite app_length; cbn; lia).
  assert (Gl : List.length h1 <= List.length h2) by apply R1.
  assert (Z0 : cnt G0 (List.length h) = 0) by (specialize (R2 (List.length h) ltac:(lia)); cnts; lia).
  split; [apply store_at; lia|]. split; [|split].
  - apply (entries_frame h2) with (1 := Hx). intros a Ha. unfold store; apply set_nth_ne. intros <-; lia.
  - apply grows_trans with (h2 := h1) (M1 := []) (M2 := [List.length h]); [apply alloc_grows| |].
    + apply grows_trans with (h2 := h2) (M1 := []) (M2 := [List.length h]); [exact R1|apply store_grows|auto].
    + intros a Ha _. split; [reflexivity|]. cnts. destruct (Nat.eq_dec (List.length h) a); lia.
  - split; intros a Ha.
    + specialize (R2 a ltac:(lia)). cnts. destruct (Nat.eq_dec (List.length h) a); lia.
    + specialize (R3 a). cnts. destruct (Nat.eq_dec (List.length h) a) as [<- |]; lia.
Qed.

Lemma chain_refine f fuel h v0 V0 G0 layers vs G : rec_refines f (h_merge2 f) -> f <= fuel ->
  reads_as h v0 V0 G0 -> all_read h layers vs G -> (forall l, cnt G0 l + cnt G l <= 1) ->
  vdepth V0 < fuel -> vdepth V0 <= f -> 0 < f -> ldepth vs <= f ->
  match (m0 <- first_layer V0; foldM (fun m l => merge_layer l m) vs m0) with
  | Ok D' => exists h' m, match h_first fuel h v0 with
                           | (h1, Ok m) => h_layers fuel (h_merge2 f) h1 m layers
                           | (h1, Err e) => (h1, Err e)
                           end = (h', Ok m) /\ becomes h h' m D' G G
  | Err e => exists h', match h_first fuel h v0 with
                           | (h1, Ok m) => h_layers fuel (h_merge2 f) h1 m layers
                           | (h1, Err e) => (h1, Err e)
                           end = (h', Err e)
  end.
Proof.
  intros Hrec Hf H0 Hl ND D0 D1 D3 D2.
  pose proof (first_refine fuel h v0 V0 G0 H0 ltac:(intros l; specialize (ND l); lia) D0) as H1.
  destruct (first_layer V0) as [D'|e] eqn:E0; cbn [bind].
  2:{ destruct H1 as (h' & ->). eexists; reflexivity. }
  destruct H1 as (h1 & m1 & -> & (d1 & F1 & R1 & R2 & R3 & R4 & R5)).
  assert (DD : ddepth D' < f).
  { unfold first_layer in E0. destruct (truthy V0); [|injection E0 as <-; cbn; lia].
    destruct V0; try discriminate. injection E0 as <-. rewrite vdepth_dict in D1; lia. }
  assert (OutG := out_all _ _ _ _ Hl).
  assert (Hl1 : all_read h1 layers vs G).
  { apply (all_frame h) with (1 := Hl). intros a Ha. destruct R3 as [_ R3]. apply R3; [eapply all_lt; eassumption|reflexivity]. }
  assert (ND1 : forall a, cnt (m1 :: F1) a + cnt G a <= 1).
  { intros a. destruct (Nat.lt_ge_cases a (List.length h)) as [Q|Q].
    - specialize (R4 a Q). specialize (ND a). cnts. lia.
    - specialize (R5 a Q). rewrite (OutG a Q). cnts. lia. }
  pose proof (layers_refine f fuel (h_merge2 f) Hrec Hf layers vs h1 m1 d1 D' F1 G R1 R2 Hl1 ND1 DD D2) as H2.
  destruct (foldM (fun m l => merge_layer l m) vs D') as [D2'|e]; [|exact H2].
  destruct H2 as (h2 & m2 & E2 & (d2 & F2 & S1 & S2 & S3 & S4 & S5)). exists h2, m2. split; [exact E2|].
  exists d2, F2. split; [exact S1|]. split; [exact S2|].
  assert (Lh : List.length h <= List.length h1) by apply R3. split.
  - apply grows_trans with (h2 := h1) (M1 := []) (M2 := m1 :: F1 ++ G); [exact R3|exact S3|].
    intros a Ha Hn. split; [reflexivity|]. specialize (R4 a Ha). cnts. lia.
  - split; intros a Ha.
    + specialize (S4 a ltac:(lia)). specialize (R4 a Ha). cnts. lia.
    + specialize (R5 a Ha). specialize (OutG a Ha).
      destruct (Nat.lt_ge_cases a (List.length h1)) as [Q|Q]; [|exact (S5 a Q)].
      specialize (S4 a Q). cnts. lia.
Qed.

Lemma merge2_refines f : rec_refines f (h_merge2 f).
Proof.
  induction f as [|f IH]; intros h a D b V Fa Fb Ha Hb ND D1 D2; [lia|].
  rewrite vdepth_dict in D1.
  assert (Hl : all_read h [b] [V] (Fb ++ [])) by (constructor; [exact Hb|constructor]).
  assert (E : (m0 <- first_layer (VDict D); foldM (fun m l => merge_layer l m) [V] m0) = merge_layer V D).
  { unfold first_layer. destruct D as [|kv D]; cbn [truthy bind foldM]; destruct (merge_layer V _); reflexivity. }
  pose proof (chain_refine f (S f) h a (VDict D) Fa [b] [V] (Fb ++ []) IH ltac:(lia) Ha Hl
    ltac:(intros l; specialize (ND l); cnts; lia) ltac:(rewrite vdepth_dict; lia) ltac:(rewrite vdepth_dict; lia) ltac:(lia)
    ltac:(rewrite ldepth_cons; cbn [ldepth fold_right]; lia)) as H.
  rewrite E in H. rewrite app_nil_r in H. cbn [h_merge2]. destruct (merge_layer V D) as [D'|e]; [|exact H].
  destruct H as (h' & m & E' & (d' & F' & R1 & R2 & R3 & R4)). exists h', m. split; [exact E'|].
  exists d', F'. split; [exact R1|]. split; [exact R2|]. split; [|exact R4].
  split; [apply R3|]. intros l Hlt _.
  destruct (h_merge2_ok (S f) h a b h' (Ok m) E') as [HF _]. apply HF. exact Hlt.
Qed.
