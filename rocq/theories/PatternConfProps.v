(** C26: configured patterns *)
From Verif Require Import Py PyFacts TextFacts PatternConf PatternConfProofs.

(** C26: the entries are registered one after the other in the order of the configuration. *)
Theorem C26_in_order : forall resolve defaults typed config evs config',
  load_config_patterns resolve defaults typed config = Ok (evs, config') ->
  exists ls, Forall2 (fun ne es => exists e', load_entry resolve defaults typed (fst ne) (snd ne) = Ok (es, e')) (entries_of config) ls /\
             evs = List.concat ls.
Proof. exact load_config_split. Qed.
Print Assumptions C26_in_order.
(** C26: an entry with a callable only calls it, with the rest of the entry. *)
Theorem C26_callable : forall resolve defaults typed name e c,
  dget e (KS (lit "callable")) = Some c ->
  load_entry resolve defaults typed name (VDict e) = Ok ([ECall c (ddel e (KS (lit "callable")))], VDict (ddel e (KS (lit "callable")))).
Proof. intros resolve defaults typed name e c H. unfold load_entry. rewrite H. reflexivity. Qed.
Print Assumptions C26_callable.
(** what one entry registers: its regexes, then its strings, with the options [option_of] *)
Definition registers resolve defaults typed (name : str) (opts_entry : dict) (patterns_of : str -> val) (evs : list event) : Prop :=
  exists e1 e2, evs = e1 ++ e2 /\
  forall t ev, In (t, ev) [(lit "regex", e1); (lit "string", e2)] ->
    if truthy (patterns_of t) then
      exists opts, ev = [EReg t (as_list (patterns_of t)) opts] /\
        forall k, match option_of defaults typed name opts_entry t k with
                  | Some v => exists v', process_option resolve (key_name k) v = Ok v' /\ dget opts k = Some v'
                  | None => dget opts k = None
                  end
    else ev = [].
(** C26: an ordinary dict entry registers its own patterns; an option comes from the options of the
    pattern type, else from the entry, else (for [value]) from the name of the entry unless this
    starts with an underscore, else from the general defaults. *)
Theorem C26_dict_entry : forall resolve defaults typed name e evs e',
  good_defaults defaults typed -> NoDup (dkeys e) ->
  dget e (KS (lit "callable")) = None -> dget e (KS (lit "pattern")) = None ->
  load_entry resolve defaults typed name (VDict e) = Ok (evs, e') ->
  registers resolve defaults typed name e (fun t => oget (dget e (KS t))) evs /\ e' = VDict e.
Proof.
  intros resolve defaults typed name e evs e' (D1 & D2 & D3) Hnd Hc Hp H. unfold load_entry in H. rewrite Hc in H. cbn [option_map] in H.
  unfold build_entry_decl in H. cbn [bind] in H.
  set (base := if startswith (lit "_") name then defaults else dset defaults (KS (lit "value")) (VStr name)) in *.
  assert (Hget : forall j, dget (dupdate base e) j = match dget e j with Some v => Some v | None => if key_eqb j (KS (lit "value")) && negb (startswith (lit "_") name) then Some (VStr name) else dget defaults j end).
  { intros j. rewrite (dget_dupdate e Hnd). destruct (dget e j); [reflexivity|]. apply base_get. }
  assert (Hpat : dmem (dupdate base e) (KS (lit "pattern")) = false).
  { unfold dmem. rewrite Hget, Hp. rewrite (D3 (KS (lit "pattern"))) by (simpl; auto). reflexivity. }
  rewrite Hpat in H. cbn [bind fst snd mapM pattern_types] in H. unfold pattern_types in H. cbn [mapM] in H.
  destruct (load_type resolve typed (dupdate base e) (lit "regex")) as [e1|] eqn:E1; cbn [bind] in H; [|discriminate].
  destruct (load_type resolve typed (dupdate base e) (lit "string")) as [e2|] eqn:E2; cbn [bind] in H; [|discriminate].
  injection H as <- <-. split; [|reflexivity]. exists e1, e2. split; [cbn [List.concat]; rewrite app_nil_r; reflexivity|].
  intros t ev Hin.
  assert (Ht : load_type resolve typed (dupdate base e) t = Ok ev /\ In (KS t) [KS (lit "regex"); KS (lit "string"); KS (lit "pattern")] /\ key_eqb (KS t) (KS (lit "value")) = false).
  { destruct Hin as [E|[E|[]]]; injection E as <- <-; (split; [assumption|]); split; [simpl; auto|reflexivity|simpl; auto|reflexivity]. }
  destruct Ht as (Ht & Hk & Hv).
  assert (Hsame : dget (dupdate base e) (KS t) = dget e (KS t)).
  { rewrite Hget, Hv. cbn [andb]. rewrite (D3 _ Hk). destruct (dget e (KS t)); reflexivity. }
  apply load_type_spec in Ht; [|intros o; apply D2]. rewrite Hsame in Ht. destruct Ht as [[-> ->]|[-> (opts & -> & Ho)]]; [reflexivity|].
  exists opts. split; [reflexivity|]. intros k. rewrite (option_of_decl defaults typed name e t _ k Hget). apply Ho.
Qed.
Print Assumptions C26_dict_entry.
(** C26: a text entry registers one pattern: a regex after the prefix [re:], a string otherwise. *)
Theorem C26_text_entry : forall resolve defaults typed name s evs e',
  good_defaults defaults typed -> s <> [] ->
  load_entry resolve defaults typed name (VStr s) = Ok (evs, e') ->
  exists t p, ((t = lit "regex" /\ s = lit "re:" ++ p) \/ (t = lit "string" /\ p = s /\ forall q, s <> lit "re:" ++ q)) /\
  registers resolve defaults typed name [] (fun t' => if str_eqb t' t then VList [VStr p] else VNone) evs /\ e' = VStr s.
Proof.
  intros resolve defaults typed name s evs e' (D1 & D2 & D3) Hs H. unfold load_entry in H. cbn [bind] in H.
  unfold build_entry_decl in H. cbn [bind] in H.
  set (base := if startswith (lit "_") name then defaults else dset defaults (KS (lit "value")) (VStr name)) in *.
  assert (Hb : forall j, dget base j = if key_eqb j (KS (lit "value")) && negb (startswith (lit "_") name) then Some (VStr name) else dget defaults j) by (intros j; apply base_get).
  assert (G : exists t p, ((t = lit "regex" /\ s = lit "re:" ++ p) \/ (t = lit "string" /\ p = s /\ forall q, s <> lit "re:" ++ q)) /\ set_pattern base s = dset base (KS t) (VList [VStr p])).
  { unfold set_pattern, regex_prefix. destruct (startswith (lit "re:") s) eqn:E.
    - apply startswith_app in E as [r ->]. exists (lit "regex"), r. split; [left; auto|reflexivity].
    - exists (lit "string"), s. split; [right; split; [reflexivity|split; [reflexivity|]]|reflexivity]. intros q ->.
      assert (startswith (lit "re:") (lit "re:" ++ q) = true) by (apply startswith_app; eauto). congruence. }
  destruct G as (t & p & Hkind & Eset). exists t, p. split; [exact Hkind|]. rewrite Eset in H. clear Eset.
  set (decl := dset base (KS t) (VList [VStr p])) in *.
  assert (Ht : In t [lit "regex"; lit "string"]) by (destruct Hkind as [[-> _]|[-> _]]; simpl; auto). clear Hkind.
  assert (Hne : forall x, In x [lit "regex"; lit "string"] -> KS x <> KS (lit "value") /\ KS x <> KS (lit "pattern")).
  { intros x [<-|[<-|[]]]; split; discriminate. }
  assert (Hpat : dmem decl (KS (lit "pattern")) = false).
  { unfold dmem, decl. rewrite dget_dset_ne by (intros E; apply (Hne t Ht); congruence). rewrite Hb. rewrite (D3 (KS (lit "pattern"))) by (simpl; auto). reflexivity. }
  rewrite Hpat in H. cbn [bind fst snd] in H. unfold pattern_types in H. cbn [mapM] in H.
  destruct (load_type resolve typed decl (lit "regex")) as [e1|] eqn:E1; cbn [bind] in H; [|discriminate].
  destruct (load_type resolve typed decl (lit "string")) as [e2|] eqn:E2; cbn [bind] in H; [|discriminate].
  injection H as <- <-. split; [|reflexivity]. exists e1, e2. split; [cbn [List.concat]; rewrite app_nil_r; reflexivity|].
  intros u ev Hin.
  assert (Hu : load_type resolve typed decl u = Ok ev /\ In u [lit "regex"; lit "string"]).
  { destruct Hin as [E|[E|[]]]; injection E as <- <-; (split; [assumption|simpl; auto]). }
  destruct Hu as [Hu Hiu]. apply load_type_spec in Hu; [|intros o; apply D2].
  assert (Hd : oget (dget decl (KS u)) = if str_eqb u t then VList [VStr p] else VNone).
  { unfold decl. destruct (str_eqb_spec u t) as [->|Hn]; [rewrite dget_dset_eq; reflexivity|].
    rewrite dget_dset_ne by congruence. rewrite Hb. destruct (Hne u Hiu) as [N1 _]. destruct (key_eqb (KS u) (KS (lit "value"))) eqn:Ek; [apply key_eqb_eq in Ek; congruence|]. cbn [andb].
    rewrite (D3 (KS u)) by (destruct Hiu as [<-|[<-|[]]]; simpl; auto). reflexivity. }
  rewrite Hd in Hu. destruct Hu as [[-> ->]|[-> (opts & -> & Ho)]]; [reflexivity|].
  exists opts. split; [reflexivity|]. intros k. specialize (Ho k). unfold option_of. cbn [dget].
  destruct (match typed u with Some o => dget o k | None => None end); [exact Ho|].
  destruct (in_dec key_eq_dec k [KS (lit "regex"); KS (lit "string")]) as [Hi|Hi]; [exact Ho|].
  unfold decl in Ho. rewrite dget_dset_ne in Ho; [rewrite Hb in Ho; exact Ho|].
  intros ->. apply Hi. destruct Ht as [<-|[<-|[]]]; simpl; auto.
Qed.
Print Assumptions C26_text_entry.

Definition ex_conf : dict :=
  [(KS (lit "A"), VList [VStr (lit "re:x+"); VDict [(KS (lit "string"), VStr (lit "y")); (KS (lit "tags"), VStr (lit "t"))]]);
   (KS (lit "_B"), VDict [(KS (lit "callable"), VStr (lit "import:f")); (KS (lit "n"), VInt 1)])].
Definition ex_typed (t : str) : option dict := if str_eqb t (lit "string") then Some [(KS (lit "ignore_case"), VBool true)] else None.
Example ex_load : load_config_patterns (fun _ s => Ok (VStr s)) [(KS (lit "name"), VStr (lit "other"))] ex_typed ex_conf =
  Ok ([EReg (lit "regex") [VStr (lit "x+")] [(KS (lit "name"), VStr (lit "other")); (KS (lit "value"), VStr (lit "A"))];
       EReg (lit "string") [VStr (lit "y")] [(KS (lit "name"), VStr (lit "other")); (KS (lit "value"), VStr (lit "A")); (KS (lit "tags"), VStr (lit "t")); (KS (lit "ignore_case"), VBool true)];
       ECall (VStr (lit "import:f")) [(KS (lit "n"), VInt 1)]],
      [(KS (lit "A"), VList [VStr (lit "re:x+"); VDict [(KS (lit "string"), VStr (lit "y")); (KS (lit "tags"), VStr (lit "t"))]]);
       (KS (lit "_B"), VDict [(KS (lit "n"), VInt 1)])])
  /\ good_defaults [(KS (lit "name"), VStr (lit "other"))] ex_typed.
Proof.
  split; [reflexivity|]. split; [repeat constructor; intros []|]. split.
  - intros t o. unfold ex_typed. destruct (str_eqb t (lit "string")); [|discriminate]. intros H; injection H as <-. repeat constructor; intros [].
  - intros k [<-|[<-|[<-|[]]]]; reflexivity.
Qed.
(** C26, limit: loading changes the configuration it is given: a second load with the same
    configuration does not register the same things. *)
Theorem C26_second_load_refuted : exists config evs config' evs2 config2,
  load_config_patterns (fun _ s => Ok (VStr s)) [] (fun _ => None) config = Ok (evs, config') /\
  load_config_patterns (fun _ s => Ok (VStr s)) [] (fun _ => None) config' = Ok (evs2, config2) /\
  evs <> [] /\ evs2 = [].
Proof.
  exists [(KS (lit "A"), VDict [(KS (lit "pattern"), VStr (lit "re:x"))]); (KS (lit "_B"), VDict [(KS (lit "callable"), VStr (lit "import:f"))])].
  eexists _, _, _, _. split; [reflexivity|]. split; [reflexivity|]. split; [discriminate|reflexivity].
Qed.
Print Assumptions C26_second_load_refuted.
(** * What becomes of an option *)
Definition executable (name : str) : Prop := name = lit "validator" \/ name = lit "conflict_solver" \/ name = lit "formatter".
(** a validator, a conflict solver or a formatter: a text stands for the object it names, a dict for the dict of its resolved values *)
Inductive resolved (resolve : str -> str -> res val) (name : str) : val -> val -> Prop :=
| rv_other v : ~ executable name -> resolved resolve name v v
| rv_none : resolved resolve name VNone VNone
| rv_text s v : executable name -> resolve name s = Ok v -> resolved resolve name (VStr s) v
| rv_items d d' : executable name -> Forall2 (fun a b => fst a = fst b /\ resolved resolve name (snd a) (snd b)) d d' -> resolved resolve name (VDict d) (VDict d').
Lemma executable_spec name : smem name [lit "validator"; lit "conflict_solver"; lit "formatter"] = true <-> executable name.
Proof. rewrite smem_In. unfold executable. cbn [In]. intuition congruence. Qed.
Theorem C26_resolved resolve name v v' : process_option resolve name v = Ok v' <-> resolved resolve name v v'.
Proof.
  destruct (smem name [lit "validator"; lit "conflict_solver"; lit "formatter"]) eqn:E.
  2: { assert (Ne : ~ executable name) by (intros X; apply executable_spec in X; congruence).
       assert (Eq : process_option resolve name v = Ok v) by (destruct v; cbn [process_option]; rewrite E; reflexivity). rewrite Eq. split.
       - intros H. injection H as <-. apply rv_other, Ne.
       - intros H. inversion H; subst; [reflexivity|reflexivity|contradiction|contradiction]. }
  pose proof (proj1 (executable_spec name) E) as X. revert v'.
  induction v as [|b|z|q|s|s|l IH|d IH] using val_ind'; intros v'; cbn [process_option]; rewrite E.
  1: { split; [intros H; injection H as <-; apply rv_none|]. intros H. inversion H; subst; reflexivity. }
  1-3,5-6: split; [discriminate|intros H; inversion H; contradiction].
  1: { split; [intros H; apply rv_text; assumption|]. intros H. inversion H; subst; [contradiction|assumption]. }
  set (go := fix go (d : list (key * val)) : res (list (key * val)) :=
                match d with [] => Ok [] | (k, v) :: r => v' <- process_option resolve name v; r' <- go r; Ok ((k, v') :: r') end).
  assert (G : forall d', go d = Ok d' <-> Forall2 (fun a b : key * val => fst a = fst b /\ resolved resolve name (snd a) (snd b)) d d').
  { clear E. induction IH as [|[k v] d Hv Hd IH]; intros d'; cbn [go].
    - split; [intros H; injection H as <-; constructor|]. intros H. inversion H. reflexivity.
    - cbn [snd] in Hv. split.
      + destruct (process_option resolve name v) as [w|] eqn:Ew; [|discriminate]. cbn [bind]. destruct (go d) as [r|] eqn:Er; [|discriminate]. cbn [bind].
        intros H. injection H as <-. constructor; [split; [reflexivity|apply Hv; reflexivity]|apply IH; reflexivity].
      + intros H. inversion H as [|a0 kw l0 r E12 Fr X1 X2]; subst. destruct kw as [k' w], E12 as [E1 E2]. cbn [fst snd] in E1, E2. subst k'. apply Hv in E2. apply IH in Fr. rewrite E2. cbn [bind]. rewrite Fr. reflexivity. }
  unfold res_map. split.
  - destruct (go d) as [r|] eqn:Er; [|discriminate]. cbn [bind]. intros H. injection H as <-. apply rv_items; [exact X|]. apply G, eq_refl.
  - intros H. inversion H; subst; [contradiction|]. match goal with F : Forall2 _ d ?r |- _ => apply G in F; rewrite F end. reflexivity.
Qed.
Print Assumptions C26_resolved.
Example C26_nonvacuous_resolved : process_option (fun n t => Ok (VStr (n ++ lit "!" ++ t))) (lit "conflict_solver") (VDict [(KS (lit "a"), VStr (lit "x")); (KS (lit "b"), VNone)])
  = Ok (VDict [(KS (lit "a"), VStr (lit "conflict_solver!x")); (KS (lit "b"), VNone)]).
Proof. reflexivity. Qed.
