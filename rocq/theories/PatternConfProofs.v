From Verif Require Import Py PyFacts TextFacts PatternConf.

Lemma dget_dupdate e : NoDup (dkeys e) -> forall d k, dget (dupdate d e) k = match dget e k with Some v => Some v | None => dget d k end.
Proof.
  unfold dupdate. induction e as [|[k0 v0] e IH]; intros Hnd d k; [reflexivity|].
  inversion Hnd as [|? ? Hni Hnd']; subst. cbn [fold_left fst snd dget]. rewrite (IH Hnd').
  destruct (key_eqb k k0) eqn:E.
  - apply key_eqb_eq in E; subst k0. destruct (dget e k) as [v|] eqn:Ee; [destruct Hni; eapply dget_Some_key; exact Ee|]. apply dget_dset_eq.
  - destruct (dget e k); [reflexivity|]. apply dget_dset_ne. intros ->. rewrite key_eqb_refl in E. discriminate.
Qed.
Lemma dupdate_NoDup e : forall d, NoDup (dkeys d) -> NoDup (dkeys (dupdate d e)).
Proof. unfold dupdate. induction e as [|[k v] e IH]; intros d H; [exact H|]. cbn [fold_left]. apply IH, dset_NoDup, H. Qed.
Lemma process_options_get resolve d : forall d' k, process_options resolve d = Ok d' ->
  match dget d k with
  | Some v => exists v', process_option resolve (key_name k) v = Ok v' /\ dget d' k = Some v'
  | None => dget d' k = None
  end.
Proof.
  induction d as [|[k0 v0] d IH]; intros d' k; cbn [process_options]; [intros H; injection H as <-; reflexivity|].
  destruct (process_option resolve (key_name k0) v0) as [v'|] eqn:Ev; cbn [bind]; [|discriminate].
  destruct (process_options resolve d) as [r'|] eqn:Er; cbn [bind]; [|discriminate]. intros H; injection H as <-.
  cbn [dget]. destruct (key_eqb k k0) eqn:E; [apply key_eqb_eq in E; subst; eauto|apply IH; reflexivity].
Qed.

(** the entries of a configuration, with the name they are under, in order *)
Definition entries_of (config : dict) : list (str * val) :=
  flat_map (fun kv => map (pair (key_name (fst kv))) (as_list (snd kv))) config.

Section Proofs.
  Context (resolve : str -> str -> res val) (defaults : dict) (typed : str -> option dict).
  Notation load_entry := (load_entry resolve defaults typed).
  Notation load_config_patterns := (load_config_patterns resolve defaults typed).

  Lemma load_entries_split name l : forall evs l', load_entries resolve defaults typed name l = Ok (evs, l') ->
    exists ls, Forall2 (fun ne es => exists e', load_entry (fst ne) (snd ne) = Ok (es, e')) (map (pair name) l) ls /\ evs = List.concat ls.
  Proof.
    induction l as [|e l IH]; intros evs l'; cbn [load_entries]; [intros H; injection H as <- <-; exists []; split; [constructor|reflexivity]|].
    destruct (load_entry name e) as [[es e']|] eqn:Ee; cbn [bind]; [|discriminate].
    destruct (load_entries resolve defaults typed name l) as [[es2 l2]|]; cbn [bind]; [|discriminate]. intros H; injection H as <- <-.
    destruct (IH es2 l2 eq_refl) as (ls & H1 & ->). exists (es :: ls). split; [|reflexivity]. constructor; [|exact H1]. exists e'. exact Ee.
  Qed.
  Lemma load_config_split config : forall evs config', load_config_patterns config = Ok (evs, config') ->
    exists ls, Forall2 (fun ne es => exists e', load_entry (fst ne) (snd ne) = Ok (es, e')) (entries_of config) ls /\ evs = List.concat ls.
  Proof.
    induction config as [|[k raw] r IH]; intros evs config'; cbn [PatternConf.load_config_patterns]; [intros H; injection H as <- <-; exists []; split; [constructor|reflexivity]|].
    intros H. unfold bind at 1 in H. match type of H with match ?e with _ => _ end = _ => destruct e as [[es raw']|] eqn:Ex end; [|discriminate].
    destruct (load_config_patterns r) as [[es2 c2]|]; cbn [bind] in H; [|discriminate]. injection H as <- <-. cbn [fst snd].
    destruct (IH es2 c2 eq_refl) as (ls & H1 & ->). change (entries_of ((k, raw) :: r)) with (map (pair (key_name k)) (as_list raw) ++ entries_of r).
    assert (G : exists ls1, Forall2 (fun ne es => exists e', load_entry (fst ne) (snd ne) = Ok (es, e'))
                 (map (pair (key_name k)) (as_list raw)) ls1 /\ es = List.concat ls1).
    { destruct raw;
        try solve [exists [es]; split; [repeat constructor; cbn [fst snd]; eauto|simpl; rewrite app_nil_r; reflexivity]].
      destruct (load_entries resolve defaults typed (key_name k) l) as [[es1 l1]|] eqn:El; [|discriminate]. cbn [res_map fst snd] in Ex. injection Ex as <- <-.
      eapply load_entries_split; exact El. }
    destruct G as (ls1 & G1 & ->). exists (ls1 ++ ls). split; [apply Forall2_app; [exact G1|exact H1]|]. symmetry; apply concat_app.
  Qed.

  (** what an option of a registered pattern is *)
  Definition is_pattern_type (k : key) : Prop := In k [KS (lit "regex"); KS (lit "string")].
  Definition option_of (name : str) (entry : dict) (t : str) (k : key) : option val :=
    match (match typed t with Some o => dget o k | None => None end) with
    | Some v => Some v
    | None => if in_dec key_eq_dec k [KS (lit "regex"); KS (lit "string")] then None
              else match dget entry k with
                   | Some v => Some v
                   | None => if key_eqb k (KS (lit "value")) && negb (startswith (lit "_") name) then Some (VStr name) else dget defaults k
                   end
    end.
  Definition good_defaults : Prop :=
    NoDup (dkeys defaults) /\ (forall t o, typed t = Some o -> NoDup (dkeys o)) /\
    forall k, In k [KS (lit "regex"); KS (lit "string"); KS (lit "pattern")] -> dget defaults k = None.

  Lemma load_type_spec decl t evs : load_type resolve typed decl t = Ok evs ->
    (forall o, typed t = Some o -> NoDup (dkeys o)) ->
    (truthy (oget (dget decl (KS t))) = false /\ evs = []) \/
    (truthy (oget (dget decl (KS t))) = true /\ exists opts, evs = [EReg t (as_list (oget (dget decl (KS t)))) opts] /\
      forall k, match (match (match typed t with Some o => dget o k | None => None end) with
                       | Some v => Some v
                       | None => if in_dec key_eq_dec k [KS (lit "regex"); KS (lit "string")] then None else dget decl k
                       end) with
                | Some v => exists v', process_option resolve (key_name k) v = Ok v' /\ dget opts k = Some v'
                | None => dget opts k = None
                end).
  Proof.
    unfold load_type. intros H Hnd. destruct (truthy (oget (dget decl (KS t)))); [right|left; injection H as <-; auto].
    split; [reflexivity|]. unfold load_patterns in H. destruct (process_options resolve _) as [opts|] eqn:Eo in H; cbn [bind] in H; [|discriminate]. injection H as <-.
    exists opts. split; [reflexivity|]. intros k. pose proof (process_options_get resolve _ _ k Eo) as G.
    assert (Ed : dget (fold_left (fun d t => ddel d (KS t)) pattern_types decl) k = if in_dec key_eq_dec k [KS (lit "regex"); KS (lit "string")] then None else dget decl k).
    { unfold pattern_types. cbn [fold_left]. destruct (in_dec key_eq_dec k [KS (lit "regex"); KS (lit "string")]) as [Hi|Hi].
      - destruct Hi as [<-|[<-|[]]]; [rewrite dget_ddel_ne by discriminate; apply dget_ddel_eq|apply dget_ddel_eq].
      - rewrite !dget_ddel_ne; [reflexivity|intros ->; apply Hi; simpl; auto|intros ->; apply Hi; simpl; auto]. }
    destruct (typed t) as [o|].
    - rewrite (dget_dupdate o (Hnd o eq_refl)), Ed in G. destruct (dget o k); exact G.
    - rewrite Ed in G. exact G.
  Qed.
  Lemma base_get name k : dget (if startswith (lit "_") name then defaults else dset defaults (KS (lit "value")) (VStr name)) k =
    if key_eqb k (KS (lit "value")) && negb (startswith (lit "_") name) then Some (VStr name) else dget defaults k.
  Proof.
    destruct (startswith (lit "_") name); cbn [negb]; rewrite ?Bool.andb_false_r, ?Bool.andb_true_r; [reflexivity|].
    destruct (key_eqb k (KS (lit "value"))) eqn:E; [apply key_eqb_eq in E; subst; apply dget_dset_eq|].
    apply dget_dset_ne. intros ->. rewrite key_eqb_refl in E. discriminate.
  Qed.
  Lemma option_of_decl name e t decl k : (forall j, dget decl j = match dget e j with Some v => Some v | None => if key_eqb j (KS (lit "value")) && negb (startswith (lit "_") name) then Some (VStr name) else dget defaults j end) ->
    option_of name e t k = match (match typed t with Some o => dget o k | None => None end) with
                       | Some v => Some v
                       | None => if in_dec key_eq_dec k [KS (lit "regex"); KS (lit "string")] then None else dget decl k
                       end.
  Proof. intros H. unfold option_of. rewrite H. reflexivity. Qed.
End Proofs.
