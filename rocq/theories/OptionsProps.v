(** Properties C01-C04, C06-C08, C12: option layering, configuration loading, sanitising.
    Layers are Python dicts ([wf]: unique keys). *)
From Verif Require Import Py PyFacts Options OptionsSpec OptionsProofs.

(** C01: with layers [first], [rest] (no [pristine] among the later ones), an option whose values are
    never lists/dicts gets the last value other than None; failing that what [first] says. *)
Theorem C01_last_defined_wins : forall k first rest m,
  k <> KS (lit "pristine") ->
  Forall (fun d => wf (VDict d)) (first :: rest) ->
  Forall no_pristine rest ->
  Forall (fun d => forall v, dget d k = Some v -> plain v) (first :: rest) ->
  merge_options (map VDict (first :: rest)) = Ok m ->
  dget m k = match last_defined k rest with Some v => Some v | None => dget first k end.
Proof. exact last_wins. Qed.
Print Assumptions C01_last_defined_wins.

(** C01: no option is invented, and [pristine] never comes from a later layer. *)
Theorem C01_no_invented_key : forall first rest m k v,
  Forall (fun d => wf (VDict d)) (first :: rest) ->
  merge_options (map VDict (first :: rest)) = Ok m -> dget m k = Some v ->
  dget first k <> None \/ (k <> KS (lit "pristine") /\ exists d, In d rest /\ dget d k <> None).
Proof. exact merge_keys. Qed.
Print Assumptions C01_no_invented_key.

(** C01-C04: adding one more layer puts it over what was merged, key by key and at every depth,
    according to the specification [over]. *)
Theorem C01_C04_merge_refines_spec : forall ls b c,
  ls <> [] -> Forall wf ls -> wf (VDict b) ->
  merge_options (ls ++ [VDict b]) = Ok c ->
  exists a, merge_options ls = Ok a /\ over a b c.
Proof. exact merge_options_step. Qed.
Print Assumptions C01_C04_merge_refines_spec.

(** C01: a layer that omits the option, or gives None, leaves it alone. *)
Theorem C01_omitted_unchanged : forall ls b c k,
  ls <> [] -> Forall wf ls -> wf (VDict b) -> no_pristine b ->
  k <> KS (lit "pristine") -> dget b k = None \/ dget b k = Some VNone ->
  merge_options (ls ++ [VDict b]) = Ok c ->
  exists a, merge_options ls = Ok a /\ dget c k = dget a k.
Proof.
  intros ls b c k Hne Hls Hb Hnp Hk Hg H.
  destruct (merge_options_step ls b c Hne Hls Hb H) as (a & Ha & Ho).
  exists a; split; [exact Ha|]. inversion Ho as [? ? ? _ _ H2 _ _]; subst.
  assert (Hnd : ~ discards b k) by (intros (p & Hp & _); unfold no_pristine in Hnp; congruence).
  specialize (H2 k Hk Hnd).
  destruct Hg as [Hg|Hg]; rewrite Hg in H2; inversion H2; congruence.
Qed.
Print Assumptions C01_omitted_unchanged.

(** C02: list over list. *)
Theorem C02_lists_accumulate : forall ls b a c k l items,
  ls <> [] -> Forall wf ls -> wf (VDict b) -> k <> KS (lit "pristine") -> ~ discards b k ->
  merge_options ls = Ok a -> merge_options (ls ++ [VDict b]) = Ok c ->
  dget a k = Some (VList l) -> dget b k = Some (VList items) ->
  exists added, dget c k = Some (VList (l ++ added)) /\ fresh_elems l items added /\
    (forall x, In x added -> In x items /\ x <> VNone) /\
    (forall x, In x items -> x <> VNone -> exists y, In y (l ++ added) /\ py_eq y x = true) /\
    (forall i j x y, (i < j)%nat -> (List.length l <= j)%nat ->
       nth_error (l ++ added) i = Some x -> nth_error (l ++ added) j = Some y -> py_eq x y = false).
Proof.
  intros ls b a c k l items Hne Hls Hb Hk Hnd Ha Hc Hga Hgb.
  destruct (merge_options_step ls b c Hne Hls Hb Hc) as (a' & Ha' & Ho).
  assert (a' = a) by congruence; subst a'.
  inversion Ho as [? ? ? _ _ H2 _ _]; subst. specialize (H2 k Hk Hnd).
  rewrite Hga, Hgb in H2.
  inversion H2 as [| | |? ? Hpl| ? ? it added Hn Hit Hf| |]; subst; [destruct Hpl|].
  injection Hit as <-. exists added; split; [congruence|]. split; [exact Hf|].
  apply fresh_elems_spec; [|exact Hf]. apply wf_list_iff; eapply wf_dget; eassumption.
Qed.
Print Assumptions C02_lists_accumulate.

(** C02: the appended elements are determined. *)
Theorem C02_deterministic : forall seen l a b,
  fresh_elems seen l a -> fresh_elems seen l b -> a = b.
Proof. intros seen l a b Ha Hb; exact (fresh_elems_fun seen l a Ha b Hb). Qed.
Print Assumptions C02_deterministic.

(** C03: dict over dict is the recursive merge of the two dicts. *)
Theorem C03_dicts_merge_recursively : forall a b c k x y,
  k <> k_pristine -> dget a k = Some (VDict x) -> dget b k = Some (VDict y) -> ~ discards b k ->
  wf (VDict a) -> wf (VDict b) ->
  merge_options [VDict a; VDict b] = Ok c ->
  exists z, dget c k = Some (VDict z) /\ merge_options [VDict x; VDict y] = Ok z.
Proof. exact over_dict_value. Qed.
Print Assumptions C03_dicts_merge_recursively.

(** C04: [pristine: true] discards everything that precedes. *)
Theorem C04_pristine_true : forall ls b rest m,
  ls <> [] -> merge_options ls = Ok m -> dget b k_pristine = Some (VBool true) ->
  merge_options (ls ++ VDict b :: rest) = merge_options (VDict [] :: VDict b :: rest).
Proof. exact pristine_true. Qed.
Print Assumptions C04_pristine_true.

(** C04: [pristine: [names]] discards exactly the named options; the others are put over as usual. *)
Theorem C04_pristine_names : forall ls b a c names_list,
  ls <> [] -> Forall wf ls -> wf (VDict b) ->
  merge_options ls = Ok a -> merge_options (ls ++ [VDict b]) = Ok c ->
  dget b (KS (lit "pristine")) = Some (VList names_list) ->
  (forall k, k <> KS (lit "pristine") -> In (val_of_key k) names_list -> put_over None (dget b k) (dget c k)) /\
  (forall k, k <> KS (lit "pristine") -> ~ In (val_of_key k) names_list -> put_over (dget a k) (dget b k) (dget c k)).
Proof.
  intros ls b a c nl Hne Hls Hb Ha Hc Hp.
  destruct (merge_options_step ls b c Hne Hls Hb Hc) as (a' & Ha' & Ho).
  assert (a' = a) by congruence; subst a'.
  assert (Hd : forall k, discards b k <-> In (val_of_key k) nl).
  { intros k; unfold discards, names; split.
    - intros (p & Hp' & Hor); rewrite Hp in Hp'; injection Hp' as <-.
      destruct Hor as [Hor|(l & Hl & Hin)]; [discriminate|]. injection Hl as <-; exact Hin.
    - intros Hin; eexists; split; [exact Hp|]. right; exists nl; split; [reflexivity|exact Hin]. }
  inversion Ho as [? ? ? _ H1 H2 _ _]; subst; split; intros k Hk Hin.
  - apply H1; [exact Hk|apply Hd; exact Hin].
  - apply H2; [exact Hk|intros Hc'; apply Hin, Hd; exact Hc'].
Qed.
Print Assumptions C04_pristine_names.

(** C04 limit: [pristine] of the first layer is not interpreted but copied into the result. *)
Theorem C04_first_pristine_copied_refuted :
  exists first, merge_options [VDict first] = Ok first /\
                dget first (KS (lit "pristine")) = Some (VBool true).
Proof. exists [(KS (lit "pristine"), VBool true)]; split; reflexivity. Qed.
Print Assumptions C04_first_pristine_copied_refuted.

(** C06: merging one more dict succeeds exactly when the two are [mergeable]. *)
Theorem C06_merge_succeeds_iff_mergeable : forall ls a b,
  ls <> [] -> Forall wf ls -> wf (VDict b) -> merge_options ls = Ok a ->
  ((exists c, merge_options (ls ++ [VDict b]) = Ok c) <-> mergeable a b).
Proof. exact merge_options_total. Qed.
Print Assumptions C06_merge_succeeds_iff_mergeable.

(** C06: other layers: a falsy one is skipped, a truthy non-dict one raises. *)
Theorem C06_other_layers : forall ls l a,
  ls <> [] -> merge_options ls = Ok a -> (forall d, l <> VDict d) ->
  merge_options (ls ++ [l]) = if truthy l then Err AttributeError else Ok a.
Proof.
  intros ls l a Hne Ha Hl; rewrite merge_options_snoc by exact Hne; rewrite Ha; cbn [bind].
  destruct (truthy l) eqn:Et; [apply merge_layer_not_dict|apply merge_layer_falsy]; assumption.
Qed.
Print Assumptions C06_other_layers.

(** C07: the layers and their order. *)
Theorem C07_layer_order : forall e o files vals_user vals_files,
  dget o k_config = Some (VList files) \/ (otruthy (dget o k_config) = false /\ files = []) ->
  Forall2 (fun f v => env_load e f = Ok v) 
    (if otruthy (dget o k_no_user_config) then []
     else map VStr (filter (env_exists e)
                     (get_options_file_locations (env_home e) (env_cwd e) (env_yaml e)))) vals_user ->
  Forall2 (fun f v => env_load e f = Ok v) files vals_files ->
  load_config e o =
   (config <- merge_options ((if otruthy (dget o k_no_default_config) then [] else [VDict (env_default e)])
                             ++ filter truthy vals_user ++ filter truthy vals_files);
    if dmem config k_advanced_config then Ok config
    else match dget (env_default e) k_advanced_config with
         | Some a => Ok (dset config k_advanced_config a)
         | None => Err KeyError
         end).
Proof. exact load_config_eq. Qed.
Print Assumptions C07_layer_order.

Theorem C07_depends_only_on_three_options : forall e o o',
  dget o k_config = dget o' k_config ->
  dget o k_no_user_config = dget o' k_no_user_config ->
  dget o k_no_default_config = dget o' k_no_default_config ->
  load_config e o = load_config e o'.
Proof. exact load_config_frame. Qed.
Print Assumptions C07_depends_only_on_three_options.

Theorem C07_advanced_config_always_there : forall e o c,
  load_config e o = Ok c -> exists a, dget c (KS (lit "advanced_config")) = Some a.
Proof. exact load_config_adv. Qed.
Print Assumptions C07_advanced_config_always_there.

(** C08 *)
Theorem C08_locations : forall home cwd yaml,
  get_options_file_locations home cwd yaml =
  flat_map (fun stem => map (fun ext => stem ++ ext)
                          (if yaml then [lit ".json"; lit ".yaml"; lit ".yml"] else [lit ".json"]))
    [path_join (path_join home (lit ".guessit")) (lit "options");
     path_join (path_join (path_join home (lit ".config")) (lit "guessit")) (lit "options");
     path_join cwd (lit "guessit.options")].
Proof.
  assert (Hj : forall a b e, path_join a (b ++ e) = path_join a b ++ e).
  { intros [|x a] b e; [reflexivity|]. unfold path_join.
    destruct (endswith _ _); rewrite <- ?app_assoc; reflexivity. }
  intros home cwd [|]; unfold get_options_file_locations; cbn [flat_map map app fst snd];
    rewrite !Hj; reflexivity.
Qed.
Print Assumptions C08_locations.

(** C12 *)
Theorem C12_no_bytes_left_same_shape : forall v v',
  no_clash v -> fix_encoding v = Ok v' -> decoded v v' /\ no_bytes v'.
Proof. intros v v' H; exact (fix_encoding_shape v v' H). Qed.
Print Assumptions C12_no_bytes_left_same_shape.

Theorem C12_identity_without_bytes : forall v, wf v -> no_bytes v -> fix_encoding v = Ok v.
Proof. exact fix_encoding_id. Qed.
Print Assumptions C12_identity_without_bytes.

Theorem C12_raises_iff_non_ascii : forall v, (exists v', fix_encoding v = Ok v') <-> ascii_bytes v.
Proof. exact fix_encoding_ok. Qed.
Print Assumptions C12_raises_iff_non_ascii.

(** C12 limit: a text key and a byte key with the same characters are merged into one entry. *)
Theorem C12_key_clash_refuted :
  exists v, wf v /\ fix_encoding v = Ok (VDict [(KS (lit "a"), VInt 2)]) /\
            v = VDict [(KS (lit "a"), VInt 1); (KB (lit "a"), VInt 2)].
Proof.
  exists (VDict [(KS (lit "a"), VInt 1); (KB (lit "a"), VInt 2)]); repeat split.
  repeat constructor; simpl; intuition discriminate.
Qed.
Print Assumptions C12_key_clash_refuted.

(** Non-vacuity: a concrete three-layer merge that meets the hypotheses above. *)
Definition ex_first : dict :=
  [(KS (lit "type"), VStr (lit "movie")); (KS (lit "expected_title"), VList [VStr (lit "a")]);
   (KS (lit "advanced_config"), VDict [(KS (lit "x"), VInt 1); (KS (lit "y"), VList [VInt 1])])].
Definition ex_second : dict :=
  [(KS (lit "type"), VNone); (KS (lit "expected_title"), VList [VStr (lit "b"); VNone; VStr (lit "a"); VStr (lit "b")]);
   (KS (lit "advanced_config"), VDict [(KS (lit "y"), VList [VInt 2; VBool true]); (KS (lit "z"), VInt 3)])].
Example ex_merge :
  merge_options [VDict ex_first; VDict ex_second] =
  Ok [(KS (lit "type"), VStr (lit "movie"));
      (KS (lit "expected_title"), VList [VStr (lit "a"); VStr (lit "b")]);
      (KS (lit "advanced_config"), VDict [(KS (lit "x"), VInt 1); (KS (lit "y"), VList [VInt 1; VInt 2]);
                                          (KS (lit "z"), VInt 3)])].
Proof. vm_compute. reflexivity. Qed.
Example ex_wf : Forall wf [VDict ex_first; VDict ex_second].
Proof. repeat constructor; simpl; intuition discriminate. Qed.
Example ex_no_pristine : no_pristine ex_second.
Proof. reflexivity. Qed.
Example ex_mergeable : mergeable ex_first ex_second.
Proof.
  apply (C06_merge_succeeds_iff_mergeable [VDict ex_first]).
  - discriminate.
  - repeat constructor; simpl; intuition discriminate.
  - repeat constructor; simpl; intuition discriminate.
  - reflexivity.
  - eexists; vm_compute; reflexivity.
Qed.
Example ex_not_mergeable : ~ mergeable [(KS (lit "a"), VList [])] [(KS (lit "a"), VInt 1)].
Proof.
  intros H; inversion H as [? ? _ Hall]; subst.
  specialize (Hall (KS (lit "a")) (VInt 1) ltac:(discriminate) eq_refl).
  assert (Hn : ~ discards [(KS (lit "a"), VInt 1)] (KS (lit "a"))) by (intros (p & Hp & _); discriminate).
  specialize (Hall Hn); inversion Hall; subst; simpl in *; contradiction.
Qed.
Example ex_pristine :
  merge_options [VDict ex_first; VDict [(KS (lit "pristine"), VList [VStr (lit "expected_title")])]] =
  Ok [(KS (lit "type"), VStr (lit "movie"));
      (KS (lit "advanced_config"), VDict [(KS (lit "x"), VInt 1); (KS (lit "y"), VList [VInt 1])])].
Proof. vm_compute; reflexivity. Qed.
Example ex_fix : fix_encoding (VDict [(KB (lit "t"), VList [VBytes (lit "ab"); VInt 3])])
                 = Ok (VDict [(KS (lit "t"), VList [VStr (lit "ab"); VInt 3])]).
Proof. reflexivity. Qed.
