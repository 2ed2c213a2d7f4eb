(** Properties C09, C10, C11, C13, C44, C45, C47: the API object. *)
From Verif Require Import Py PyFacts Options OptionsProofs ToDict ToDictProofs Api ApiProofs.

(** C09 (and the single-object half of C13): after any history of calls, none of which failed after its
    configuration was loaded and none with a custom rules builder, a call returns (or raises) what
    the same call does on a fresh API object.  The language/country synonyms are part of what the
    matcher sees ([C]), so these are the right ones too.
    Hypotheses on the environment: loading a file and building rules do not distinguish
    values that are [==]. *)
Theorem C09_history_independence :
  forall (R C : Type) (e : env) argparse_str argparse_list
         (builder : dict -> res (R * C)) conv_on_failure matcher lister,
  (forall a b, py_eq a b = true -> env_load e a = env_load e b) ->
  (forall a b, py_eq (VDict a) (VDict b) = true -> builder a = builder b) ->
  forall ops x c0 c1,
  Forall (default_builder R C) ops ->
  Forall (builds R C e argparse_str argparse_list builder) ops ->
  default_builder R C x ->
  let step := step R C e argparse_str argparse_list builder conv_on_failure matcher lister in
  let run := run R C e argparse_str argparse_list builder conv_on_failure matcher lister in
  snd (step (run (c0, init R) ops) x) = snd (step (c1, init R) x).
Proof. exact history_independence. Qed.
Print Assumptions C09_history_independence.

(** C10: a call whose configuration files cannot be loaded changes nothing. *)
Theorem C10_load_failure_changes_nothing :
  forall (R C : Type) (e : env) argparse_str argparse_list builder conv_on_failure matcher lister
         c s (x : op R C) o d xx,
  op_options R C x = Some o -> sanitize argparse_str argparse_list o = Ok d -> load_sanitized e d = Err xx ->
  (match x with Configure _ _ _ _ true => True | _ =>
     match a_config R s, a_lco R s with
     | Some _, Some lco => has_same_properties lco d load_keys = false
     | _, _ => True
     end end) ->
  fst (step R C e argparse_str argparse_list builder conv_on_failure matcher lister (c, s) x) = (c, s).
Proof. exact load_failure_unchanged. Qed.
Print Assumptions C10_load_failure_changes_nothing.

(** C10: reset gives back the fresh state. *)
Theorem C10_reset : forall (R C : Type) e ap al b cf m l c s,
  snd (fst (step R C e ap al b cf m l (c, s) (Reset R C))) = init R.
Proof. reflexivity. Qed.
Print Assumptions C10_reset.

(** A small concrete world for the witnesses: rules are the advanced configuration they were built from,
    rules with an entry "bad" cannot be built, a guess shows the [type] option and the rule "a". *)
Definition ex_env : env := {|
  env_default := [(KS (lit "type"), VStr (lit "movie")); (KS (lit "advanced_config"), VDict [(KS (lit "a"), VInt 1)])];
  env_home := lit "/h"; env_cwd := lit "/c"; env_yaml := false;
  env_exists := fun _ => false;
  env_load := fun f => if py_eq f (VStr (lit "f.json")) then Ok (VDict [(KS (lit "type"), VStr (lit "episode"))])
                       else Err ConfigurationException |}.
Definition ex_builder (a : dict) : res (val * val) :=
  if dmem a (KS (lit "bad")) then Err KeyError
  else Ok (match dget a (KS (lit "a")) with Some (VInt 1) => VInt 1 | Some _ => VInt 2 | None => VNone end,
           match dget a (KS (lit "syn")) with Some _ => VInt 1 | None => VInt 0 end).
Definition ex_matcher (r c : val) (s : str) (o : dict) : res (list (key * val)) :=
  Ok [(KS (lit "type"), oget (dget o (KS (lit "type")))); (KS (lit "rule"), r); (KS (lit "syn"), c)].
Definition ex_step := step val val ex_env (fun _ => Err SystemExit) (fun _ => Err SystemExit) ex_builder
                        (fun _ c => c) ex_matcher (fun _ _ _ => Ok []).
Definition ex_run := run val val ex_env (fun _ => Err SystemExit) (fun _ => Err SystemExit) ex_builder
                        (fun _ c => c) ex_matcher (fun _ _ _ => Ok []).
Definition ex_guess (o : dict) : op val val := Guess val val (IStr (lit "x")) (VDict o).

(** C10 limit: building fails after an earlier success; the same call repeated silently succeeds,
    with the old rules. *)
Theorem C10_failed_build_leaks_refuted :
  exists ops x d,
    snd (ex_step (VInt 0, init val) x) = GuessitException dict (IStr (lit "x"))
        (VDict [(KS (lit "advanced_config"), VDict [(KS (lit "bad"), VInt 1)])]) KeyError /\
    snd (ex_step (ex_run (VInt 0, init val) ops) x) = Returns dict d.
Proof.
  exists [ex_guess []; ex_guess [(KS (lit "advanced_config"), VDict [(KS (lit "bad"), VInt 1)])]].
  exists (ex_guess [(KS (lit "advanced_config"), VDict [(KS (lit "bad"), VInt 1)])]).
  vm_compute. eexists; split; reflexivity.
Qed.
Print Assumptions C10_failed_build_leaks_refuted.

(** C10 limit: a call whose advanced_config cannot be merged leaves its load options behind; the next call
    with the same files then uses the old configuration ("movie" although f.json says "episode"). *)
Theorem C10_failed_merge_leaks_refuted :
  exists ops x d1 d2,
    snd (ex_step (VInt 0, init val) x) = Returns dict d1 /\ dget d1 (KS (lit "type")) = Some (VStr (lit "episode")) /\
    snd (ex_step (ex_run (VInt 0, init val) ops) x) = Returns dict d2 /\ dget d2 (KS (lit "type")) = Some (VStr (lit "movie")).
Proof.
  exists [ex_guess []; ex_guess [(KS (lit "config"), VList [VStr (lit "f.json")]); (KS (lit "advanced_config"), VStr (lit "bogus"))]].
  exists (ex_guess [(KS (lit "config"), VList [VStr (lit "f.json")])]).
  vm_compute. do 2 eexists; repeat split; reflexivity.
Qed.
Print Assumptions C10_failed_merge_leaks_refuted.

(** C09 limit: a custom rules builder given to configure() is lost by the first guess whose advanced
    configuration differs. *)
Theorem C09_custom_builder_lost_refuted :
  exists custom ops d1 d2,
    custom = (fun _ : dict => Ok (VInt 99, VInt 0)) /\
    snd (ex_step (ex_run (VInt 0, init val) ops) (ex_guess [])) = Returns dict d1 /\ dget d1 (KS (lit "rule")) = Some (VInt 99) /\
    snd (ex_step (ex_run (VInt 0, init val) (ops ++ [ex_guess [(KS (lit "advanced_config"), VDict [(KS (lit "a"), VInt 5)])]])) (ex_guess []))
      = Returns dict d2 /\ dget d2 (KS (lit "rule")) = Some (VInt 1).
Proof.
  exists (fun _ => Ok (VInt 99, VInt 0)), [Configure val val (VDict []) (Some (fun _ => Ok (VInt 99, VInt 0))) false].
  vm_compute. do 2 eexists; repeat split; reflexivity.
Qed.
Print Assumptions C09_custom_builder_lost_refuted.

(** C11: rules are (re)built exactly in these cases, from the effective advanced configuration; otherwise the rules object,
    the recorded configuration and the synonyms are untouched. *)
Theorem C11_rebuild_iff :
  forall (R C : Type) (e : env) builder conv_on_failure c s d b force config adv,
  let '(c', s', r, calls) := configure R C e builder conv_on_failure c s d b force in
  (if match a_config R s, a_lco R s with
      | Some _, Some lco => force || negb (has_same_properties lco d load_keys)
      | _, _ => true end
   then load_sanitized e d = Ok config else a_config R s = Some config) ->
  effective_adv config d = Ok adv ->
  (calls <> None <->
     force = true \/ a_rebulk R s = None \/ a_adv R s = None \/ a_adv R s = Some [] \/
     exists a, a_adv R s = Some a /\ py_eq (VDict a) (VDict adv) = false) /\
  (calls <> None -> calls = Some adv) /\
  (calls = None -> a_rebulk R s' = a_rebulk R s /\ a_adv R s' = a_adv R s /\ c' = c).
Proof. exact rebuild_iff. Qed.
Print Assumptions C11_rebuild_iff.

(** C13: two API objects; building rules in one changes the synonyms used by the other. *)
Theorem C13_instances_interfere_refuted :
  let wstep := wstep val val ex_env (fun _ => Err SystemExit) (fun _ => Err SystemExit) ex_builder
                 (fun _ c => c) ex_matcher (fun _ _ _ => Ok []) in
  let wrun := wrun val val ex_env (fun _ => Err SystemExit) (fun _ => Err SystemExit) ex_builder
                 (fun _ c => c) ex_matcher (fun _ _ _ => Ok []) in
  exists d1 d2,
    let w0 := mk_world val val (VInt 0) (fun _ => init val) in
    let other := (false, ex_guess [(KS (lit "advanced_config"), VDict [(KS (lit "syn"), VInt 1)])]) in
    snd (wstep (wrun w0 [(true, ex_guess [])]) true (ex_guess [])) = Returns dict d1 /\
    snd (wstep (wrun w0 [(true, ex_guess []); other]) true (ex_guess [])) = Returns dict d2 /\
    dget d1 (KS (lit "syn")) = Some (VInt 0) /\ dget d2 (KS (lit "syn")) = Some (VInt 1).
Proof. vm_compute. do 2 eexists; repeat split; reflexivity. Qed.
Print Assumptions C13_instances_interfere_refuted.

(** C13: as long as only one object is used, it sees its own synonyms: its calls are those of [step],
    to which C09 applies. *)
Theorem C13_one_object_own_synonyms :
  forall (R C : Type) (e : env) argparse_str argparse_list
         (builder : dict -> res (R * C)) conv_on_failure matcher lister,
  (forall a b, py_eq a b = true -> env_load e a = env_load e b) ->
  (forall a b, py_eq (VDict a) (VDict b) = true -> builder a = builder b) ->
  forall (who : bool) ops x c0 c1 apis,
  apis who = init R ->
  Forall (default_builder R C) ops -> Forall (builds R C e argparse_str argparse_list builder) ops ->
  default_builder R C x ->
  snd (wstep R C e argparse_str argparse_list builder conv_on_failure matcher lister
         (wrun R C e argparse_str argparse_list builder conv_on_failure matcher lister
            (mk_world R C c0 apis) (map (fun o => (who, o)) ops)) who x)
  = snd (step R C e argparse_str argparse_list builder conv_on_failure matcher lister (c1, init R) x).
Proof.
  intros R C e ap al b cf m l Hl Hb who ops x c0 c1 apis Hi Hd Hbd Hx.
  assert (G : forall ops w, 
    let w' := wrun R C e ap al b cf m l w (map (fun o => (who, o)) ops) in
    (w_conv R C w', w_api R C w' who) = run R C e ap al b cf m l (w_conv R C w, w_api R C w who) ops).
  { clear. induction ops as [|y ops IH]; intros w; [reflexivity|].
    cbn [map]. unfold wrun, run in *; cbn [fold_left fst snd].
    rewrite IH. f_equal. unfold wstep.
    destruct (step R C e ap al b cf m l (w_conv R C w, w_api R C w who) y) as [[c s] r].
    cbn [fst w_conv w_api]. rewrite eqb_reflx; reflexivity. }
  specialize (G ops (mk_world R C c0 apis)); cbn zeta in G. cbn [w_conv w_api] in G. rewrite Hi in G.
  rewrite <- (history_independence R C e ap al b cf m l Hl Hb ops x c0 c1 Hd Hbd Hx).
  unfold wstep. rewrite G.
  destruct (step R C e ap al b cf m l (run R C e ap al b cf m l (c0, init R) ops) x) as [[c s] r]; reflexivity.
Qed.
Print Assumptions C13_one_object_own_synonyms.

(** C44: keys of the result: the names of the matches in order of first occurrence. *)
Theorem C44_keys : forall fv enf ms, dkeys (to_dict fv enf ms) = first_names [] ms.
Proof. exact to_dict_keys. Qed.
Print Assumptions C44_keys.
(** C44: values: the distinct values in order; one value alone unless enforce_list. *)
Theorem C44_values : forall enf ms name,
  Forall (fun m => not_list (snd m)) ms ->
  match values_of name ms with
  | [] => dget (to_dict false enf ms) name = None
  | v :: vs => exists out, firsts [v] vs out /\
      dget (to_dict false enf ms) name =
      Some (match v :: out with [x] => if enf then VList [x] else x | l => VList l end)
  end.
Proof.
  intros enf ms name H. pose proof (to_dict_value enf ms name H) as G. revert G.
  destruct (values_of name ms) as [|v vs]; [trivial|]. intros (out & Hf & He). exists out; split; [exact Hf|].
  rewrite He. destruct out; reflexivity.
Qed.
Print Assumptions C44_values.
(** C44: single_value keeps the first value only. *)
Theorem C44_single_value : forall enf ms name,
  Forall (fun m => not_list (snd m)) ms ->
  match values_of name ms with
  | [] => dget (to_dict true enf ms) name = None
  | v :: vs => dget (to_dict true enf ms) name = Some (if enf then VList [v] else v)
  end.
Proof. exact to_dict_first. Qed.
Print Assumptions C44_single_value.
(** C44: input_string is added iff requested, everything else is the same. *)
Theorem C44_input_string : forall options input ms,
  let d := to_dict (otruthy (dget options (KS (lit "single_value")))) (otruthy (dget options (KS (lit "enforce_list")))) ms in
  (otruthy (dget options (KS (lit "output_input_string"))) = false -> result_dict options input ms = d) /\
  (otruthy (dget options (KS (lit "output_input_string"))) = true ->
     dget (result_dict options input ms) (KS (lit "input_string")) = Some (VStr input) /\
     forall k, k <> KS (lit "input_string") -> dget (result_dict options input ms) k = dget d k).
Proof.
  intros options input ms d; unfold result_dict; fold d; unfold k_output_input_string. split; intros ->.
  - reflexivity.
  - split; [apply dget_dset_eq|]. intros k Hk; apply dget_dset_ne; exact Hk.
Qed.
Print Assumptions C44_input_string.
Example ex_to_dict :
  to_dict false false [(KS (lit "a"), VInt 1); (KS (lit "b"), VStr (lit "x")); (KS (lit "a"), VInt 2); (KS (lit "a"), VInt 1)]
  = [(KS (lit "a"), VList [VInt 1; VInt 2]); (KS (lit "b"), VStr (lit "x"))].
Proof. reflexivity. Qed.

(** C45 *)
Theorem C45_suggested_expected :
  forall (R C : Type) (e : env) argparse_str argparse_list (builder : dict -> res (R * C)) conv_on_failure matcher
         (lister : R -> C -> dict -> res dict),
  (forall a b, py_eq a b = true -> env_load e a = env_load e b) ->
  (forall a b, py_eq (VDict a) (VDict b) = true -> builder a = builder b) ->
  forall c0 o (g : str -> dict),
  builds R C e argparse_str argparse_list builder (Guess R C (IStr []) o) ->
  forall titles c s, Good R C e builder c s ->
  (forall t, In t titles ->
     snd (guessit R C e argparse_str argparse_list builder conv_on_failure matcher c0 (init R) (IStr t) o) = Returns dict (g t)) ->
  snd (suggested_expected R C e argparse_str argparse_list builder conv_on_failure matcher c s titles o) =
  Returns (list str) (filter (fun t => negb (Nat.eqb (List.length (g t)) 2 && dmem (g t) (KS (lit "title")))) titles).
Proof. exact suggested_filter. Qed.
Print Assumptions C45_suggested_expected.

(** C47: bytes in, bytes out ([enc_dict] turns every string value, alone or in a list, into bytes).
    The text returned as input_string is not encoded. *)
Theorem C47_bytes_like_text :
  forall (R C : Type) (e : env) argparse_str argparse_list builder conv_on_failure matcher c s b o d,
  ascii_str b ->
  (forall r cc opts ms, matcher r cc b opts = Ok ms ->
      Forall (fun m => textual (snd m) /\ ascii_val (snd m)) ms) ->
  let guessit := guessit R C e argparse_str argparse_list builder conv_on_failure matcher in
  snd (guessit c s (IStr b) o) = Returns dict d ->
  fst (guessit c s (IBytes b) o) = fst (guessit c s (IStr b) o) /\
  (snd (guessit c s (IBytes b) o) = Returns dict (enc_dict d) \/
   exists d0, d = dset d0 k_input_string (VStr b) /\
     snd (guessit c s (IBytes b) o) = Returns dict (dset (enc_dict d0) k_input_string (VStr b))).
Proof. exact bytes_like_str. Qed.
Print Assumptions C47_bytes_like_text.

(** C47: guessit() only ever raises GuessitException (or argparse's SystemExit). *)
Theorem C47_only_guessit_exception :
  forall (R C : Type) (e : env) argparse_str argparse_list builder conv_on_failure matcher c s i o x,
  snd (guessit R C e argparse_str argparse_list builder conv_on_failure matcher c s i o) = Raises dict x -> x = SystemExit.
Proof. exact never_raises. Qed.
Print Assumptions C47_only_guessit_exception.

(** C47: the exception carries the input (its text). *)
Theorem C47_exception_carries_input :
  forall (R C : Type) (e : env) argparse_str argparse_list builder conv_on_failure matcher c s i o j v x,
  snd (guessit R C e argparse_str argparse_list builder conv_on_failure matcher c s i o) = GuessitException dict j v x ->
  same_text i j /\ x <> SystemExit.
Proof. exact exception_input. Qed.
Print Assumptions C47_exception_carries_input.

Theorem C47_non_ascii_bytes_rejected :
  forall (R C : Type) (e : env) argparse_str argparse_list builder conv_on_failure matcher c s b o d,
  ~ ascii_str b ->
  snd (guessit R C e argparse_str argparse_list builder conv_on_failure matcher c s (IBytes b) o) <> Returns dict d.
Proof. exact non_ascii_fails. Qed.
Print Assumptions C47_non_ascii_bytes_rejected.

(** Non-vacuity: the example world meets the hypotheses of C09, with a non-trivial history. *)
Example ex_load_respects_eq : forall a b, py_eq a b = true -> env_load ex_env a = env_load ex_env b.
Proof.
  intros a b H; simpl. assert (E : py_eq a (VStr (lit "f.json")) = py_eq b (VStr (lit "f.json"))); [|rewrite E; reflexivity].
  destruct a, b; simpl in *; try discriminate; try reflexivity.
  apply str_eqb_eq in H; subst; reflexivity.
Qed.
Example ex_builds :
  let o := [(KS (lit "config"), VList [VStr (lit "f.json")]); (KS (lit "advanced_config"), VDict [(KS (lit "a"), VInt 7)])] in
  builds val val ex_env (fun _ => Err SystemExit) (fun _ => Err SystemExit) ex_builder (ex_guess o) /\
  exists d, snd (ex_step (ex_run (VInt 0, init val) [ex_guess o; ex_guess []]) (ex_guess [])) = Returns dict d
            /\ dget d (KS (lit "rule")) = Some (VInt 1).
Proof.
  split.
  - intros d config Hs Hl; vm_compute in Hs; injection Hs as <-. vm_compute in Hl; injection Hl as <-.
    do 2 eexists; split; vm_compute; reflexivity.
  - vm_compute; eexists; split; reflexivity.
Qed.
Example ex_bytes :
  let g := guessit val val ex_env (fun _ => Err SystemExit) (fun _ => Err SystemExit) ex_builder (fun _ c => c) ex_matcher in
  snd (g (VInt 0) (init val) (IBytes (lit "x")) VNone) =
  Returns dict [(KS (lit "type"), VBytes (lit "movie")); (KS (lit "rule"), VInt 1); (KS (lit "syn"), VInt 0)].
Proof. vm_compute; reflexivity. Qed.
