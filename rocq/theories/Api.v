(** Model of guessit/api.py: the [GuessItApi] object as a state machine.

    Oracles (Section variables, i.e. universally quantified in every theorem):
    - [e]: the file system, the bundled configuration and the configuration file parsers ([Options.env]);
      it is constant, which is the hypothesis "unchanged configuration files";
    - [argparse_str], [argparse_list]: shlex + argparse on an option string / argument list;
    - [builder]: the default rules builder (rules/__init__.py:40-99).  On success it returns the rules
      and the language/country synonym converters it installs globally (language.py:70, country.py:44);
      on failure the converters may have been changed too ([conv_on_failure]);
    - [matcher]: [Rebulk.matches] (the public matches, sorted: names and values), which also reads
      the global converters; [lister]: rebulk's introspection. *)
From Verif Require Import Py Options ToDict.

Section Api.
  Variable R C : Type.
  Variable e : env.
  Variable argparse_str : str -> res dict.
  Variable argparse_list : val -> res dict.
  Variable builder : dict -> res (R * C).
  Variable conv_on_failure : dict -> C -> C.
  Variable matcher : R -> C -> str -> dict -> res (list (key * val)).
  Variable lister : R -> C -> dict -> res dict.

  (** api.py:106-111 *)
  Record api := mk_api {
    a_rebulk : option R;
    a_config : option dict;
    a_lco : option dict;          (* load_config_options *)
    a_adv : option dict           (* advanced_config *)
  }.
  Definition init : api := mk_api None None None None.

  (** options.py:115-136 [parse_options(options, True)] *)
  Definition parse_options (o : val) : res dict :=
    match o with
    | VStr s => argparse_str s
    | VNone => Ok []
    | VDict d => Ok d
    | _ => argparse_list o
    end.

  (** api.py:155-156 and 198-199 *)
  Definition sanitize (o : val) : res dict :=
    d <- parse_options o;
    v <- fix_encoding (VDict d);
    match v with VDict d' => Ok d' | _ => Err TypeError end.

  (** api.py:129-134 *)
  Definition has_same_properties (d1 d2 : dict) (ks : list key) : bool :=
    forallb (fun k => py_eq (oget (dget d1 k)) (oget (dget d2 k))) ks.
  Definition load_keys := [k_config; k_no_user_config; k_no_default_config].

  (** api.py:162-163 *)
  Definition load_sanitized (o : dict) : res dict :=
    c <- load_config e o;
    v <- fix_encoding (VDict c);
    match v with VDict c' => Ok c' | _ => Err TypeError end.

  (** a custom rules builder given to [configure] *)
  Definition custom := dict -> res (R * C).

  (** api.py:136-178 on sanitized options.  Returns the new converters and state, the outcome, and what the
      builder was called with (if it was called). *)
  Definition configure (c : C) (s : api) (options : dict) (b : option custom) (force : bool)
    : C * api * res dict * option dict :=
    let rules_builder := match b with Some f => f | None => builder end in
    let reload :=
      match a_config s, a_lco s with
      | Some _, Some lco => force || negb (has_same_properties lco options load_keys)
      | _, _ => true
      end in
    let loaded :=
      if reload then
        match load_sanitized options with
        | Ok config => (mk_api (a_rebulk s) (a_config s) (Some options) (a_adv s), Ok config)
        | Err x => (s, Err x)
        end
      else (s, Ok (match a_config s with Some config => config | None => [] end)) in
    match loaded with
    | (s1, Err x) => (c, s1, Err x, None)
    | (s1, Ok config) =>
        match merge_options [oget (dget config k_advanced_config); oget (dget options k_advanced_config)] with
        | Err x => (c, s1, Err x, None)
        | Ok adv =>
            let should_build :=
              force
              || match a_rebulk s1 with Some _ => false | None => true end
              || match a_adv s1 with Some (_ :: _) => false | _ => true end
              || match a_adv s1 with Some a => negb (py_eq (VDict a) (VDict adv)) | None => true end in
            if should_build then
              let s2 := mk_api (a_rebulk s1) (a_config s1) (a_lco s1) (Some adv) in
              match rules_builder adv with
              | Ok (r, c') => (c', mk_api (Some r) (Some config) (a_lco s2) (Some adv), Ok config, Some adv)
              | Err x => (conv_on_failure adv c, s2, Err x, Some adv)
              end
            else (c, mk_api (a_rebulk s1) (Some config) (a_lco s1) (a_adv s1), Ok config, None)
        end
    end.

  (** what is given to [guessit]; api.py:190-195 turns a Path into its text *)
  Inductive input := IStr (s : str) | IBytes (s : str) | IPath (s : str).
  Definition input_after_path (i : input) : input := match i with IPath s => IStr s | _ => i end.

  Inductive outcome (A : Type) :=
  | Returns (a : A)
  | GuessitException (i : input) (options : val) (cause : exn)
  | Raises (x : exn).
  Arguments Returns {A} _.
  Arguments GuessitException {A} _ _ _.
  Arguments Raises {A} _.

  (** [str.encode('ascii')] of string values, api.py:214-217 *)
  Definition encode_value (v : val) : res val :=
    match v with VStr s => s' <- decode_ascii s; Ok (VBytes s') | _ => Ok v end.
  Definition encode_matches (ms : list (key * val)) : res (list (key * val)) :=
    mapM (fun m => v <- encode_value (snd m); Ok (fst m, v)) ms.

  (** api.py:205-223, on the merged options *)
  Definition guess_core (r : option R) (c : C) (i : input) (options : dict) : res dict :=
    match r with
    | None => Err AttributeError
    | Some r =>
        match i with
        | IStr s | IPath s => ms <- matcher r c s options; Ok (result_dict options s ms)
        | IBytes b =>
            s <- decode_ascii b;
            ms <- matcher r c s options;
            ms' <- encode_matches ms;
            Ok (result_dict options s ms')
        end
    end.

  (** api.py:224-225: the handler catches [Exception]; argparse's SystemExit is not one.  The exception carries
      the current binding of [options] (sanitized once line 199 is passed; then merged once line 201 is
      passed) and of [string] (decoded once line 206 is passed). *)
  Definition wrap {A} (i : input) (options : val) (x : exn) : outcome A :=
    match x with SystemExit => Raises SystemExit | _ => GuessitException i options x end.

  (** api.py:180-225 *)
  Definition guessit (c : C) (s : api) (i : input) (o : val) : C * api * outcome dict :=
    let i := input_after_path i in
    match sanitize o with
    | Err x => (c, s, wrap i o x)
    | Ok options =>
        match configure c s options None false with
        | (c', s', Err x, _) => (c', s', wrap i (VDict options) x)
        | (c', s', Ok config, _) =>
            match merge_options [VDict config; VDict options] with
            | Err x => (c', s', wrap i (VDict options) x)
            | Ok merged =>
                match guess_core (a_rebulk s') c' i merged with
                | Ok d => (c', s', Returns d)
                | Err x => (c', s', wrap (match i with
                                          | IBytes b => if is_ok (decode_ascii b) then IStr b else i
                                          | _ => i end) (VDict merged) x)
                end
            end
        end
    end.

  (** api.py:227-245 (the ordering of the listing is in [PropsListing.v]; here it is part of [lister]) *)
  Definition properties (c : C) (s : api) (o : val) : C * api * outcome dict :=
    match sanitize o with
    | Err x => (c, s, Raises x)
    | Ok options =>
        match configure c s options None false with
        | (c', s', Err x, _) => (c', s', Raises x)
        | (c', s', Ok config, _) =>
            match merge_options [VDict config; VDict options] with
            | Err x => (c', s', Raises x)
            | Ok merged =>
                match a_rebulk s' with
                | None => (c', s', Raises AttributeError)
                | Some r => match lister r c' merged with
                            | Ok d => (c', s', Returns d)
                            | Err x => (c', s', Raises x)
                            end
                end
            end
        end
    end.

  (** api.py:136-156 as called by users: options are sanitized *)
  Definition configure_call (c : C) (s : api) (o : val) (b : option custom) (force : bool) : C * api * outcome dict :=
    match sanitize o with
    | Err x => (c, s, Raises x)
    | Ok options =>
        match configure c s options b force with
        | (c', s', Ok config, _) => (c', s', Returns config)
        | (c', s', Err x, _) => (c', s', Raises x)
        end
    end.

  Inductive op :=
  | Guess (i : input) (o : val)
  | Properties (o : val)
  | Configure (o : val) (b : option custom) (force : bool)
  | Reset.

  Definition step (w : C * api) (x : op) : (C * api) * outcome dict :=
    let (c, s) := w in
    match x with
    | Guess i o => let '(c', s', r) := guessit c s i o in ((c', s'), r)
    | Properties o => let '(c', s', r) := properties c s o in ((c', s'), r)
    | Configure o b f => let '(c', s', r) := configure_call c s o b f in ((c', s'), r)
    | Reset => ((c, init), Returns [])      (* api.py:113-117 *)
    end.
  Definition run (w : C * api) (ops : list op) : C * api := fold_left (fun w x => fst (step w x)) ops w.

  (** api.py:247-263: suggested_expected, threading the state *)
  Definition k_title := KS (lit "title").
  Fixpoint suggested_expected (c : C) (s : api) (titles : list str) (o : val)
    : C * api * outcome (list str) :=
    match titles with
    | [] => (c, s, Returns [])
    | t :: r =>
        match guessit c s (IStr t) o with
        | (c', s', Returns g) =>
            match suggested_expected c' s' r o with
            | (c'', s'', Returns l) =>
                (c'', s'', Returns (if negb (Nat.eqb (List.length g) 2) || negb (dmem g k_title) then t :: l else l))
            | other => other
            end
        | (c', s', GuessitException i v x) => (c', s', GuessitException i v x)
        | (c', s', Raises x) => (c', s', Raises x)
        end
    end.

  (** Two API objects in one process share the converters (api.py:266 [default_api] and any other instance) *)
  Record world := mk_world { w_conv : C; w_api : bool -> api }.
  Definition wstep (w : world) (who : bool) (x : op) : world * outcome dict :=
    let '((c, s), r) := step (w_conv w, w_api w who) x in
    (mk_world c (fun b => if Bool.eqb b who then s else w_api w b), r).
  Definition wrun (w : world) (ops : list (bool * op)) : world :=
    fold_left (fun w x => fst (wstep w (fst x) (snd x))) ops w.
End Api.
