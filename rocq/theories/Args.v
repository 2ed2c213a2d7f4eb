(** Model of the command line options: options.py:30-107 [build_argument_parser] and :110-135 [parse_options]; the parts of argparse (Python
    3.11) this parser uses are transcribed: [_parse_known_args], [_parse_optional], [_get_option_tuples], [_get_values]. Every error of the
    parser, and --help, leave by SystemExit. *)
From Verif Require Import Py.

Inductive kind := KFlag | KSingle | KAppend | KHelp.
(** dest, option strings, store_true or store or append, default *)
Record action := mk_a { a_dest : str; a_strings : list str; a_kind : kind; a_default : val }.
Definition flag (dest : string) (strings : list string) : action := mk_a (lit dest) (map lit strings) KFlag VNone.
Definition one (dest : string) (strings : list string) : action := mk_a (lit dest) (map lit strings) KSingle VNone.
Definition many (dest : string) (strings : list string) : action := mk_a (lit dest) (map lit strings) KAppend VNone.
(** options.py:36-105: the calls of add_argument, in order; [opts = ArgumentParser()] adds -h first (its default is suppressed) *)
Definition help_action : action := mk_a (lit "help") [lit "-h"; lit "--help"] KHelp VNone.
Definition named_actions : list action :=
  [ one "type" ["-t"; "--type"]; flag "name_only" ["-n"; "--name-only"]; flag "date_year_first" ["-Y"; "--date-year-first"];
    flag "date_day_first" ["-D"; "--date-day-first"]; many "allowed_languages" ["-L"; "--allowed-languages"];
    many "allowed_countries" ["-C"; "--allowed-countries"]; flag "episode_prefer_number" ["-E"; "--episode-prefer-number"];
    many "expected_title" ["-T"; "--expected-title"]; many "expected_group" ["-G"; "--expected-group"]; many "includes" ["--includes"];
    many "excludes" ["--excludes"]; one "input_file" ["-f"; "--input-file"]; flag "verbose" ["-v"; "--verbose"];
    one "show_property" ["-P"; "--show-property"]; flag "advanced" ["-a"; "--advanced"]; flag "single_value" ["-s"; "--single-value"];
    flag "enforce_list" ["-l"; "--enforce-list"]; flag "json" ["-j"; "--json"]; flag "yaml" ["-y"; "--yaml"];
    mk_a (lit "output_input_string") [lit "-i"; lit "--output-input-string"] KFlag (VBool false);
    many "config" ["-c"; "--config"]; flag "no_user_config" ["--no-user-config"]; flag "no_default_config" ["--no-default-config"];
    flag "properties" ["-p"; "--properties"]; flag "values" ["-V"; "--values"]; flag "version" ["--version"] ]%string.
(** the positional argument of options.py:37 *)
Definition k_filename : key := KS (lit "filename").

(** argparse [_option_string_actions] *)
Definition option_strings : list (str * action) := flat_map (fun a => map (fun o => (o, a)) (a_strings a)) (help_action :: named_actions).
Fixpoint lookup (o : str) (l : list (str * action)) : option action :=
  match l with [] => None | (x, a) :: r => if str_eqb o x then Some a else lookup o r end.
(** [s.partition('=')] *)
Fixpoint partition_eq (s : str) : str * option str :=
  match s with
  | [] => ([], None)
  | c :: r => if (c =? 61)%N then ([], Some r) else let '(a, b) := partition_eq r in (c :: a, b)
  end.
(** [^-\d+$|^-\d*\.\d+$]; simplified: ASCII digits, and no newline at the end *)
Definition negative_number (s : str) : bool :=
  match s with
  | c :: r => (c =? 45)%N && match r with
                            | [] => false
                            | _ => if forallb is_digit r then true else
                                   (fix go (u : str) : bool := match u with
                                      | [] => false
                                      | x :: v => if (x =? 46)%N then match v with [] => false | _ => forallb is_digit v end else is_digit x && go v end) r
                            end
  | [] => false
  end.
(** an optional: its action if known, the option string, the separator and the argument written with it *)
Record optional := mk_o { o_action : option action; o_string : str; o_sep : option str; o_arg : option str }.
(** argparse [_get_option_tuples] *)
Definition get_option_tuples (s : str) : list optional :=
  match s with
  | c1 :: c2 :: r =>
      if (c2 =? 45)%N then
        let '(prefix, arg) := partition_eq s in
        flat_map (fun oa => if startswith prefix (fst oa) then [mk_o (Some (snd oa)) (fst oa) (match arg with Some _ => Some (lit "=") | None => None end) arg] else []) option_strings
      else
        flat_map (fun oa => if str_eqb (fst oa) [c1; c2] then [mk_o (Some (snd oa)) (fst oa) (Some []) (Some r)]
                            else if startswith s (fst oa) then [mk_o (Some (snd oa)) (fst oa) None None] else []) option_strings
  | _ => []
  end.
(** argparse [_parse_optional]; [None]: an argument *)
Definition parse_optional (s : str) : res (option optional) :=
  match s with
  | [] => Ok None
  | c :: r =>
      if negb (c =? 45)%N then Ok None else
      match lookup s option_strings with
      | Some a => Ok (Some (mk_o (Some a) s None None))
      | None =>
          match r with
          | [] => Ok None
          | _ =>
              let '(before, after) := partition_eq s in
              match after, lookup before option_strings with
              | Some arg, Some a => Ok (Some (mk_o (Some a) before (Some (lit "=")) (Some arg)))
              | _, _ =>
                  match get_option_tuples s with
                  | _ :: _ :: _ => Err SystemExit
                  | [t] => Ok (Some t)
                  | [] => if negative_number s then Ok None else if cmem 32%N s then Ok None else Ok (Some (mk_o None s None None))
                  end
              end
          end
      end
  end.
(** the pattern of the arguments: A, O and - *)
Inductive mark := MA | MO (o : optional) | MDash.
Fixpoint marks (args : list str) : res (list (str * mark)) :=
  match args with
  | [] => Ok []
  | a :: r =>
      if str_eqb a (lit "--") then Ok ((a, MDash) :: map (fun x => (x, MA)) r)
      else o <- parse_optional a; rest <- marks r; Ok ((a, match o with Some t => MO t | None => MA end) :: rest)
  end.

(** the number of arguments taken *)
Definition arity (a : action) : nat := match a_kind a with KFlag | KHelp => 0 | _ => 1 end.
(** argparse [take_action] of an optional; [args] has as many elements as the action takes *)
Definition take_action (ns : dict) (t : action * list str) : res dict :=
  let '(a, args) := t in
  let k := KS (a_dest a) in
  match a_kind a, args with
  | KHelp, _ => Err SystemExit
  | KFlag, _ => Ok (dset ns k (VBool true))
  | KSingle, v :: _ => Ok (dset ns k (VStr v))
  | KAppend, v :: _ => Ok (dset ns k (VList (match dget ns k with Some (VList l) => l | _ => [] end ++ [VStr v])))
  | _, [] => Err SystemExit
  end.
(** argparse [consume_optional], with an argument written with the option: the actions taken and the unknown parts, or the action that still
    has to take the following arguments *)
Inductive taken := Done (acts : list (action * list str)) (extras : list str) | Pending (acts : list (action * list str)) (a : action).
Fixpoint explicit (a : action) (o sep arg : str) (acts : list (action * list str)) : res taken :=
  if arity a =? 0 then
    match arg with
    | [] => Err SystemExit
    | c :: r =>
        if (match o with _ :: d :: _ => (d =? 45)%N | _ => false end) then Err SystemExit
        else if negb (str_eqb sep []) || (c =? 45)%N then Err SystemExit
        else match lookup [45%N; c] option_strings with
             | None => Ok (Done (acts ++ [(a, [])]) [45%N :: c :: r])
             | Some a' =>
                 match r with
                 | [] => Ok (Pending (acts ++ [(a, [])]) a')
                 | e :: r' => if (e =? 61)%N then explicit a' [45%N; c] (lit "=") r' (acts ++ [(a, [])]) else explicit a' [45%N; c] [] r (acts ++ [(a, [])])
                 end
             end
    end
  else Ok (Done (acts ++ [(a, [arg])]) []).
(** argparse [consume_optional]: the actions, the unknown parts, and the arguments that follow *)
Definition consume_optional (o : optional) (s : str) (rest : list (str * mark)) : res (list (action * list str) * list str * list (str * mark)) :=
  match o_action o with
  | None => Ok ([], [s], rest)
  | Some a =>
      t <- match o_arg o with
           | Some arg => explicit a (o_string o) (match o_sep o with Some x => x | None => [] end) arg []
           | None => Ok (Pending [] a)
           end;
      match t with
      | Done acts extras => Ok (acts, extras, rest)
      | Pending acts a =>
          if arity a =? 0 then Ok (acts ++ [(a, [])], [], rest)
          else match rest with (v, MA) :: rest' => Ok (acts ++ [(a, [v])], [], rest') | _ => Err SystemExit end
      end
  end.
Definition is_option (x : str * mark) : bool := match snd x with MO _ => true | _ => false end.
(** the run of arguments before the next option, and what follows *)
Fixpoint names_before (l : list (str * mark)) : list str * list (str * mark) :=
  match l with
  | x :: r => if is_option x then ([], l) else let '(a, b) := names_before r in (fst x :: a, b)
  | [] => ([], [])
  end.
(** [arg_strings.remove('--')] *)
Fixpoint drop_dashes (l : list str) : list str := match l with [] => [] | x :: r => if str_eqb x (lit "--") then r else x :: drop_dashes r end.
(** the value of the positional argument *)
Definition set_filename (ns : dict) (names : list str) : dict := dset ns k_filename (VList (map VStr (drop_dashes names))).
(** argparse [_parse_known_args], the main loop: [free] while the positional argument has not been met *)
Fixpoint loop (fuel : nat) (free : bool) (l : list (str * mark)) (ns : dict) (extras : list str) : res (dict * list str) :=
  match fuel with
  | O => Err Diverges
  | S fuel =>
      if existsb is_option l then
        match l with
        | (s, MO o) :: rest =>
            t <- consume_optional o s rest;
            let '(acts, more, rest') := t in
            ns' <- foldM take_action acts ns; loop fuel free rest' ns' (extras ++ more)
        | _ => let '(names, rest) := names_before l in
               if free then loop fuel false rest (set_filename ns names) extras else loop fuel false rest ns (extras ++ names)
        end
      else if free then Ok (set_filename ns (map fst l), extras) else Ok (ns, extras ++ map fst l)
  end.
(** argparse [parse_args]: the defaults, then the arguments; unknown arguments are refused *)
Definition defaults : dict := (k_filename, VNone) :: map (fun a => (KS (a_dest a), a_default a)) named_actions.
Definition parse_args (args : list str) : res dict :=
  l <- marks args; r <- loop (S (List.length l)) true l defaults [];
  match snd r with [] => Ok (fst r) | _ => Err SystemExit end.
