(** Model of guessit/config/__init__.py (registration of configured patterns). *)
From Verif Require Import Py.

(** What is done on the builder: a pattern method called with positional patterns and keyword
    options, or the callable of an entry called with the remaining entry as keywords. *)
Inductive event :=
| EReg (pattern_type : str) (patterns : list val) (options : dict)
| ECall (callable : val) (entry : dict).

(** [d.update(e)] *)
Definition dupdate (d e : dict) : dict := fold_left (fun d kv => dset d (fst kv) (snd kv)) e d.

(** [x if isinstance(x, list) else [x]] (config/__init__.py:137, 148-149) *)
Definition as_list (v : val) : list val := match v with VList l => l | _ => [v] end.

Section Load.
  (** config/__init__.py:60-69 [_process_option_executable]: importing and evaluating are not
      modelled; [resolve name text] is the object named by an option's text *)
  Context (resolve : str -> str -> res val).

  (** config/__init__.py:22-28 [_process_option]; a dict is processed item by item. *)
  Fixpoint process_option (name : str) (value : val) {struct value} : res val :=
    if smem name [lit "validator"; lit "conflict_solver"; lit "formatter"] then
      match value with
      | VDict d =>
          res_map VDict
            ((fix go (d : list (key * val)) : res (list (key * val)) :=
                match d with
                | [] => Ok []
                | (k, v) :: r => v' <- process_option name v; r' <- go r; Ok ((k, v') :: r')
                end) d)
      | VNone => Ok VNone
      | VStr s => resolve name s
      | _ => Err AttributeError
      end
    else Ok value.
  Definition key_name (k : key) : str := match k with KS s => s | KB s => s end.
  Fixpoint process_options (d : dict) : res dict :=
    match d with
    | [] => Ok []
    | (k, v) :: r => v' <- process_option (key_name k) v; r' <- process_options r; Ok ((k, v') :: r')
    end.

  (** The [options] argument: what is under [None], and what is under each pattern type. *)
  Context (defaults : dict) (typed : str -> option dict).

  Definition pattern_types : list str := [lit "regex"; lit "string"].
  Definition regex_prefix : str := lit "re:".

  (** config/__init__.py:84-85 and 91-92: a text is a regex after the prefix, a plain string otherwise *)
  Definition set_pattern (decl : dict) (s : str) : dict :=
    if startswith regex_prefix s then dset decl (KS (lit "regex")) (VList [VStr (skipn (List.length regex_prefix) s)])
    else dset decl (KS (lit "string")) (VList [VStr s]).
  (** config/__init__.py:76-95 [_build_entry_decl]; also gives the entry after [entry.pop("pattern")] *)
  Definition build_entry_decl (entry : val) (value : str) : res (dict * val) :=
    let decl := if startswith (lit "_") value then defaults else dset defaults (KS (lit "value")) (VStr value) in
    decl <- match entry with
            | VStr s => Ok (set_pattern decl s)
            | VDict e => Ok (dupdate decl e)
            | _ => Err TypeError
            end;
    if dmem decl (KS (lit "pattern")) then
      match entry with
      | VDict e =>
          match dget e (KS (lit "pattern")) with
          | Some (VStr s) => Ok (set_pattern decl s, VDict (ddel e (KS (lit "pattern"))))
          | Some _ => Err AttributeError
          | None => Err KeyError
          end
      | _ => Err AttributeError
      end
    else Ok (decl, entry).

  (** config/__init__.py:98-118 [load_patterns], with [options[None] = item] *)
  Definition load_patterns (pattern_type : str) (patterns : list val) (item : dict) : res event :=
    opts <- process_options (match typed pattern_type with Some t => dupdate item t | None => item end);
    Ok (EReg pattern_type patterns opts).
  (** config/__init__.py:144-158, the body for one pattern type *)
  Definition load_type (decl : dict) (pattern_type : str) : res (list event) :=
    let patterns := oget (dget decl (KS pattern_type)) in
    if truthy patterns then
      let ps := as_list patterns in
      let item := fold_left (fun d t => ddel d (KS t)) pattern_types decl in
      ev <- load_patterns pattern_type ps item; Ok [ev]
    else Ok [].
  (** config/__init__.py:136-158, one entry: events and the entry afterwards *)
  Definition load_entry (value : str) (entry : val) : res (list event * val) :=
    match match entry with VDict e => option_map (pair e) (dget e (KS (lit "callable"))) | _ => None end with
    | Some (e, c) =>
        let e' := ddel e (KS (lit "callable")) in
        Ok ([ECall c e'], VDict e')
    | None =>
        de <- build_entry_decl entry value;
        evs <- mapM (load_type (fst de)) pattern_types;
        Ok (List.concat evs, snd de)
    end.
  (** config/__init__.py:121-158 [load_config_patterns]: all the events and the configuration afterwards *)
  Fixpoint load_entries (value : str) (entries : list val) : res (list event * list val) :=
    match entries with
    | [] => Ok ([], [])
    | e :: r => x <- load_entry value e; y <- load_entries value r; Ok (fst x ++ fst y, snd x :: snd y)
    end.
  Fixpoint load_config_patterns (config : dict) : res (list event * dict) :=
    match config with
    | [] => Ok ([], [])
    | (k, raw) :: r =>
        x <- match raw with
             | VList l => res_map (fun y => (fst y, VList (snd y))) (load_entries (key_name k) l)
             | v => load_entry (key_name k) v
             end;
        y <- load_config_patterns r;
        Ok (fst x ++ fst y, (k, snd x) :: snd y)
    end.
End Load.
