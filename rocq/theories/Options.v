(** Model of guessit/options.py (merging and configuration loading) and of
    [GuessItApi._fix_encoding] (guessit/api.py).

    A Python option value is a [val]; this file ignores object identity
    (aliasing), which is the subject of [Heap.v]. *)
From Verif Require Import Py.

Definition k_pristine : key := KS (lit "pristine").
Definition k_advanced_config : key := KS (lit "advanced_config").
Definition k_config : key := KS (lit "config").
Definition k_no_user_config : key := KS (lit "no_user_config").
Definition k_no_default_config : key := KS (lit "no_default_config").

(** options.py:222-224 — the element is used as a dict key: lists and dicts are not
    hashable; numbers and None never equal a string key. *)
Definition reset_one (merged : dict) (to_reset : val) : res dict :=
  match to_reset with
  | VStr s => Ok (ddel merged (KS s))
  | VBytes s => Ok (ddel merged (KB s))
  | VList _ | VDict _ => Err TypeError
  | _ => Ok merged
  end.

(** options.py:217-224 — effect of the layer's [pristine] entry on what is merged so far *)
Definition apply_pristine (pristine : option val) (merged : dict) : res dict :=
  match pristine with
  | Some (VBool true) => Ok []
  | Some p => if truthy p then l <- py_iter p; foldM reset_one l merged else Ok merged
  | None => Ok merged
  end.

(** options.py:242-244 *)
Definition append_one (l : list val) (x : val) : list val :=
  if negb (py_in x l) && negb (is_none x) then l ++ [x] else l.
Definition append_new (l new : list val) : list val := fold_left append_one new l.

(** options.py:232-250 [merge_option_value]; [rec v d] stands for
    [merge_options(d, v)] with [d] a dict (line 246). *)
Definition merge_option_value (rec : val -> dict -> res dict)
    (option : key) (value : val) (merged : dict) : res dict :=
  if is_none value || key_eqb option k_pristine then Ok merged
  else match dget merged option with
       | Some (VList l) => new <- py_iter value; Ok (dset merged option (VList (append_new l new)))
       | Some (VDict d) => d' <- rec value d; Ok (dset merged option (VDict d'))
       | _ => Ok (dset merged option value)
       end.

(** options.py:215-227 — merging one more layer (body of the [for] loop).
    A truthy layer that is not a dict has no [.get] (line 217): AttributeError. *)
Fixpoint merge_layer (layer : val) (merged : dict) {struct layer} : res dict :=
  if truthy layer then
    match layer with
    | VDict d =>
        merged0 <- apply_pristine (dget d k_pristine) merged;
        (fix go (items : list (key * val)) (m : dict) {struct items} : res dict :=
           match items with
           | [] => Ok m
           | (option, value) :: r =>
               m' <- merge_option_value merge_layer option value m; go r m'
           end) d merged0
    | _ => Err AttributeError
    end
  else Ok merged.

(** options.py:226-227 as a stand-alone loop *)
Definition merge_items (items : list (key * val)) (m : dict) : res dict :=
  foldM (fun m kv => merge_option_value merge_layer (fst kv) (snd kv) m) items m.

(** options.py:212-213.  Simplification: [dict.update] also accepts a sequence of pairs;
    a truthy first layer that is not a dict is modelled as an error. *)
Definition first_layer (l : val) : res dict :=
  if truthy l then match l with VDict d => Ok d | _ => Err TypeError end else Ok [].

(** options.py:201-229 [merge_options] *)
Definition merge_options (layers : list val) : res dict :=
  match layers with
  | [] => Ok []
  | l0 :: rest => m0 <- first_layer l0; foldM (fun m l => merge_layer l m) rest m0
  end.

(** ** Configuration files, options.py:149-198 and 284-309 *)

(** posixpath.join(a, b) for a relative [b] *)
Definition path_join (a b : str) : str :=
  match a with
  | [] => b
  | _ => if endswith (lit "/") a then a ++ b else a ++ lit "/" ++ b
  end.

(** options.py:284-309 *)
Definition get_options_file_locations (homedir cwd : str) (yaml_supported : bool) : list str :=
  let configdirs := [(path_join homedir (lit ".guessit"), lit "options");
                     (path_join (path_join homedir (lit ".config")) (lit "guessit"), lit "options");
                     (cwd, lit "guessit.options")] in
  let configexts := [lit "json"] ++ (if yaml_supported then [lit "yaml"; lit "yml"] else []) in
  flat_map (fun configdir =>
    map (fun ext => path_join (fst configdir) (snd configdir ++ lit "." ++ ext)) configexts)
    configdirs.

(** What the operating system and the parsers provide; options.py:160, 167-174, 177, 184. *)
Record env := {
  env_default : dict;               (* json of the bundled config/options.json *)
  env_home : str;
  env_cwd : str;
  env_yaml : bool;                  (* import yaml succeeds *)
  env_exists : str -> bool;         (* os.path.exists *)
  env_load : val -> res val         (* load_config_file *)
}.

(** options.py:183-186 *)
Definition load_files (e : env) (files : list val) : res (list val) :=
  l <- mapM (env_load e) files; Ok (filter truthy l).

(** options.py:166-177 *)
Definition user_config_files (e : env) (options : dict) : list val :=
  if otruthy (dget options k_no_user_config) then []
  else map VStr (filter (env_exists e)
                   (get_options_file_locations (env_home e) (env_cwd e) (env_yaml e))).

(** options.py:179-181: [list + x] is a TypeError unless [x] is a list *)
Definition all_config_files (e : env) (options : dict) : res (list val) :=
  let user := user_config_files e options in
  match dget options k_config with
  | Some c => if truthy c
              then match c with VList l => Ok (user ++ l) | _ => Err TypeError end
              else Ok user
  | None => Ok user
  end.

(** options.py:149-198.  The bundled file is assumed to define advanced_config
    (line 196 would raise KeyError otherwise). *)
Definition load_config (e : env) (options : dict) : res dict :=
  let defaults := if otruthy (dget options k_no_default_config) then [] else [VDict (env_default e)] in
  files <- all_config_files e options;
  loaded <- load_files e files;
  config <- merge_options (defaults ++ loaded);
  if dmem config k_advanced_config then Ok config
  else match dget (env_default e) k_advanced_config with
       | Some a => Ok (dset config k_advanced_config a)
       | None => Err KeyError
       end.

(** ** api.py:119-127 [_fix_encoding] *)

(** [bytes.decode('ascii')] *)
Definition decode_ascii (s : str) : res str :=
  if forallb (fun c => (c <? 128)%N) s then Ok s else Err UnicodeError.

Definition fix_key (k : key) : res key :=
  match k with KS s => Ok (KS s) | KB s => s' <- decode_ascii s; Ok (KS s') end.

Fixpoint fix_encoding (v : val) : res val :=
  match v with
  | VList l =>
      l' <- (fix go (l : list val) : res (list val) :=
               match l with
               | [] => Ok []
               | x :: r => y <- fix_encoding x; ys <- go r; Ok (y :: ys)
               end) l;
      Ok (VList l')
  | VDict d =>
      d' <- (fix go (d : list (key * val)) (acc : dict) : res dict :=
               match d with
               | [] => Ok acc
               | (k, v) :: r => k' <- fix_key k; v' <- fix_encoding v; go r (dset acc k' v')
               end) d [];
      Ok (VDict d')
  | VBytes s => s' <- decode_ascii s; Ok (VStr s')
  | _ => Ok v
  end.
