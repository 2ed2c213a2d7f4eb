(** Model of guessit/config/__init__.py:31-74: the objects that option texts name, with the cache of imports. The interpreter's
    modules, attributes and [eval] are parameters. *)
From Verif Require Import Py Text Names.
From Coq Require Import Arith.

Section Resolve.
  Context {O : Type}.
  (** [import_module], [getattr], [eval(compile(..))], and a text as an object *)
  Context (import_module : str -> res O) (getattr : O -> str -> res O) (evaluate : str -> res O) (text : str -> O).
  Definition cache := list (str * O).
  (** [value.rsplit(':', 1)] unpacked in two: what is before and after the last colon *)
  Fixpoint rsplit_colon (s : str) : option (str * str) :=
    match s with
    | [] => None
    | c :: r => match rsplit_colon r with
                | Some (a, b) => Some (c :: a, b)
                | None => if (c =? 58)%N then Some ([], r) else None
                end
    end.
  (** lines 45-46: the attributes one after another *)
  Definition attributes (o : O) (path : list str) : res O := foldM (fun o item => getattr o item) path o.
  Definition cached (c : cache) (id : str) : option O := match find (fun e => str_eqb (fst e) id) c with Some e => Some (snd e) | None => None end.
  (** lines 31-50 [_import] *)
  Definition import_ (c : cache) (value : str) (default : option str) : res O * cache :=
    let names := if cmem 46%N value then match rsplit_colon value with Some (m, t) => Ok (m, t) | None => Err ValueError end
                 else match default with Some m => Ok (m, value) | None => Err TypeError end in
    match names with
    | Err e => (Err e, c)
    | Ok (m, t) =>
        let id := m ++ 58%N :: t in
        match cached c id with
        | Some o => (Ok o, c)
        | None =>
            match o <- import_module m; attributes o (split_char 46%N t) with
            | Ok o => (Ok o, (id, o) :: c)
            | Err e => (Err e, c)
            end
        end
    end.
  (** lines 60-69 [_process_option_executable]; lines 53-57 [_eval]: [_eval_cache] is never written *)
  Definition resolve_text (c : cache) (value : str) (default : option str) : res O * cache :=
    if startswith (lit "import:") value then import_ c (skipn 7 value) default
    else if startswith (lit "eval:") value then (evaluate (skipn 5 value), c)
    else if startswith (lit "lambda ") value || startswith (lit "lambda:") value then (evaluate value, c)
    else (Ok (text value), c).
  (** what was resolved before in the process *)
  Definition resolved (history : list (str * option str)) : cache := fold_left (fun c q => snd (resolve_text c (fst q) (snd q))) history [].
End Resolve.
(** lines 16-19 [_default_module_names], looked up by line 27 *)
Definition default_module (option_name : str) : option str :=
  if str_eqb option_name (lit "validator") then Some (lit "guessit.rules.common.validators")
  else if str_eqb option_name (lit "formatter") then Some (lit "guessit.rules.common.formatters") else None.
