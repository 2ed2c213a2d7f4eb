(** Independent specification of option layering.  Nothing here mentions the
    functions of [Options.v]. *)
From Verif Require Import Py.

Definition plain (v : val) : Prop :=          (* neither a list nor a dict *)
  match v with VList _ | VDict _ => False | _ => True end.

(** the last value, other than None, given to [k] by a list of layers *)
Fixpoint last_defined (k : key) (layers : list dict) : option val :=
  match layers with
  | [] => None
  | d :: r => match last_defined k r with
              | Some v => Some v
              | None => match dget d k with
                        | Some v => if is_none v then None else Some v
                        | None => None
                        end
              end
  end.

(** [new] elements to add to [seen]: those equal to nothing seen before, None excluded *)
Inductive fresh_elems : list val -> list val -> list val -> Prop :=
| fe_nil seen : fresh_elems seen [] []
| fe_skip seen x l out :
    (is_none x = true \/ exists y, In y seen /\ py_eq y x = true) ->
    fresh_elems seen l out -> fresh_elems seen (x :: l) out
| fe_take seen x l out :
    is_none x = false -> (forall y, In y seen -> py_eq y x = false) ->
    fresh_elems (seen ++ [x]) l out -> fresh_elems seen (x :: l) (x :: out).

Definition no_pristine (d : dict) : Prop := dget d (KS (lit "pristine")) = None.

(** [pristine] of a layer names the option [k] *)
Definition names (p : val) (k : key) : Prop :=
  exists l, py_iter p = Ok l /\ In (val_of_key k) l.

(** the options given by this layer are discarded from what precedes *)
Definition discards (d : dict) (k : key) : Prop :=
  exists p, dget d (KS (lit "pristine")) = Some p /\
    (p = VBool true \/ names p k).

(** Specification of the merge of two dicts, as a relation, key by key and at every depth.
    [merges a b c]: the values [b] of a later layer put over [a] give [c]. *)
Inductive put_over : option val -> option val -> option val -> Prop :=
| po_absent old : put_over old None old
| po_none old : put_over old (Some VNone) old
| po_new new : new <> VNone -> put_over None (Some new) (Some new)
| po_plain old new : plain old -> new <> VNone -> put_over (Some old) (Some new) (Some new)
| po_list l new items added :
    new <> VNone -> py_iter new = Ok items -> fresh_elems l items added ->
    put_over (Some (VList l)) (Some new) (Some (VList (l ++ added)))
| po_dict a b c : b <> [] -> over a b c -> put_over (Some (VDict a)) (Some (VDict b)) (Some (VDict c))
| po_dict_empty a new : new <> VNone -> truthy new = false ->
    put_over (Some (VDict a)) (Some new) (Some (VDict a))
with over : dict -> dict -> dict -> Prop :=
| over_intro a b c :
    NoDup (dkeys c) ->
    (forall k, k <> KS (lit "pristine") -> discards b k -> put_over None (dget b k) (dget c k)) ->
    (forall k, k <> KS (lit "pristine") -> ~ discards b k -> put_over (dget a k) (dget b k) (dget c k)) ->
    (* a 'pristine' entry of the earlier layer stays as any other unnamed entry;
       the one of the later layer is never copied *)
    (discards b (KS (lit "pristine")) -> dget c (KS (lit "pristine")) = None) ->
    (~ discards b (KS (lit "pristine")) ->
       dget c (KS (lit "pristine")) = dget a (KS (lit "pristine"))) ->
    over a b c.

(** Byte strings nowhere *)
Inductive no_bytes : val -> Prop :=
| nb_none : no_bytes VNone
| nb_bool b : no_bytes (VBool b)
| nb_int z : no_bytes (VInt z)
| nb_float q : no_bytes (VFloat q)
| nb_str s : no_bytes (VStr s)
| nb_list l : Forall no_bytes l -> no_bytes (VList l)
| nb_dict d : Forall (fun kv => (exists s, fst kv = KS s) /\ no_bytes (snd kv)) d ->
              no_bytes (VDict d).

(** [v'] is [v] with every byte string replaced by the text of the same characters *)
Inductive decoded : val -> val -> Prop :=
| dc_bytes s : decoded (VBytes s) (VStr s)
| dc_same v : plain v -> (forall s, v <> VBytes s) -> decoded v v
| dc_list l l' : Forall2 decoded l l' -> decoded (VList l) (VList l')
| dc_dict d d' :
    Forall2 (fun a b => decoded (val_of_key (fst a)) (val_of_key (fst b)) /\
                        decoded (snd a) (snd b)) d d' ->
    decoded (VDict d) (VDict d').

(** When merging is defined: [mergeable a b] says that putting [b] over [a] does not raise. *)
Definition hashable (v : val) : Prop := match v with VList _ | VDict _ => False | _ => True end.
Definition iterable (v : val) : Prop :=
  match v with VList _ | VDict _ | VStr _ | VBytes _ => True | _ => False end.
Definition valid_pristine (p : option val) : Prop :=
  match p with
  | None => True
  | Some p => p = VBool true \/ truthy p = false \/
              (exists l, py_iter p = Ok l /\ Forall hashable l)
  end.
Inductive mergeable_val : option val -> val -> Prop :=
| mv_none old : mergeable_val old VNone
| mv_absent new : mergeable_val None new
| mv_plain old new : plain old -> mergeable_val (Some old) new
| mv_list l new : iterable new -> mergeable_val (Some (VList l)) new
| mv_dict_falsy a new : truthy new = false -> mergeable_val (Some (VDict a)) new
| mv_dict a b : mergeable a b -> mergeable_val (Some (VDict a)) (VDict b)
with mergeable : dict -> dict -> Prop :=
| mg a b :
    valid_pristine (dget b (KS (lit "pristine"))) ->
    (forall k v, k <> KS (lit "pristine") -> dget b k = Some v -> ~ discards b k ->
                 mergeable_val (dget a k) v) ->
    mergeable a b.
