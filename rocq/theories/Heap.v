(** options.py:201-250 again, now over a store of mutable objects: which objects are
    modified, and what is shared.  Every function threads the heap, also on errors.

    Fuel bounds the recursion depth (Python's recursion limit); running out of it is the error
    [Diverges], never a normal result. *)
From Verif Require Import Py Options.

Definition loc := nat.
Inductive hval :=
| HNone | HBool (b : bool) | HInt (z : Z) | HFloat (q : Q) | HStr (s : str) | HBytes (s : str)
| HRef (l : loc).
Inductive cell := CList (l : list hval) | CDict (d : list (key * hval)).
Definition heap := list cell.

Definition alloc (h : heap) (c : cell) : heap * loc := (h ++ [c], List.length h).
Fixpoint set_nth {A} (l : list A) (i : nat) (x : A) : list A :=
  match l, i with
  | [], _ => []
  | _ :: r, 0 => x :: r
  | y :: r, S i' => y :: set_nth r i' x
  end.
Definition store (h : heap) (l : loc) (c : cell) : heap := set_nth h l c.

(** Reading an object graph as a tree value (None: dangling, or deeper than the fuel) *)
Fixpoint read (fuel : nat) (h : heap) (v : hval) : option val :=
  match fuel with
  | 0 => None
  | S f =>
      match v with
      | HNone => Some VNone | HBool b => Some (VBool b) | HInt z => Some (VInt z)
      | HFloat q => Some (VFloat q) | HStr s => Some (VStr s) | HBytes s => Some (VBytes s)
      | HRef l =>
          match nth_error h l with
          | Some (CList xs) =>
              match fold_right (fun x acc => match read f h x, acc with
                                             | Some v, Some vs => Some (v :: vs) | _, _ => None end)
                      (Some []) xs with
              | Some vs => Some (VList vs) | None => None end
          | Some (CDict d) =>
              match fold_right (fun kv acc => match read f h (snd kv), acc with
                                              | Some v, Some vs => Some ((fst kv, v) :: vs) | _, _ => None end)
                      (Some []) d with
              | Some vs => Some (VDict vs) | None => None end
          | None => None
          end
      end
  end.

(** [a == b] on objects (read-only) *)
Definition h_eq (fuel : nat) (h : heap) (a b : hval) : bool :=
  match read fuel h a, read fuel h b with
  | Some x, Some y => py_eq x y
  | _, _ => false
  end.

(** truthiness *)
Definition h_truthy (h : heap) (v : hval) : bool :=
  match v with
  | HNone => false
  | HBool b => b
  | HInt z => negb (z =? 0)%Z
  | HFloat q => negb (Qeq_bool q (inject_Z 0))
  | HStr s | HBytes s => match s with [] => false | _ => true end
  | HRef l => match nth_error h l with
              | Some (CList []) | Some (CDict []) | None => false
              | _ => true
              end
  end.

(** iteration *)
Definition h_iter (h : heap) (v : hval) : res (list hval) :=
  match v with
  | HStr s => Ok (map (fun c => HStr [c]) s)
  | HBytes s => Ok (map (fun c => HInt (Z.of_N c)) s)
  | HRef l => match nth_error h l with
              | Some (CList xs) => Ok xs
              | Some (CDict d) => Ok (map (fun kv => match fst kv with KS s => HStr s | KB s => HBytes s end) d)
              | None => Err TypeError
              end
  | _ => Err TypeError
  end.

(** copy.deepcopy with its memo (a shared object is copied once, so sharing is preserved) *)
Definition memo := list (loc * loc).
Fixpoint memo_get (m : memo) (l : loc) : option loc :=
  match m with [] => None | (a, b) :: r => if Nat.eqb a l then Some b else memo_get r l end.

Fixpoint deepcopy (fuel : nat) (h : heap) (m : memo) (v : hval) : heap * memo * res hval :=
  match fuel with
  | 0 => (h, m, Err Diverges)
  | S f =>
      match v with
      | HRef l =>
          match memo_get m l with
          | Some l' => (h, m, Ok (HRef l'))
          | None =>
              match nth_error h l with
              | Some (CList xs) =>
                  let (h1, l') := alloc h (CList []) in
                  (fix go (xs : list hval) (done : list hval) (h : heap) (m : memo) : heap * memo * res hval :=
                     match xs with
                     | [] => (h, m, Ok (HRef l'))
                     | x :: r =>
                         match deepcopy f h m x with
                         | (h', m', Ok y) => go r (done ++ [y]) (store h' l' (CList (done ++ [y]))) m'
                         | (h', m', Err e) => (h', m', Err e)
                         end
                     end) xs [] h1 ((l, l') :: m)
              | Some (CDict d) =>
                  let (h1, l') := alloc h (CDict []) in
                  (fix go (d done : list (key * hval)) (h : heap) (m : memo) : heap * memo * res hval :=
                     match d with
                     | [] => (h, m, Ok (HRef l'))
                     | (k, x) :: r =>
                         match deepcopy f h m x with
                         | (h', m', Ok y) => go r (done ++ [(k, y)]) (store h' l' (CDict (done ++ [(k, y)]))) m'
                         | (h', m', Err e) => (h', m', Err e)
                         end
                     end) d [] h1 ((l, l') :: m)
              | None => (h, m, Err TypeError)
              end
          end
      | _ => (h, m, Ok v)
      end
  end.

(** entries of the dict object at [l] *)
Definition entries (h : heap) (l : loc) : list (key * hval) :=
  match nth_error h l with Some (CDict d) => d | _ => [] end.

(** options.py:222-224 on the object [merged] *)
Fixpoint h_reset (h : heap) (merged : loc) (l : list hval) : heap * res unit :=
  match l with
  | [] => (h, Ok tt)
  | x :: r =>
      match x with
      | HStr s => h_reset (store h merged (CDict (ddel (entries h merged) (KS s)))) merged r
      | HBytes s => h_reset (store h merged (CDict (ddel (entries h merged) (KB s)))) merged r
      | HRef _ => (h, Err TypeError)
      | _ => h_reset h merged r
      end
  end.

(** options.py:242-244: [merged[option].append(val)] mutates the list object [l] in place *)
Fixpoint h_append (fuel : nat) (h : heap) (l : loc) (vals : list hval) : heap :=
  match vals with
  | [] => h
  | x :: r =>
      match nth_error h l with
      | Some (CList xs) =>
          if negb (existsb (fun y => h_eq fuel h y x) xs) && negb (match x with HNone => true | _ => false end)
          then h_append fuel (store h l (CList (xs ++ [x]))) l r
          else h_append fuel h l r
      | _ => h
      end
  end.

(** options.py:232-250; [rec h d v] is [merge_options(d, v)] *)
Definition h_merge_option_value (fuel : nat) (rec : heap -> hval -> hval -> heap * res loc)
    (option : key) (value : hval) (h : heap) (merged : loc) : heap * res unit :=
  if match value with HNone => true | _ => false end || key_eqb option k_pristine then (h, Ok tt)
  else
    let set h v := store h merged (CDict (dset (entries h merged) option v)) in
    let default :=
      match value with
      | HRef lv =>
          match nth_error h lv with
          | Some (CList xs) => let (h1, l') := alloc h (CList xs) in (set h1 (HRef l'), Ok tt)   (* list(value) *)
          | _ => (set h value, Ok tt)
          end
      | _ => (set h value, Ok tt)
      end in
    match dget (entries h merged) option with
    | Some (HRef l) =>
        match nth_error h l with
        | Some (CList _) =>
            match h_iter h value with
            | Ok vals => (h_append fuel h l vals, Ok tt)
            | Err e => (h, Err e)
            end
        | Some (CDict _) =>
            match rec h (HRef l) value with
            | (h', Ok r) => (set h' (HRef r), Ok tt)
            | (h', Err e) => (h', Err e)
            end
        | None => default
        end
    | _ => default
    end.

(** options.py:226-227 *)
Fixpoint h_items (fuel : nat) (rec : heap -> hval -> hval -> heap * res loc)
    (items : list (key * hval)) (h : heap) (merged : loc) : heap * res unit :=
  match items with
  | [] => (h, Ok tt)
  | (k, v) :: r =>
      match h_merge_option_value fuel rec k v h merged with
      | (h', Ok _) => h_items fuel rec r h' merged
      | (h', Err e) => (h', Err e)
      end
  end.

(** options.py:215-227: one layer; returns the (possibly new, line 220) [merged] object *)
Definition h_layer (fuel : nat) (rec : heap -> hval -> hval -> heap * res loc)
    (h : heap) (merged : loc) (layer : hval) : heap * res loc :=
  if h_truthy h layer then
    match layer with
    | HRef l =>
        match nth_error h l with
        | Some (CDict d) =>
            let step :=
              match dget d k_pristine with
              | Some (HBool true) => let (h1, m1) := alloc h (CDict []) in (h1, Ok m1)
              | Some p => if h_truthy h p then
                            match h_iter h p with
                            | Ok names => match h_reset h merged names with
                                          | (h', Ok _) => (h', Ok merged)
                                          | (h', Err e) => (h', Err e)
                                          end
                            | Err e => (h, Err e)
                            end
                          else (h, Ok merged)
              | None => (h, Ok merged)
              end in
            match step with
            | (h1, Ok m1) => match h_items fuel rec d h1 m1 with
                             | (h2, Ok _) => (h2, Ok m1)
                             | (h2, Err e) => (h2, Err e)
                             end
            | (h1, Err e) => (h1, Err e)
            end
        | _ => (h, Err AttributeError)
        end
    | _ => (h, Err AttributeError)
    end
  else (h, Ok merged).

Fixpoint h_layers (fuel : nat) (rec : heap -> hval -> hval -> heap * res loc)
    (h : heap) (merged : loc) (layers : list hval) : heap * res loc :=
  match layers with
  | [] => (h, Ok merged)
  | l :: r => match h_layer fuel rec h merged l with
              | (h', Ok m') => h_layers fuel rec h' m' r
              | (h', Err e) => (h', Err e)
              end
  end.

(** options.py:210-213: [merged = {}] then [merged.update(deepcopy(first))] *)
Definition h_first (fuel : nat) (h : heap) (first : hval) : heap * res loc :=
  let (h1, m) := alloc h (CDict []) in
  if h_truthy h1 first then
    match deepcopy fuel h1 [] first with
    | (h2, _, Ok (HRef l)) =>
        match nth_error h2 l with
        | Some (CDict d) => (store h2 m (CDict d), Ok m)
        | _ => (h2, Err TypeError)
        end
    | (h2, _, Ok _) => (h2, Err TypeError)
    | (h2, _, Err e) => (h2, Err e)
    end
  else (h1, Ok m).

(** options.py:201-229 *)
Fixpoint h_merge2 (fuel : nat) (h : heap) (a b : hval) : heap * res loc :=
  match fuel with
  | 0 => (h, Err Diverges)
  | S f => match h_first fuel h a with
           | (h1, Ok m) => h_layers fuel (h_merge2 f) h1 m [b]
           | (h1, Err e) => (h1, Err e)
           end
  end.
Definition h_merge_options (fuel : nat) (h : heap) (layers : list hval) : heap * res loc :=
  match layers with
  | [] => let (h1, m) := alloc h (CDict []) in (h1, Ok m)
  | l0 :: rest => match h_first fuel h l0 with
                  | (h1, Ok m) => h_layers fuel (h_merge2 fuel) h1 m rest
                  | (h1, Err e) => (h1, Err e)
                  end
  end.
