(** Python primitives used by the model: strings, exceptions, dynamic values.

    Nothing here models a file of /repo; it is the vocabulary in which the
    Python code is transcribed.  Simplifications:
    - a [str] is the list of its code points; case mapping is ASCII only;
    - [int] is [Z]; a [float] is a rational ([Q]), so no nan/inf;
    - dictionary keys are strings or byte strings. *)
From Coq Require Export List Arith ZArith NArith QArith_base Bool Ascii String Lia.
Export ListNotations.
Open Scope list_scope.
Close Scope Q_scope.
Close Scope string_scope.
Open Scope nat_scope.

Notation char := N (only parsing).
Notation str := (list N) (only parsing).

(** Literal: ["abc"] as a [str]. *)
Definition lit (s : string) : str := map N_of_ascii (list_ascii_of_string s).
Definition ch (a : ascii) : char := N_of_ascii a.

Definition str_eq_dec : forall a b : str, {a = b} + {a <> b} := list_eq_dec N.eq_dec.
Fixpoint str_eqb (a b : str) : bool :=
  match a, b with
  | [], [] => true
  | x :: a', y :: b' => N.eqb x y && str_eqb a' b'
  | _, _ => false
  end.

(** [c in s] for a character *)
Definition cmem (c : char) (s : str) : bool := existsb (N.eqb c) s.
(** [s in l] for a list of strings *)
Definition smem (s : str) (l : list str) : bool := existsb (str_eqb s) l.

(** ASCII predicates / mappings *)
Definition is_upper (c : char) : bool := (65 <=? c)%N && (c <=? 90)%N.
Definition is_lower (c : char) : bool := (97 <=? c)%N && (c <=? 122)%N.
Definition is_digit (c : char) : bool := (48 <=? c)%N && (c <=? 57)%N.
Definition is_alpha (c : char) : bool := is_upper c || is_lower c.
Definition to_lower (c : char) : char := if is_upper c then (c + 32)%N else c.
Definition to_upper (c : char) : char := if is_lower c then (c - 32)%N else c.
Definition lower (s : str) : str := map to_lower s.
Definition upper (s : str) : str := map to_upper s.
(** str.isspace / the characters stripped by [str.strip()] (ASCII range) *)
Definition is_space (c : char) : bool :=
  ((9 <=? c)%N && (c <=? 13)%N) || ((28 <=? c)%N && (c <=? 32)%N).

(** [s.lstrip(chars)], [s.rstrip(chars)], [s.strip(chars)], given by a predicate. *)
Fixpoint lstrip (p : char -> bool) (s : str) : str :=
  match s with
  | [] => []
  | c :: s' => if p c then lstrip p s' else s
  end.
Definition rstrip (p : char -> bool) (s : str) : str := rev (lstrip p (rev s)).
Definition strip (p : char -> bool) (s : str) : str := rstrip p (lstrip p s).

Fixpoint startswith (p s : str) : bool :=
  match p, s with
  | [], _ => true
  | x :: p', y :: s' => N.eqb x y && startswith p' s'
  | _, _ => false
  end.
Definition endswith (p s : str) : bool := startswith (rev p) (rev s).

(** slice [s[i:j]] for non-negative bounds *)
Definition slice {A} (i j : nat) (s : list A) : list A := firstn (j - i) (skipn i s).
(** Python index normalisation of slice bounds and slice with signed bounds. *)
Definition norm_bound (len : nat) (i : Z) : nat :=
  if (i <? 0)%Z then Z.to_nat (Z.max 0 (Z.of_nat len + i)) else Nat.min len (Z.to_nat i).
Definition zslice {A} (i j : Z) (s : list A) : list A :=
  slice (norm_bound (List.length s) i) (norm_bound (List.length s) j) s.
(** [s[i]] with Python's negative indexing; [None] = IndexError *)
Definition zindex {A} (s : list A) (i : Z) : option A :=
  let n := Z.of_nat (List.length s) in
  if (i <? 0)%Z then (if (0 <=? n + i)%Z then nth_error s (Z.to_nat (n + i)) else None)
  else nth_error s (Z.to_nat i).

(** [s.find(p, from)] counted from the start of [s]; [None] = -1 *)
Fixpoint find_from (p s : str) (pos : nat) : option nat :=
  if startswith p s then Some pos
  else match s with [] => None | _ :: s' => find_from p s' (S pos) end.
Definition find_sub (p s : str) (start : nat) : option nat :=
  if List.length s <? start then None else find_from p (skipn start s) start.

Definition concat_with (sep : str) (l : list str) : str :=
  match l with
  | [] => []
  | x :: r => x ++ flat_map (fun y => sep ++ y) r
  end.

(** Exceptions as values *)
Inductive exn :=
| TypeError | ValueError | AttributeError | KeyError | IndexError | UnicodeError
| ZeroDivisionError | ConfigurationException | SystemExit | OtherError (n : N) | Diverges.
Inductive res (A : Type) := Ok (a : A) | Err (e : exn).
Arguments Ok {A} _.
Arguments Err {A} _.
Definition bind {A B} (x : res A) (f : A -> res B) : res B :=
  match x with Ok a => f a | Err e => Err e end.
Notation "x <- a ; b" := (bind a (fun x => b)) (at level 61, a at next level, right associativity).
Definition res_map {A B} (f : A -> B) (x : res A) : res B :=
  match x with Ok a => Ok (f a) | Err e => Err e end.
Fixpoint mapM {A B} (f : A -> res B) (l : list A) : res (list B) :=
  match l with
  | [] => Ok []
  | x :: r => y <- f x; ys <- mapM f r; Ok (y :: ys)
  end.
Fixpoint foldM {A B} (f : B -> A -> res B) (l : list A) (b : B) : res B :=
  match l with
  | [] => Ok b
  | x :: r => b' <- f b x; foldM f r b'
  end.
Definition is_ok {A} (x : res A) : bool := match x with Ok _ => true | Err _ => false end.

(** Dynamic values *)
Inductive key := KS (s : str) | KB (s : str).
Definition key_eqb (a b : key) : bool :=
  match a, b with
  | KS x, KS y => str_eqb x y
  | KB x, KB y => str_eqb x y
  | _, _ => false
  end.

Inductive val :=
| VNone
| VBool (b : bool)
| VInt (z : Z)
| VFloat (q : Q)
| VStr (s : str)
| VBytes (s : str)
| VList (l : list val)
| VDict (d : list (key * val)).
Definition dict := list (key * val).

(** Generic association lists = Python dicts (insertion ordered). *)
Fixpoint dget {V} (d : list (key * V)) (k : key) : option V :=
  match d with
  | [] => None
  | (k', v) :: r => if key_eqb k k' then Some v else dget r k
  end.
Definition dmem {V} (d : list (key * V)) (k : key) : bool :=
  match dget d k with Some _ => true | None => false end.
(** [d[k] = v]: in place when present, appended otherwise *)
Fixpoint dset {V} (d : list (key * V)) (k : key) (v : V) : list (key * V) :=
  match d with
  | [] => [(k, v)]
  | (k', v') :: r => if key_eqb k k' then (k', v) :: r else (k', v') :: dset r k v
  end.
(** [del d[k]] *)
Definition ddel {V} (d : list (key * V)) (k : key) : list (key * V) :=
  filter (fun kv => negb (key_eqb k (fst kv))) d.
Definition dkeys {V} (d : list (key * V)) : list key := map fst d.

(** truthiness: [bool(v)] *)
Definition truthy (v : val) : bool :=
  match v with
  | VNone => false
  | VBool b => b
  | VInt z => negb (z =? 0)%Z
  | VFloat q => negb (Qeq_bool q (inject_Z 0))
  | VStr s | VBytes s => match s with [] => false | _ => true end
  | VList l => match l with [] => false | _ => true end
  | VDict d => match d with [] => false | _ => true end
  end.
(** truthiness of [d.get(k)] *)
Definition otruthy (v : option val) : bool := match v with Some v => truthy v | None => false end.
Definition oget (v : option val) : val := match v with Some v => v | None => VNone end.

Definition val_of_key (k : key) : val := match k with KS s => VStr s | KB s => VBytes s end.

(** iteration [for x in v] *)
Definition py_iter (v : val) : res (list val) :=
  match v with
  | VList l => Ok l
  | VDict d => Ok (map (fun kv => val_of_key (fst kv)) d)
  | VStr s => Ok (map (fun c => VStr [c]) s)
  | VBytes s => Ok (map (fun c => VInt (Z.of_N c)) s)
  | _ => Err TypeError
  end.

Definition num_of (v : val) : option Q :=
  match v with
  | VBool b => Some (inject_Z (if b then 1 else 0))
  | VInt z => Some (inject_Z z)
  | VFloat q => Some q
  | _ => None
  end.

(** Python [==] on these values: bool/int/float compare numerically, dicts compare
    without order. *)
Fixpoint py_eq (a b : val) {struct a} : bool :=
  match a, b with
  | VNone, VNone => true
  | VStr x, VStr y => str_eqb x y
  | VBytes x, VBytes y => str_eqb x y
  | VList l1, VList l2 =>
      (fix go (l1 l2 : list val) {struct l1} : bool :=
         match l1, l2 with
         | [], [] => true
         | x :: r1, y :: r2 => py_eq x y && go r1 r2
         | _, _ => false
         end) l1 l2
  | VDict d1, VDict d2 =>
      Nat.eqb (List.length d1) (List.length d2) &&
      (fix go (d : list (key * val)) : bool :=
         match d with
         | [] => true
         | (k, v) :: r =>
             match dget d2 k with Some w => py_eq v w | None => false end && go r
         end) d1
  | _, _ => match num_of a, num_of b with
            | Some p, Some q => Qeq_bool p q
            | _, _ => false
            end
  end.
(** [x in l] *)
Definition py_in (x : val) (l : list val) : bool := existsb (fun y => py_eq y x) l.

Definition is_none (v : val) : bool := match v with VNone => true | _ => false end.

(** Well-formed dynamic values: dict keys are unique at every depth
    (an invariant of every Python dict). *)
Inductive wf : val -> Prop :=
| wf_none : wf VNone
| wf_bool b : wf (VBool b)
| wf_int z : wf (VInt z)
| wf_float q : wf (VFloat q)
| wf_str s : wf (VStr s)
| wf_bytes s : wf (VBytes s)
| wf_list l : Forall wf l -> wf (VList l)
| wf_dict d : NoDup (dkeys d) -> Forall (fun kv => wf (snd kv)) d -> wf (VDict d).
