(** rebulk's default rules, which guessit's [rebulk_builder] keeps (rules/__init__.py:46-99 builds on [Rebulk()], whose default
    rules are [ConflictSolver] and [PrivateRemover], rebulk/processors.py). Rebulk is not in /repo: this file transcribes version
    3.2.0 and is an assumption, like Rebulk.v. The solver functions are those guessit gives to its patterns
    (e.g. date.py:30-32, 39-41, 58-60, container.py:30-33, 51-54). *)
From Verif Require Import Py Text Sort Rebulk.
From Coq Require Import Arith.

(** a match and its identity: its place in the list (two equal matches are two objects) *)
Definition obj := (nat * mt)%type.
Definition objects (ms : list mt) : list obj := combine (seq 0 (List.length ms)) ms.
(** the answer of a conflict solver called with [(match, other)]. Simplification: it returns one of its two arguments,
    ['__default__'] or a false value; so do all the solvers of guessit. *)
Inductive answer := RemoveMatch | RemoveOther | RemoveNone | Default.
Definition solver := mt -> mt -> answer.

Definition len (o : obj) : nat := m_end (snd o) - m_start (snd o).
(** [len(match.initiator)] *)
Definition ini_len (o : obj) : nat := match m_parent (snd o) with Some p => p_end p - p_start p | None => len o end.
Definition sort_len (l : list obj) : list obj := isort (fun a b => len a <=? len b) l.
Definition same (a b : obj) : bool := mt_eqb (snd a) (snd b).
Definition is_in (o : obj) (l : list nat) : bool := existsb (Nat.eqb (fst o)) l.
Definition public (o : obj) : bool := negb (m_private (snd o)).

(** [matches.conflicting(match)] *)
Definition add_new (acc : list obj) (l : list obj) : list obj :=
  fold_left (fun acc o => if existsb (same o) acc then acc else acc ++ [o]) l acc.
Fixpoint drop_same (m : obj) (l : list obj) : list obj :=
  match l with [] => [] | x :: r => if same m x then r else x :: drop_same m r end.
Definition conflicting_with (m : obj) (l : list obj) : list obj :=
  drop_same m (fold_left (fun acc i => add_new acc (filter (fun o => covers i (snd o)) l)) (seq (m_start (snd m)) (len m)) []).

Section Solve.
  Context (solver_of : obj -> option solver).
  (** rebulk/processors.py [_default_conflict_solver] *)
  Definition by_length (m c : obj) : option obj :=
    if ini_len c <? ini_len m then Some c else if ini_len m <? ini_len c then Some m else None.
  (** one solver: [None] is ['__default__'] *)
  Definition ask (a b : obj) : option (option obj) :=
    match solver_of a with
    | None => None
    | Some f => match f (snd a) (snd b) with
                | Default => None | RemoveNone => Some None | RemoveMatch => Some (Some a) | RemoveOther => Some (Some b)
                end
    end.
  (** the solvers, last first: the one of the conflicting match, the one of the match, the default one *)
  Definition to_remove (m c : obj) : option obj :=
    match ask c m with
    | Some r => r
    | None => match ask m c with
              | Some r => r
              | None => by_length m c
              end
    end.
  Definition meet (m : obj) (gone : list nat) (c : obj) : list nat :=
    match to_remove m c with
    | None => gone
    | Some x => if is_in x gone then gone
                else if is_in (if fst x =? fst m then c else m) gone then gone
                else gone ++ [fst x]
    end.
  Definition meet_all (l : list obj) (gone : list nat) (m : obj) : list nat :=
    fold_left (meet m) (sort_len (filter public (conflicting_with m l))) gone.
  (** rebulk/processors.py [ConflictSolver.when] *)
  Definition lost (ms : list mt) : list nat :=
    let l := objects ms in fold_left (meet_all l) (sort_len (filter public l)) [].
  (** [ConflictSolver]: [RemoveMatch] of them *)
  Definition ConflictSolver (ms : list mt) : list mt :=
    remove_all (map snd (filter (fun o => is_in o (lost ms)) (objects ms))) ms.
End Solve.

(** rebulk/processors.py [PrivateRemover] *)
Definition PrivateRemover (ms : list mt) : list mt := remove_all (filter m_private ms) ms.

(** container.py:30-33: the solver of the extensions *)
Definition extension_solver : solver := fun _ other =>
  if smem (m_name other) [lit "source"; lit "video_codec"] then RemoveOther
  else if has_name (lit "container") other && negb (has_tag (lit "extension") other) then RemoveOther else Default.
(** container.py:51-54: the solver of the names of containers *)
Definition container_solver : solver := fun _ other =>
  if smem (m_name other) [lit "source"; lit "video_codec"] then RemoveMatch
  else if has_name (lit "container") other && has_tag (lit "extension") other then RemoveMatch else Default.
(** date.py:30-32, 39-41: the solver of years and weeks *)
Definition year_solver : solver := fun m other =>
  if smem (m_name other) [lit "episode"; lit "season"] && (m_raw_end other - m_raw_start other <? m_raw_end m - m_raw_start m) then RemoveOther else Default.
(** date.py:58-60: the solver of dates *)
Definition date_solver : solver := fun _ other => if smem (m_name other) [lit "episode"; lit "season"; lit "crc32"] then RemoveOther else Default.
