(** Model of guessit/rules/common/formatters.py *)
From Verif Require Import Py Text.

(** rules/common/formatters.py:10-14 *)
Definition excluded_clean_chars : str := lit ",:;-/\".
Definition clean_chars : str := filter (fun c => negb (cmem c excluded_clean_chars)) seps.

(** [s[i]] *)
Definition at_ (s : str) (i : Z) : res char :=
  match zindex s i with Some c => Ok c | None => Err IndexError end.

(** rules/common/formatters.py:17-28; [i - 2] may be -1, which is the last character *)
Definition potential_before (i : nat) (s : str) : res bool :=
  if (0 <=? Z.of_nat i - 1)%Z then
    a <- at_ s (Z.of_nat i);
    if negb (cmem a seps) then Ok false else
    b <- at_ s (Z.of_nat i - 2);
    if negb (cmem b seps) then Ok false else
    c <- at_ s (Z.of_nat i - 1);
    Ok (negb (cmem c seps))
  else Ok false.

(** rules/common/formatters.py:31-43 *)
Definition potential_after (i : nat) (s : str) : res bool :=
  if List.length s <=? i + 2 then Ok true
  else
    a <- at_ s (Z.of_nat i + 2);
    b <- at_ s (Z.of_nat i);
    if negb (N.eqb a b) then Ok false else
    c <- at_ s (Z.of_nat i + 1);
    Ok (negb (cmem c seps)).

(** [s.replace(c, ' ')] for one character *)
Definition replace_char (c d : char) (s : str) : str := map (fun x => if N.eqb x c then d else x) s.

(** positions of the elements satisfying [p], from [pos] *)
Fixpoint positions (p : char -> bool) (s : str) (pos : nat) : list nat :=
  match s with
  | [] => []
  | c :: r => if p c then pos :: positions p r (S pos) else positions p r (S pos)
  end.

Fixpoint filterM {A} (f : A -> res bool) (l : list A) : res (list A) :=
  match l with
  | [] => Ok []
  | x :: r => b <- f x; r' <- filterM f r; Ok (if b then x :: r' else r')
  end.

(** [l[i] = x] *)
Fixpoint set_at {A} (l : list A) (i : nat) (x : A) : list A :=
  match l, i with
  | [], _ => []
  | _ :: r, O => x :: r
  | y :: r, S i' => y :: set_at r i' x
  end.

(** [re.sub(' +', ' ', s)] *)
Fixpoint squeeze_from (after_space : bool) (s : str) : str :=
  match s with
  | [] => []
  | c :: r => if N.eqb c 32 then (if after_space then squeeze_from true r else c :: squeeze_from true r)
              else c :: squeeze_from false r
  end.
Definition squeeze (s : str) : str := squeeze_from false s.

Definition nmem (n : nat) (l : list nat) : bool := existsb (Nat.eqb n) l.
Definition zmem (z : Z) (l : list nat) : bool := existsb (fun n => Z.eqb z (Z.of_nat n)) l.

(** rules/common/formatters.py:46-92 [cleanup] *)
Definition cleanup (s : str) : res str :=
  (* 57-59 *)
  let clean := fold_left (fun t c => replace_char c 32%N t) clean_chars s in
  (* 65 *)
  let indices := positions (fun c => cmem c seps) clean 0 in
  (* 71-75 *)
  potential <- filterM (fun i => b <- potential_before i s; if b then potential_after i s else Ok false) indices;
  (* 77-81 *)
  let to_replace := filter (fun p => zmem (Z.of_nat p - 2) potential || nmem (p + 2) potential) potential in
  (* 83-87 *)
  dots <- mapM (fun i => at_ s (Z.of_nat i)) to_replace;
  let clean2 := fold_left (fun t ic => set_at t (fst ic) (snd ic)) (combine to_replace dots) clean in
  (* 89 and 95-104 [strip] *)
  let stripped := strip (fun c => cmem c (filter (fun x => negb (cmem x dots)) seps)) clean2 in
  (* 91 *)
  Ok (squeeze stripped).

(** rules/common/formatters.py:107-115; [formatters(f, g)(x) = g(f(x))] (rebulk) *)
Definition raw_cleanup (raw : str) : res str :=
  t <- cleanup (lower raw); Ok (strip (fun c => cmem c seps) t).

(** rules/common/formatters.py:118-136 [reorder_title] *)
Fixpoint try_separators (title ltitle article : str) (separators : list str) : option str :=
  match separators with
  | [] => None
  | separator :: r =>
      let suffix := separator ++ article in
      let n := Z.of_nat (List.length suffix) in
      let len := Z.of_nat (List.length title) in
      if str_eqb (zslice (- n) len ltitle) suffix then
        Some (zslice (- n + Z.of_nat (List.length separator)) len title ++ [32%N] ++ zslice 0 (- n) title)
      else try_separators title ltitle article r
  end.
Fixpoint try_articles (title ltitle : str) (articles separators : list str) : option str :=
  match articles with
  | [] => None
  | article :: r =>
      match try_separators title ltitle article separators with
      | Some t => Some t
      | None => try_articles title ltitle r separators
      end
  end.
Definition reorder_title (title : str) (articles separators : list str) : str :=
  match try_articles title (lower title) articles separators with
  | Some t => t
  | None => title
  end.
