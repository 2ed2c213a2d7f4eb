(** Specification vocabulary for the rules of processors.py: written in terms of matches only. *)
From Verif Require Import Py Text Rebulk Processors.

(** [a] comes before [b] in [l] *)
Definition before {A} (l : list A) (a b : A) : Prop := exists l1 l2 l3, l = l1 ++ a :: l2 ++ b :: l3.
(** the number of distinct names of the matches satisfying [p] in the span of [k] *)
Definition found (ms : list mt) (p : mt -> bool) (k m : mt) : Prop :=
  In m ms /\ p m = true /\ m_start m < m_end k /\ m_start k < m_end m.
Definition weight (ms : list mt) (p : mt -> bool) (k : mt) (n : nat) : Prop :=
  exists names, NoDup names /\ List.length names = n /\ forall x, In x names <-> exists m, found ms p k m /\ m_name m = x.
(** [a] goes before [b]: more names, or as many and further in the given list *)
Definition better (ms : list mt) (p : mt -> bool) (markers : list mt) (a b : mt) : Prop :=
  exists wa wb, weight ms p a wa /\ weight ms p b wb /\ (wb < wa \/ (wa = wb /\ before markers b a)).
(** the first part of the order that has the property, and its values *)
Definition part_value (ms : list mt) (p : mt -> bool) (k : mt) (n : str) (v : mval) : Prop :=
  exists m, found ms p k m /\ m_name m = n /\ m_value m = v.
Definition has_prop (ms : list mt) (p : mt -> bool) (k : mt) (n : str) : Prop := exists m, found ms p k m /\ m_name m = n.
Definition winner (ms : list mt) (p : mt -> bool) (parts : list mt) (n : str) (k : mt) : Prop :=
  exists l1 l2, parts = l1 ++ k :: l2 /\ has_prop ms p k n /\ forall k', In k' l1 -> ~ has_prop ms p k' n.
(** [v] is a value of property [n] in the first part of [parts] that has this property *)
Definition wins (ms : list mt) (p : mt -> bool) (parts : list mt) (n : str) (v : mval) : Prop :=
  exists k, winner ms p parts n k /\ part_value ms p k n v.
(** the leftmost element with a property *)
Definition leftmost (parts : list mt) (Q : mt -> Prop) (k : mt) : Prop :=
  exists l1 l2, parts = l1 ++ k :: l2 /\ Q k /\ forall k', In k' l1 -> ~ Q k'.
Definition has_form (ms : list mt) (n : str) (k : mt) : Prop := exists m, found ms (sxxexx n) k m.
(** the part which decides the values of [n]: the leftmost one with an SxxExx form, or the leftmost one with [n] *)
Definition deciding (ms : list mt) (n : str) (parts : list mt) (k : mt) : Prop :=
  leftmost parts (has_form ms n) k \/
  ((forall k', In k' parts -> ~ has_form ms n k') /\ leftmost parts (fun k => has_prop ms (has_name n) k n) k).
Definition trimmed (l : str) : Prop := forall c, nth_error l 0 = Some c -> no_group c = true -> exists d, nth_error l 2 = Some d /\ no_group d = true.
(** ** [preferred_string] *)
Definition same_but_case (a b : str) : Prop := lower a = lower b.
