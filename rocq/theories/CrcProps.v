(** C24: UUID detection *)
From Coq Require Import Sorting.Sorted.
From Verif Require Import Py PyFacts Text WordsProofs Regex Crc CrcProofs.

(** C24: the spans returned are, in order and without overlap, exactly the maximal runs of
    at least 20 characters of [A-Za-z0-9-] that alternate enough between character classes
    (more than 40% of the length) and between letters (more than 40% of the letters). *)
Theorem C24_guess_idnumber : forall s,
  StronglySorted (fun x y => snd x < fst y) (guess_idnumber s) /\
  forall a b, In (a, b) (guess_idnumber s) <->
    maximal_run (fun c => ~ (is_alpha c = true \/ is_digit c = true \/ c = 45%N)) s a b /\ 20 <= b - a /\
    let u := slice a b s in
    2 * List.length u < 5 * class_switches u /\
    (letters u = [] \/ 2 * List.length (letters u) < 5 * letter_changes u).
Proof.
  intros s. unfold guess_idnumber. rewrite map_filter_fst. unfold finditer.
  destruct (finditer_runs s id_char 20 ltac:(lia) (S (List.length s)) 0 ltac:(lia) (or_introl eq_refl)) as [H1 H2].
  split; [apply sorted_filter; exact H1|]. intros a b. rewrite filter_In. cbn [fst snd]. rewrite id_ok_spec.
  change (map (@fst _ caps)) with (map (@fst (nat * nat) caps)). unfold idnum_re. rewrite H2.
  assert (E : run s id_char a b <-> maximal_run (fun c => ~ (is_alpha c = true \/ is_digit c = true \/ c = 45%N)) s a b).
  { assert (Hc : forall c, id_char c = false <-> ~ (is_alpha c = true \/ is_digit c = true \/ c = 45%N)).
    { intros c. unfold id_char. destruct (is_alpha c), (is_digit c), (N.eqb_spec c 45) as [E|E]; simpl; intuition congruence. }
    unfold run, maximal_run. setoid_rewrite Hc. reflexivity. }
  rewrite E. intuition lia.
Qed.
Print Assumptions C24_guess_idnumber.
Example ex_uuid : guess_idnumber (lit "x.1a2b3c4d5e6f7g8h9i0j.avi") = [(2, 22)] /\ guess_idnumber (lit "averyveryverylongwordindeed") = [].
Proof. split; vm_compute; reflexivity. Qed.
