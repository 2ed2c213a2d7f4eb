(** C27: expected titles and groups *)
From Coq Require Import Sorting.Sorted.
From Verif Require Import Py PyFacts Text TextFacts Formatters Expected ExpectedProofs.

(** C27: every plain expected text is located: the spans reported for it are occurrences of it, up
    to case and separators, do not overlap, and every other occurrence starts inside one of them. *)
Theorem C27_located : forall regex_spans texts s, Forall plain texts ->
  exists ls, expected regex_spans s texts = Ok (List.concat ls) /\ Forall2 (locates s) texts ls.
Proof. intros regex_spans texts s H. apply all_texts; exact H. Qed.
Print Assumptions C27_located.
Example ex_expected : expected (fun _ _ => []) (lit "My-Show.my_show.S01") [lit "my show"; lit "S01"] =
  Ok [FText 0 7 (lit "My Show"); FText 8 15 (lit "my show"); FText 16 19 (lit "S01")] /\ Forall plain [lit "my show"; lit "S01"].
Proof. split; [reflexivity|]. repeat constructor; discriminate. Qed.
(** C27, limit: a regex given after a plain text is not searched in the input but in the input with
    spaces as separators, so the order of the expected values matters. *)
Theorem C27_regex_sees_modified_input_refuted : exists regex_spans s t r,
  expected regex_spans s [t; r] = Ok [] /\ expected regex_spans s [r; t] = Ok [FSpan 0 3].
Proof.
  exists (fun p input => if str_eqb p (lit "a_b") && startswith (lit "a_b") input then [(0, 3)] else []), (lit "a_b"), (lit "zz"), (lit "re:a_b").
  split; reflexivity.
Qed.
Print Assumptions C27_regex_sees_modified_input_refuted.
(** C27, limit: with an empty expected text the search never ends. *)
Theorem C27_empty_diverges_refuted : forall regex_spans s, expected regex_spans s [[]] = Err Diverges.
Proof. intros. unfold expected. cbn [expected_loop startswith lit]. change (startswith (lit "re:") []) with false. cbn iota. rewrite replace_seps_spaced. change (replace_seps []) with (@nil N). rewrite find_all_empty. reflexivity. Qed.
Print Assumptions C27_empty_diverges_refuted.
