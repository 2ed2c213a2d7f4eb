(** Model of guessit/rules/common/expected.py. The regular expressions given by the user
    are a parameter. *)
From Verif Require Import Py Text Formatters.

Inductive found := FSpan (a b : nat) | FText (a b : nat) (value : str).

Section Expected.
  (** [Rebulk().regex(search, abbreviations=[dash], flags=IGNORECASE).matches(input)]: the spans *)
  Context (regex_spans : str -> str -> list (nat * nat)).
  (** rules/common/expected.py:43-45 *)
  Definition replace_seps (s : str) : str := fold_left (fun t c => replace_char c 32%N t) seps s.
  (** rules/common/expected.py:34-51: the input string is replaced for the next searches *)
  Fixpoint expected_loop (searches : list str) (input : str) : res (list found) :=
    match searches with
    | [] => Ok []
    | search :: rest =>
        if startswith (lit "re:") search then
          let search := replace_char 32%N 45%N (skipn 3 search) in
          r <- expected_loop rest input;
          Ok (map (fun sp => FSpan (fst sp) (snd sp)) (regex_spans search input) ++ r)
        else
          let input := replace_seps input in
          let search := replace_seps search in
          starts <- find_all true input search;
          r <- expected_loop rest input;
          Ok (map (fun a => FText a (a + List.length search) (slice a (a + List.length search) input)) starts ++ r)
    end.
  Definition expected (input : str) (searches : list str) : res (list found) := expected_loop searches input.
End Expected.
