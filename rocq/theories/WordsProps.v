(** C17: word splitting *)
From Coq Require Import Sorting.Sorted.
From Verif Require Import Py PyFacts Text Words WordsProofs.

(** C17: exactly the maximal runs of non-separators, in order, with their text.
    [maximal_run sep s a b]: s[a:b] is non-empty, has no separator, and is preceded and
    followed by a separator or an end of [s]. *)
Theorem C17_words : forall s,
  Forall (fun w => w_value w = slice (w_start w) (w_end w) s) (iter_words s) /\
  StronglySorted (fun w w' => w_end w < w_start w') (iter_words s) /\
  forall a b, (exists w, In w (iter_words s) /\ w_start w = a /\ w_end w = b) <->
    maximal_run (fun c => (c < 128)%N /\ In c (lit " [](){}+*|=-_~#/\\.,;:")) s a b.
Proof. exact iter_words_spec. Qed.
Print Assumptions C17_words.

(** C17: every non-separator character is in exactly one word. *)
Theorem C17_every_character : forall s k c,
  nth_error s k = Some c -> ~ ((c < 128)%N /\ In c (lit " [](){}+*|=-_~#/\\.,;:")) ->
  exists l w r, iter_words s = l ++ w :: r /\ w_start w <= k < w_end w /\
    Forall (fun w' => ~ w_start w' <= k < w_end w') (l ++ r).
Proof.
  intros s k c Hk Hc. destruct (run_exists s k c Hk Hc) as (a & b & Hr & Hab).
  destruct (iter_words_spec s) as (_ & Hs & Hi). apply Hi in Hr as (w & Hw & <- & <-).
  apply in_split in Hw as (l & r & E). exists l, w, r. split; [exact E|]. split; [exact Hab|].
  rewrite E in Hs. clear - Hs Hab. assert (Hne : forall w', In w' r -> w_end w < w_start w').
  { induction l as [|x l IH]; simpl in Hs; inversion Hs as [|? ? Hs' Hf]; subst.
    - rewrite Forall_forall in Hf; exact Hf.
    - apply IH; exact Hs'. }
  assert (Hnl : forall w', In w' l -> w_end w' < w_start w).
  { clear Hne. induction l as [|x l IH]; simpl in Hs; inversion Hs as [|? ? Hs' Hf]; subst; intros w' Hw'; [destruct Hw'|].
    destruct Hw' as [<-|Hw']; [|apply IH; assumption]. rewrite Forall_forall in Hf. apply Hf. rewrite in_app_iff; right; left; reflexivity. }
  apply Forall_app; split; apply Forall_forall; intros w' Hw' Hb; [apply Hnl in Hw'|apply Hne in Hw']; lia.
Qed.
Print Assumptions C17_every_character.
Example ex_words : map (fun w => (w_start w, w_end w, w_value w)) (iter_words (lit "..ab - c"))
  = [(2, 4, lit "ab"); (7, 8, lit "c")].
Proof. reflexivity. Qed.
