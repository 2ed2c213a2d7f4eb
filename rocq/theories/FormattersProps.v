(** C18 and C19: cleanup and reorder_title.
    The specification predicates are at the top of FormattersProofs.v. *)
From Verif Require Import Py PyFacts Text TextFacts Formatters FormattersProofs.

(** C18: cleanup never fails and touches separators only: every other character is kept, in
    order; separators are kept, replaced by a space, or dropped; no two consecutive spaces;
    no separator at either end except restored ones. *)
Theorem C18_only_separators : forall s, exists t, cleanup s = Ok t /\
  only_seps_touched s t /\ no_double_space t /\
  (forall c, hd_error t = Some c -> ~ strippable s c) /\
  (forall c, last_error t = Some c -> ~ strippable s c).
Proof. exact cleanup_touches. Qed.
Print Assumptions C18_only_separators.

(** C18: hence the non-separator characters are the same and the result is not longer. *)
Theorem C18_letters_kept : forall s t, cleanup s = Ok t ->
  filter (fun c => negb (cmem c (lit " [](){}+*|=-_~#/\\.,;:"))) t =
  filter (fun c => negb (cmem c (lit " [](){}+*|=-_~#/\\.,;:"))) s /\
  List.length t <= List.length s.
Proof.
  intros s t H. destruct (cleanup_touches s) as (t' & E & Ht & _). rewrite H in E; injection E as <-.
  split; [exact (ot_letters s t Ht)|exact (ot_length s t Ht)].
Qed.
Print Assumptions C18_letters_kept.

(** C18: exact result. Position by position, a separator between single letters in a row is
    restored; another separator of " [](){}+*|=_~#." becomes a space; other characters stay;
    then both ends are stripped of the separators that were not restored and runs of
    spaces are squeezed. *)
Theorem C18_exact : forall s, exists l u m v t,
  cleanup s = Ok t /\ List.length l = List.length s /\
  (forall i c, nth_error s i = Some c ->
     (restored s i -> nth_error l i = Some c) /\
     (~ restored s i -> nth_error l i = Some (if cmem c (lit " [](){}+*|=_~#.") then 32%N else c))) /\
  l = u ++ m ++ v /\ Forall (strippable s) u /\ Forall (strippable s) v /\
  (forall c, hd_error m = Some c -> ~ strippable s c) /\ (forall c, last_error m = Some c -> ~ strippable s c) /\
  squeezed m t.
Proof. exact cleanup_exact. Qed.
Print Assumptions C18_exact.
Example ex_cleanup1 : cleanup (lit "..Foo__bar-(baz).") = Ok (lit "Foo bar- baz").
Proof. reflexivity. Qed.
Example ex_cleanup2 : cleanup (lit "Agents.of.S.H.I.E.L.D.") = Ok (lit "Agents of S.H.I.E.L.D.").
Proof. reflexivity. Qed.

(** C19: a trailing article is moved to the front, the first matching (article, separator)
    in article-major order being used; otherwise the title is unchanged. *)
Theorem C19_reorder : forall title articles separators, Forall (fun a => a <> []) articles ->
  (exists la art ra ls sep rs rest sepT artT,
     articles = la ++ art :: ra /\ separators = ls ++ sep :: rs /\
     title = rest ++ sepT ++ artT /\ lower sepT = sep /\ lower artT = art /\
     reorder_title title articles separators = artT ++ lit " " ++ rest /\
     (forall a s x y z, In a la -> In s separators -> ~ ends_with_article title s a x y z) /\
     (forall s x y z, In s ls -> ~ ends_with_article title s art x y z)) \/
  (reorder_title title articles separators = title /\
   forall a s x y z, In a articles -> In s separators -> ~ ends_with_article title s a x y z).
Proof.
  intros title articles separators H. pose proof (try_articles_spec title articles separators H) as G.
  unfold reorder_title. destruct (try_articles title (lower title) articles separators) as [t|]; [left|right; split; [reflexivity|exact G]].
  destruct G as (la & art & ra & ls & sep & rs & rest & sepT & artT & H1 & H2 & (H3 & H4 & H5) & H6 & H7 & H8).
  exists la, art, ra, ls, sep, rs, rest, sepT, artT. repeat (split; [assumption|]). assumption.
Qed.
Print Assumptions C19_reorder.
Definition def_articles := [lit "the"].
Definition def_separators := [lit ","; lit ", "].
Example ex_reorder : reorder_title (lit "Matrix, The") def_articles def_separators = lit "The Matrix" /\
  Forall (fun a => a <> []) def_articles.
Proof. split; [reflexivity|]. repeat constructor; discriminate. Qed.
(** C19, limit: not idempotent. *)
Theorem C19_idempotent_refuted : exists t,
  reorder_title (reorder_title t def_articles def_separators) def_articles def_separators
  <> reorder_title t def_articles def_separators.
Proof. exists (lit "X, The, The"). discriminate. Qed.
Print Assumptions C19_idempotent_refuted.
