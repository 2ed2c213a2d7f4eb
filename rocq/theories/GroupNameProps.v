(** C28: release group names *)
From Verif Require Import Py PyFacts Text TextFacts Regex FormattersProofs GroupName GroupNameProofs.

(** C28: a cleaned name is a part of the text, in which "A) [B]" may have become "A B"; hence it
    has no character that was not there but a space, and is not longer; without a square bracket
    it is exactly a part of the text. *)
Theorem C28_part_of_text : forall ignored forbidden s,
  (exists t, part_of t s /\ credits t (clean_groupname ignored forbidden s)) /\
  (forall c, In c (clean_groupname ignored forbidden s) -> In c s \/ c = 32%N) /\
  List.length (clean_groupname ignored forbidden s) <= List.length s /\
  (~ In 91%N s -> part_of (clean_groupname ignored forbidden s) s).
Proof.
  intros ignored forbidden s. destruct (clean_credits ignored forbidden s) as (t & Hp & Hc). destruct (credits_facts _ _ Hc) as (F1 & F2 & F3).
  split; [exists t; auto|]. destruct Hp as (u & v & E). split; [|split].
  - intros c H. destruct (F1 c H) as [H'|H']; [left; rewrite E, !in_app_iff; auto|auto].
  - apply (f_equal (@List.length N)) in E. rewrite !app_length in E. lia.
  - intros Hn. rewrite F3; [exists u, v; exact E|]. intros H. apply Hn. rewrite E, !in_app_iff. auto.
Qed.
Print Assumptions C28_part_of_text.
(** C28: a forbidden word at the start, followed by a separator, is dropped and the rest kept; a
    name that is just a forbidden word gives nothing. *)
Theorem C28_forbidden_prefix : forall ignored f f' c rest,
  f <> [] -> lower f' = f -> In c seps -> rest <> [] -> endswith f (lower rest) = false ->
  no_ignored ignored (f' ++ c :: rest) -> trimmed (f' ++ c :: rest) ->
  clean_groupname ignored [f] (f' ++ c :: rest) = clean_groupname ignored [] rest.
Proof. intros. apply forbidden_prefix; assumption. Qed.
Print Assumptions C28_forbidden_prefix.
Theorem C28_forbidden_alone : forall ignored f f', f <> [] -> lower f' = f -> no_ignored ignored f' -> trimmed f' ->
  clean_groupname ignored [f] f' = [].
Proof. intros. apply forbidden_alone; assumption. Qed.
Print Assumptions C28_forbidden_alone.
(** C28: brackets on both sides stay, those on one side only go. A name that begins and ends with a bracket, and in which nothing credits a member,
    is given as it is; one with brackets on one side only, and none within, is given without them. *)
Theorem C28_brackets_kept : forall ignored a u b, In a ignored -> In b ignored -> is_space a = false -> is_space b = false -> ~ In 41%N (a :: u ++ [b]) ->
  clean_groupname ignored [] (a :: u ++ [b]) = a :: u ++ [b].
Proof.
  intros ignored a u b Ha Hb Sa Sb N. apply cmem_In in Ha, Hb.
  assert (L : last_error (a :: u ++ [b]) = Some b) by (unfold last_error; rewrite app_comm_cons, rev_app_distr; reflexivity).
  unfold clean_groupname. cbn [fold_left].
  assert (O : clean_outer ignored (a :: u ++ [b]) = a :: u ++ [b]).
  { unfold clean_outer. replace (strip (groupname_sep ignored) (a :: u ++ [b])) with (a :: u ++ [b]).
    - unfold is_ignored. rewrite app_comm_cons, rev_app_distr. cbn [rev app]. rewrite Ha, Hb. reflexivity.
    - symmetry. apply strip_nop; intros c E; [injection E as <-|rewrite L in E; injection E as <-]; unfold groupname_sep; [rewrite Ha|rewrite Hb]; apply andb_false_r. }
  rewrite O. rewrite (strip_nop is_space); [|intros c E; injection E as <-; exact Sa|intros c E; rewrite L in E; injection E as <-; exact Sb].
  pose proof (sub_credits (a :: u ++ [b]) (S (List.length (a :: u ++ [b]))) 0) as K. unfold members, finditer.
  apply (credits_plain (a :: u ++ [b])); [|exact N]. rewrite skipn_O in K. apply K. lia.
Qed.
Print Assumptions C28_brackets_kept.
Theorem C28_brackets_dropped : forall ignored a u, In a ignored -> u <> [] -> no_ignored ignored u -> trimmed u -> ~ In 41%N u -> (forall c, In c u -> is_space c = false) ->
  clean_groupname ignored [] (a :: u) = u /\ clean_groupname ignored [] (u ++ [a]) = u.
Proof.
  intros ignored a u Ha Hne Hu [T1 T2] N Sp. apply cmem_In in Ha.
  assert (IF : forall c, In c u -> is_ignored ignored c = false) by (intros c Hc; apply (ignored_false ignored u); auto).
  assert (GF : forall c, ~ In c seps -> groupname_sep ignored c = false) by (intros c Hc; unfold groupname_sep, is_sep; destruct (cmem c seps) eqn:E; [apply cmem_In in E; contradiction|reflexivity]).
  assert (Ga : groupname_sep ignored a = false) by (unfold groupname_sep; rewrite Ha; apply andb_false_r).
  assert (SU : strip (is_ignored ignored) u = u) by (apply strip_nop; intros c Hc; apply IF; [apply hd_In|apply last_In]; exact Hc).
  assert (End : members (strip is_space u) = u).
  { rewrite strip_nop; [|intros c E; apply Sp, hd_In; exact E|intros c E; apply Sp, last_In; exact E].
    pose proof (sub_credits u (S (List.length u)) 0) as K. unfold members, finditer. apply (credits_plain u); [|exact N]. rewrite skipn_O in K. apply K. lia. }
  destruct (rev u) as [|z w] eqn:R; [apply (f_equal (@rev char)) in R; rewrite rev_involutive in R; contradiction|].
  assert (L : last_error u = Some z) by (unfold last_error; rewrite R; reflexivity).
  assert (Iz : is_ignored ignored z = false) by (apply IF, last_In; exact L).
  destruct u as [|x u]; [contradiction|]. assert (Ix : is_ignored ignored x = false) by (apply IF; left; reflexivity).
  assert (Strip : forall p, p a = true -> (forall c, In c (x :: u) -> p c = false) -> strip p (a :: x :: u) = x :: u /\ strip p ((x :: u) ++ [a]) = x :: u).
  { intros p Pa Pu. assert (R0 : rev u ++ [x] = z :: w) by exact R. assert (Pz : p z = false) by (apply Pu, last_In; exact L). split.
    - unfold strip. cbn [lstrip]. rewrite Pa, (Pu x (or_introl eq_refl)). unfold rstrip. cbn [rev]. rewrite R0. cbn [lstrip]. rewrite Pz, <- R0. change (rev u ++ [x]) with (rev (x :: u)). apply rev_involutive.
    - unfold strip. cbn [app lstrip]. rewrite (Pu x (or_introl eq_refl)). unfold rstrip. change (x :: u ++ [a]) with ((x :: u) ++ [a]). rewrite rev_app_distr. cbn [rev app lstrip]. rewrite Pa, R0. cbn [lstrip]. rewrite Pz, <- R0. change (rev u ++ [x]) with (rev (x :: u)). apply rev_involutive. }
  destruct (Strip (is_ignored ignored) Ha IF) as [S1 S2].
  assert (NoI : existsb (is_ignored ignored) (x :: u) = false) by (destruct (existsb (is_ignored ignored) (x :: u)) eqn:E; [apply existsb_exists in E as (c & C1 & C2); rewrite (IF c C1) in C2; discriminate|reflexivity]).
  unfold clean_groupname. cbn [fold_left]. split; (replace (clean_outer ignored _) with (x :: u); [exact End|]); symmetry; unfold clean_outer.
  - rewrite (strip_nop (groupname_sep ignored)); [|intros c E; injection E as <-; exact Ga|intros c E; unfold last_error in E; cbn [rev] in E; cbn [rev] in R; rewrite R in E; injection E as <-; apply GF, T2; exact L].
    rewrite S1, NoI. cbn [rev]. cbn [rev] in R. rewrite R. cbn [app]. rewrite Iz. reflexivity.
  - rewrite (strip_nop (groupname_sep ignored)); [|intros c E; injection E as <-; apply GF, T1; reflexivity|intros c E; unfold last_error in E; rewrite rev_app_distr in E; injection E as <-; exact Ga].
    rewrite S2, NoI. cbn [app]. rewrite Ix. rewrite andb_false_r. reflexivity.
Qed.
Print Assumptions C28_brackets_dropped.
Definition default_ignored : str := lit "[]{}()".
Example ex_clean : clean_groupname default_ignored [lit "by"; lit "rip"] (lit "-By.MyGroup-") = lit "MyGroup"
  /\ clean_groupname default_ignored [] (lit "John Doe) [Grp]") = lit "John Doe Grp"
  /\ no_ignored default_ignored (lit "By.MyGroup") /\ trimmed (lit "By.MyGroup").
Proof.
  split; [vm_compute; reflexivity|]. split; [vm_compute; reflexivity|]. split.
  - intros c H1 H2. vm_compute in H1. repeat (destruct H1 as [<-|H1]; [apply cmem_In in H2; discriminate|]). destruct H1.
  - split; intros c H; injection H as <-; intros H; apply cmem_In in H; discriminate.
Qed.
Example ex_brackets : clean_groupname default_ignored [] (lit "[My Group]") = lit "[My Group]" /\ clean_groupname default_ignored [] (lit "[MyGroup") = lit "MyGroup".
Proof.
  split; [apply (C28_brackets_kept default_ignored 91%N (lit "My Group") 93%N); try reflexivity; [left; reflexivity|right; left; reflexivity|]|].
  - intros H. vm_compute in H. repeat (destruct H as [H|H]; [discriminate|]). destruct H.
  - apply (C28_brackets_dropped default_ignored 91%N (lit "MyGroup")); [left; reflexivity|discriminate| | | |].
    + intros c H1 H2. vm_compute in H1. repeat (destruct H1 as [<-|H1]; [apply cmem_In in H2; discriminate|]). destruct H1.
    + split; intros c H; injection H as <-; intros H; apply cmem_In in H; discriminate.
    + intros H. vm_compute in H. repeat (destruct H as [H|H]; [discriminate|]). destruct H.
    + intros c H. vm_compute in H. repeat (destruct H as [<-|H]; [reflexivity|]). destruct H.
Qed.
(** C28, limit: a forbidden word at the end does not only disappear, the name is cut to the length
    of the forbidden word. *)
Theorem C28_forbidden_suffix_refuted : exists f s, clean_groupname default_ignored [f] (s ++ lit " " ++ f) = lit "My" /\ s = lit "MyGroup".
Proof. exists (lit "by"), (lit "MyGroup"). split; [vm_compute; reflexivity|reflexivity]. Qed.
Print Assumptions C28_forbidden_suffix_refuted.
(** C28, limit: surrounding separators are not always stripped. *)
Theorem C28_separators_left_refuted : clean_groupname default_ignored [] (lit "[.abc") = lit ".abc" /\
  clean_groupname default_ignored [] (lit "ab) [cd ]") = lit "ab cd ".
Proof. split; vm_compute; reflexivity. Qed.
Print Assumptions C28_separators_left_refuted.
