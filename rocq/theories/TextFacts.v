(** Facts on substring search and slices *)
From Coq Require Import Sorting.Sorted.
From Verif Require Import Py PyFacts Text.

Lemma startswith_app p s : startswith p s = true <-> exists r, s = p ++ r.
Proof.
  revert s; induction p as [|x p IH]; intros s; simpl; [split; [intros _; exists s; reflexivity|reflexivity]|].
  destruct s as [|y s]; [split; [discriminate|intros [r H]; discriminate]|].
  rewrite Bool.andb_true_iff, N.eqb_eq, IH. split.
  - intros [-> [r ->]]; exists r; reflexivity.
  - intros [r H]; injection H as -> ->; split; [reflexivity|exists r; reflexivity].
Qed.
Lemma endswith_app p s : endswith p s = true <-> exists r, s = r ++ p.
Proof.
  unfold endswith. rewrite startswith_app. split; intros [r H].
  - exists (rev r). rewrite <- (rev_involutive s), H, rev_app_distr, rev_involutive; reflexivity.
  - exists (rev r). rewrite H, rev_app_distr; reflexivity.
Qed.

Lemma skipn_skipn' {A} (n m : nat) (l : list A) : skipn n (skipn m l) = skipn (m + n) l.
Proof. revert l; induction m as [|m IH]; intros l; [reflexivity|]. destruct l; simpl; [apply skipn_nil|apply IH]. Qed.

(** [p] occurs in [s] at position [i] *)
Definition occurs (p s : str) (i : nat) : Prop := startswith p (skipn i s) = true.

Lemma occurs_iff p s i : p <> [] -> occurs p s i <-> slice i (i + List.length p) s = p /\ i + List.length p <= List.length s.
Proof.
  intros Hp; unfold occurs, slice. rewrite startswith_app. replace (i + List.length p - i) with (List.length p) by lia. split.
  - intros [r H]. rewrite H, firstn_app, firstn_all, Nat.sub_diag; simpl; rewrite app_nil_r. split; [reflexivity|].
    assert (List.length (skipn i s) = List.length p + List.length r) by (rewrite H, app_length; reflexivity).
    rewrite skipn_length in *. destruct p; [congruence|simpl in *; lia].
  - intros [H _]. exists (skipn (List.length p) (skipn i s)). rewrite <- H at 1. symmetry; apply firstn_skipn.
Qed.

Lemma find_from_spec p s : forall pos,
  match find_from p s pos with
  | Some i => pos <= i /\ occurs p s (i - pos) /\ forall k, pos <= k < i -> ~ occurs p s (k - pos)
  | None => forall k, k <= List.length s -> ~ occurs p s k
  end.
Proof.
  induction s as [|c s IH]; intros pos; cbn [find_from].
  - destruct (startswith p []) eqn:E.
    + split; [lia|]. rewrite Nat.sub_diag. split; [exact E|]. intros; lia.
    + intros k Hk H. simpl in Hk. replace k with 0 in H by lia. unfold occurs in H; simpl in H; congruence.
  - destruct (startswith p (c :: s)) eqn:E.
    + split; [lia|]. rewrite Nat.sub_diag. split; [exact E|]. intros; lia.
    + specialize (IH (S pos)). destruct (find_from p s (S pos)) as [i|].
      * destruct IH as (H1 & H2 & H3). split; [lia|]. split.
        -- unfold occurs in *. replace (i - pos) with (S (i - S pos)) by lia. exact H2.
        -- intros k Hk. destruct (Nat.eq_dec k pos) as [->|Hn].
           ++ rewrite Nat.sub_diag; unfold occurs; simpl skipn; congruence.
           ++ unfold occurs. replace (k - pos) with (S (k - S pos)) by lia. apply H3; lia.
      * intros k Hk. destruct k as [|k]; [unfold occurs; simpl skipn; congruence|].
        apply IH. simpl in Hk; lia.
Qed.

Lemma occurs_skip p s i k : occurs p (skipn i s) k <-> occurs p s (i + k).
Proof. unfold occurs. rewrite skipn_skipn'. reflexivity. Qed.

Lemma find_sub_spec p s start : p <> [] ->
  match find_sub p s start with
  | Some i => start <= i /\ occurs p s i /\ forall k, start <= k < i -> ~ occurs p s k
  | None => forall k, start <= k -> ~ occurs p s k
  end.
Proof.
  intros Hp; unfold find_sub. assert (Hlen : forall k, occurs p s k -> k < List.length s).
  { intros k Hk; apply occurs_iff in Hk; [|exact Hp]. destruct p; [congruence|simpl in *; lia]. }
  destruct (Nat.ltb_spec (List.length s) start) as [Hl|Hl].
  - intros k Hk H; apply Hlen in H; lia.
  - pose proof (find_from_spec p (skipn start s) start) as H.
    destruct (find_from p (skipn start s) start) as [i|].
    + destruct H as (H1 & H2 & H3). split; [exact H1|]. rewrite occurs_skip in H2.
      replace (start + (i - start)) with i in H2 by lia. split; [exact H2|].
      intros k Hk Ho. apply (H3 k Hk). rewrite occurs_skip. replace (start + (k - start)) with k by lia. exact Ho.
    + intros k Hk Ho. apply (H (k - start)).
      * rewrite skipn_length. apply Hlen in Ho. lia.
      * rewrite occurs_skip. replace (start + (k - start)) with k by lia. exact Ho.
Qed.

Lemma find_all_loop_spec p s : p <> [] -> forall fuel start, List.length s < fuel + start ->
  0 < fuel ->
  exists l, find_all_loop fuel s p start = Ok l /\
    Forall (fun i => start <= i /\ occurs p s i) l /\
    StronglySorted (fun i j => i + List.length p <= j) l /\
    forall k, start <= k -> occurs p s k -> exists i, In i l /\ i <= k < i + List.length p.
Proof.
  intros Hp. assert (Hpl : 0 < List.length p) by (destruct p; [congruence|simpl; lia]).
  induction fuel as [|f IH]; intros start Hf H0; [lia|]. cbn [find_all_loop].
  pose proof (find_sub_spec p s start Hp) as H. destruct (find_sub p s start) as [i|].
  - destruct H as (H1 & H2 & H3).
    assert (Hi : i + List.length p <= List.length s) by (apply occurs_iff in H2; [apply H2|exact Hp]).
    destruct (IH (i + List.length p)) as (l & E & Hl & Hs & Hc); [lia|lia|].
    rewrite E; cbn [bind]. exists (i :: l). split; [reflexivity|]. split; [|split].
    + constructor; [auto|]. eapply Forall_impl; [|exact Hl]. intros j [Hj Ho]; split; [lia|exact Ho].
    + constructor; [exact Hs|]. eapply Forall_impl; [|exact Hl]. intros j [Hj Ho]; exact Hj.
    + intros k Hk Ho. destruct (Nat.lt_ge_cases k i) as [Hlt|Hge]; [exfalso; apply (H3 k); [lia|exact Ho]|].
      destruct (Nat.lt_ge_cases k (i + List.length p)) as [Hlt|Hge2].
      * exists i; split; [left; reflexivity|lia].
      * destruct (Hc k Hge2 Ho) as (j & Hj & Hr). exists j; split; [right; exact Hj|exact Hr].
  - exists []. split; [reflexivity|]. split; [constructor|]. split; [constructor|].
    intros k Hk Ho. exfalso; apply (H k Hk Ho).
Qed.

Lemma lower_length s : List.length (lower s) = List.length s.
Proof. apply map_length. Qed.
Lemma upper_length s : List.length (upper s) = List.length s.
Proof. apply map_length. Qed.

(** single character search *)
Lemma find_all_char c s : exists l, find_all false s [c] = Ok l /\ StronglySorted lt l /\
  forall i, In i l <-> nth_error s i = Some c.
Proof.
  unfold find_all. destruct (find_all_loop_spec [c] s ltac:(discriminate) (S (S (List.length s))) 0) as (l & E & Hl & Hs & Hc); [lia|lia|].
  exists l. split; [exact E|].
  assert (Hocc : forall i, occurs [c] s i <-> nth_error s i = Some c).
  { clear. unfold occurs. induction s as [|x s IH]; intros [|i]; simpl; try (split; [discriminate|congruence]).
    - rewrite Bool.andb_true_r, N.eqb_eq. split; congruence.
    - apply IH. }
  split.
  - clear - Hs. induction Hs as [|i l Hs IH Hf]; constructor; [exact IH|]. eapply Forall_impl; [|exact Hf]. simpl; intros; lia.
  - intros i; rewrite <- Hocc. split.
    + intros Hi. rewrite Forall_forall in Hl. apply Hl; exact Hi.
    + intros Ho. destruct (Hc i (Nat.le_0_l i) Ho) as (j & Hj & Hr). simpl in Hr. replace i with j by lia. exact Hj.
Qed.

Lemma find_all_empty ic s : find_all ic s [] = Err Diverges.
Proof.
  unfold find_all. set (s' := if ic then lower s else s). replace (if ic then lower [] else []) with (@nil N) by (destruct ic; reflexivity).
  assert (G : forall fuel start, start <= List.length s' -> find_all_loop fuel s' [] start = Err Diverges).
  { induction fuel as [|f IH]; intros start Hst; [reflexivity|]. cbn [find_all_loop].
    unfold find_sub. destruct (Nat.ltb_spec (List.length s') start) as [|_]; [lia|].
    assert (F : find_from [] (skipn start s') start = Some start) by (destruct (skipn start s'); reflexivity).
    rewrite F. cbn [List.length]. rewrite Nat.add_0_r, IH; [reflexivity|exact Hst]. }
  apply G; lia.
Qed.
