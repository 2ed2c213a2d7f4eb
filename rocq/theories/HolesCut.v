(** Exactly which holes separators make. *)
From Verif Require Import Py PyFacts Text Rebulk RebulkFacts HolesMore.
From Coq Require Import Arith Sorted.

(** a hole opens at a free position that follows a match, or a separator at which a hole has closed (so that it did not open one) *)
Fixpoint opens (s hs : str) (ms : list mt) (j : nat) : Prop :=
  ~ covered ms j /\ match j with O => True | S k => covered ms k \/ (cut_at s hs k /\ ~ opens s hs ms k) end.
(** a hole that opens at [x], perhaps before the zone that starts at [a], and lasts up to a match, a separator or the end [e] of the zone *)
Definition cut_run (s hs : str) (ms : list mt) (a e x : nat) (h : nat * nat) : Prop :=
  fst h = Nat.max x a /\ snd h <= e /\ opens s hs ms x /\ x < snd h /\ (forall j, x < j < snd h -> ~ covered ms j /\ ~ cut_at s hs j) /\
  (snd h = e \/ covered ms (snd h) \/ cut_at s hs (snd h)).

Lemma cut_dec s hs j : {cut_at s hs j} + {~ cut_at s hs j}.
Proof. destruct (match hs with [] => false | c :: r => match nth_error s j with Some d => cmem d (c :: r) | None => false end end) eqn:E; [left|right]; rewrite <- cut_bool, E; congruence. Qed.
Lemma opens_dec s hs ms j : opens s hs ms j \/ ~ opens s hs ms j.
Proof.
  induction j as [|j IH]; cbn [opens]; [destruct (covered_dec ms 0); tauto|]. destruct (covered_dec ms j), (covered_dec ms (S j)), (cut_dec s hs j); tauto.
Qed.
Lemma opens_free s hs ms j : opens s hs ms j -> ~ covered ms j.
Proof. destruct j; intros [H _]; exact H. Qed.
(** nothing opens in a hole *)
Lemma no_opens s hs ms x i : opens s hs ms x -> (forall j, x < j < i -> ~ covered ms j /\ ~ cut_at s hs j) -> forall j, x < j <= i -> ~ opens s hs ms j.
Proof.
  intros O F j Hj. destruct j as [|k]; [lia|]. intros [_ [H|[H N]]].
  - destruct (Nat.eq_dec k x) as [->|]; [apply (opens_free _ _ _ _ O H)|destruct (F k ltac:(lia)) as [F1 _]; exact (F1 H)].
  - destruct (Nat.eq_dec k x) as [->|]; [apply N, O|]. destruct (F k ltac:(lia)) as [_ F2]; exact (F2 H).
Qed.
Record hrun (s hs : str) (ms : list mt) (a l i : nat) (st : hstate) : Prop := {
  hr_open : forall y, h_open st = Some y -> exists x, l <= x < i /\ y = Nat.max x a /\ opens s hs ms x /\ forall j, x < j < i -> ~ covered ms j /\ ~ cut_at s hs j;
  hr_none : h_open st = None -> i = l \/ covered ms (i - 1) \/ (cut_at s hs (i - 1) /\ ~ opens s hs ms (i - 1));
  hr_done : forall h, In h (h_done st) -> exists x, fst h = Nat.max x a /\ snd h < i /\ opens s hs ms x /\ x < snd h /\ (forall j, x < j < snd h -> ~ covered ms j /\ ~ cut_at s hs j) /\
              (covered ms (snd h) \/ cut_at s hs (snd h))
}.
Lemma hrun_step s hs ms a l i st : (l = 0 \/ covered ms l) -> l <= i -> hrun s hs ms a l i st -> hrun s hs ms a l (S i) (hole_step s ms never (Some hs) a st i).
Proof.
  intros B Hl [O N D]. unfold hole_step.
  assert (At : match hs with [] => false | c :: r => match nth_error s i with Some d => cmem d (c :: r) | None => false end end = true <-> cut_at s hs i) by apply cut_bool.
  set (at_sep := match hs with [] => false | c :: r => match nth_error s i with Some d => cmem d (c :: r) | None => false end end) in *. clearbody at_sep.
  assert (D' : forall h, In h (h_done st) -> exists x, fst h = Nat.max x a /\ snd h < Datatypes.S i /\ opens s hs ms x /\ x < snd h /\ (forall j, x < j < snd h -> ~ covered ms j /\ ~ cut_at s hs j) /\ (covered ms (snd h) \/ cut_at s hs (snd h))).
  { intros h Hh. destruct (D h Hh) as (x & X1 & X2 & X3). exists x. split; [exact X1|]. split; [lia|exact X3]. }
  assert (Close : forall y, h_open st = Some y -> (covered ms i \/ cut_at s hs i) -> hrun s hs ms a l (Datatypes.S i) (mk_h None ((y, i) :: h_done st))).
  { intros y E Hc. destruct (O y E) as (x & O1 & O2 & O3 & O4). split; cbn [h_open h_done]; [discriminate| |].
    - intros _. right. rewrite Nat.sub_succ, Nat.sub_0_r. destruct Hc as [Hc|Hc]; [left; exact Hc|right; split; [exact Hc|]]. apply (no_opens s hs ms x i O3 O4). lia.
    - intros h [<-|Hh]; [|apply D'; exact Hh]. cbn [fst snd]. exists x. split; [exact O2|]. split; [lia|]. split; [exact O3|]. split; [lia|]. split; [exact O4|exact Hc]. }
  assert (Free : forallb never (at_index i ms) = false -> covered ms i) by (intros F; destruct (covered_dec ms i) as [|X]; [assumption|]; apply free_iff in X; congruence).
  destruct (h_open st) as [y|] eqn:E.
  - destruct at_sep eqn:Es; [apply Close; [reflexivity|right; apply At; reflexivity]|]. destruct (forallb never (at_index i ms)) eqn:F; [|apply Close; [reflexivity|left; apply Free; reflexivity]].
    apply free_iff in F. split; [|congruence|exact D']. intros z Ez. rewrite E in Ez. injection Ez as <-. destruct (O y eq_refl) as (x & O1 & O2 & O3 & O4). exists x. split; [lia|]. split; [exact O2|]. split; [exact O3|].
    intros j Hj. destruct (Nat.eq_dec j i) as [->|]; [|apply O4; lia]. split; [exact F|]. intros H. apply At in H. discriminate.
  - destruct (forallb never (at_index i ms)) eqn:F.
    + apply free_iff in F. split; cbn [h_open h_done]; [|discriminate|exact D']. intros y Ey. injection Ey as <-. exists i. split; [lia|]. split; [reflexivity|]. split; [|lia].
      specialize (N eq_refl). destruct i as [|k]; cbn [opens]; [split; auto|]. split; [exact F|]. rewrite Nat.sub_succ, Nat.sub_0_r in N. destruct N as [N|N]; [|exact N]. destruct B as [B|B]; [lia|]. rewrite N in F. contradiction.
    + split; [congruence| |exact D']. intros _. right. left. rewrite Nat.sub_succ, Nat.sub_0_r. apply Free, eq_refl.
Qed.
Lemma hole_start_base a ms : nonempty ms -> hole_start a ms never = 0 \/ covered ms (hole_start a ms never).
Proof.
  intros NE. unfold hole_start. destruct (find _ _) as [i|] eqn:E; [right|left; reflexivity]. apply find_some in E as [_ H]. apply starting_any in H as (m & Hm & <-). exists m. specialize (NE m Hm). split; [exact Hm|lia].
Qed.
(** every hole is such a run ... *)
Lemma holes_cut_run s hs ms a b h : nonempty ms -> a < Nat.min (max_end s ms) b -> In h (holes s ms a b never (Some hs)) ->
  exists x, cut_run s hs ms a (Nat.min (max_end s ms) b) x h.
Proof.
  intros NE Hab. unfold holes. set (e := Nat.min (max_end s ms) b) in *. set (l := hole_start a ms never).
  pose proof (hole_start_spec a ms) as [Hla _]. fold l in Hla. pose proof (hole_start_base a ms NE) as B. fold l in B.
  assert (G : forall n i st, l <= i -> hrun s hs ms a l i st -> hrun s hs ms a l (i + n) (fold_left (hole_step s ms never (Some hs) a) (seq i n) st)).
  { induction n as [|n IH]; intros i st Hl H; cbn [seq fold_left]; [rewrite Nat.add_0_r; exact H|]. rewrite <- Nat.add_succ_comm. apply IH; [lia|]. apply hrun_step; assumption. }
  assert (I : hrun s hs ms a l (l + (e - l)) (fold_left (hole_step s ms never (Some hs) a) (seq l (e - l)) (mk_h None []))).
  { apply G; [lia|]. split; cbn [h_open h_done]; [discriminate|auto|intros x []]. }
  replace (l + (e - l)) with e in I by lia. destruct I as [O N D]. set (st := fold_left _ _ _) in *.
  assert (Dd : forall h, In h (h_done st) -> exists x, cut_run s hs ms a e x h).
  { intros g Hg. destruct (D g Hg) as (x & X1 & X2 & X3 & X4 & X5 & X6). exists x. split; [exact X1|]. split; [lia|]. split; [exact X3|]. split; [exact X4|]. split; [exact X5|right; exact X6]. }
  destruct (h_open st) as [y|] eqn:E.
  - destruct (O y eq_refl) as (x & O1 & O2 & O3 & O4).
    assert (O5 : ~ covered ms (e - 1)) by (destruct (Nat.eq_dec (e - 1) x) as [->|]; [apply (opens_free _ _ _ _ O3)|apply O4; lia]).
    assert (HE : Nat.min (hole_end (e - 1) (max_end s ms) ms never) e = e).
    { unfold hole_end. destruct (find _ _) as [k|] eqn:Ef; [|lia]. apply find_some in Ef as [Hin Hk]. apply in_seq in Hin. apply starting_any in Hk as (m & Hm & Em).
      destruct (Nat.eq_dec k (e - 1)) as [->|]; [|lia]. exfalso. apply O5. exists m. split; [exact Hm|]. specialize (NE m Hm). lia. }
    rewrite HE. intros Hh. apply in_rev in Hh as [<-|Hh]; [|apply Dd; exact Hh]. exists x. split; [exact O2|]. split; [cbn; lia|]. split; [exact O3|]. split; [cbn; lia|]. split; [exact O4|left; reflexivity].
  - intros Hh. apply in_rev in Hh. apply Dd; exact Hh.
Qed.
Lemma cut_run_unique s hs ms a e x x' h h' : cut_run s hs ms a e x h -> cut_run s hs ms a e x' h' -> (exists j, x <= j < snd h /\ x' <= j < snd h') -> x = x' /\ h = h'.
Proof.
  intros (A1 & A2 & A3 & A4 & A5 & A6) (B1 & B2 & B3 & B4 & B5 & B6) (j & J1 & J2).
  assert (x = x').
  { destruct (Nat.lt_trichotomy x x') as [L|[L|L]]; [|exact L|]; exfalso; [apply (no_opens s hs ms x (snd h) A3 A5 x'); [lia|exact B3]|apply (no_opens s hs ms x' (snd h') B3 B5 x); [lia|exact A3]]. }
  subst x'. split; [reflexivity|]. assert (snd h = snd h').
  { destruct (Nat.lt_trichotomy (snd h) (snd h')) as [L|[L|L]]; [|exact L|]; exfalso.
    - destruct (B5 (snd h) ltac:(lia)) as [C1 C2]. destruct A6 as [A6|[A6|A6]]; [lia|contradiction|contradiction].
    - destruct (A5 (snd h') ltac:(lia)) as [C1 C2]. destruct B6 as [B6|[B6|B6]]; [lia|contradiction|contradiction]. }
  destruct h as [h1 h2], h' as [h1' h2']; cbn [fst snd] in *. congruence.
Qed.
(** ... and every such run that holds something is a hole *)
Lemma cut_run_hole s hs ms a b x h : nonempty ms -> a < Nat.min (max_end s ms) b -> cut_run s hs ms a (Nat.min (max_end s ms) b) x h ->
  (exists j, fst h <= j < snd h /\ ~ cut_at s hs j) -> In h (holes s ms a b never (Some hs)).
Proof.
  intros NE Hab R (j & Hj & Nj). pose proof (holes_cut s hs ms a b NE Hab) as [CA CI CS]. pose proof R as (A1 & A2 & A3 & A4 & A5 & A6).
  assert (U : ~ covered ms j) by (destruct (Nat.eq_dec j x) as [->|]; [apply (opens_free _ _ _ _ A3)|apply A5; lia]).
  destruct (CA j ltac:(lia) U Nj) as (h' & Hh' & Hj'). destruct (holes_cut_run s hs ms a b h' NE Hab Hh') as (x' & R'). pose proof R' as (B1 & _).
  destruct (cut_run_unique _ _ _ _ _ _ _ _ _ R R') as [_ ->]; [exists j; lia|exact Hh'].
Qed.
(** whatever the zone, a hole starts in it or after it, and ends in it or before it *)
Lemma holes_bounds s ms a b hseps h : In h (holes s ms a b never hseps) -> a <= fst h /\ snd h <= Nat.min (max_end s ms) b.
Proof.
  unfold holes. set (e := Nat.min (max_end s ms) b). set (l := hole_start a ms never).
  assert (G : forall n i st, i + n <= Nat.max i e -> ((forall x, h_open st = Some x -> a <= x) /\ forall h, In h (h_done st) -> a <= fst h /\ snd h <= e) ->
    let st' := fold_left (hole_step s ms never hseps a) (seq i n) st in (forall x, h_open st' = Some x -> a <= x) /\ forall h, In h (h_done st') -> a <= fst h /\ snd h <= e).
  { induction n as [|n IH]; intros i st Hi [A B]; [split; assumption|]. cbn [seq fold_left]. apply IH; [lia|]. unfold hole_step.
    assert (C : forall x, h_open st = Some x -> (forall y, h_open (mk_h None ((x, i) :: h_done st)) = Some y -> a <= y) /\ forall h, In h (h_done (mk_h None ((x, i) :: h_done st))) -> a <= fst h /\ snd h <= e).
    { intros x E. split; cbn [h_open h_done]; [discriminate|]. intros g [<-|Hg]; [cbn [fst snd]; split; [auto|lia]|auto]. }
    destruct (h_open st) as [x|] eqn:E.
    - match goal with |- context [if ?b then _ else _] => destruct b end; [apply C; reflexivity|]. destruct (forallb never (at_index i ms)); [|apply C; reflexivity]. rewrite E. auto.
    - destruct (forallb never (at_index i ms)); cbn [h_open h_done]; [|rewrite E; split; [discriminate|exact B]]. split; [intros y Ey; injection Ey as <-; lia|exact B]. }
  specialize (G (e - l) l (mk_h None []) ltac:(lia)). cbn [h_open h_done] in G. destruct G as [A B]; [split; [discriminate|intros g []]|].
  set (st := fold_left _ _ _) in *. destruct (h_open st) as [x|]; intros H; apply in_rev in H; [destruct H as [<-|H]; [cbn [fst snd]; split; [auto|lia]|]|]; apply B; exact H.
Qed.
