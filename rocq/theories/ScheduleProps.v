(** C109: the order in which the rules run. *)
From Coq Require Import List Bool ZArith Lia Permutation Sorting.Sorted.
From Verif Require Import Py PyFacts Sort Schedule ScheduleProofs.
Import ListNotations.

(** ** Specification *)

(** [i] comes before [j] in [l] *)
Definition before {A} (l : list A) (i j : A) : Prop := exists a b c, l = a ++ i :: b ++ j :: c.

(** The [i]-th loaded rule waits for the [j]-th: it names its class as a dependency, both
    have the same priority, and no rule loaded later with that priority has that class. *)
Definition waits (rules : list rule) (i j : nat) : Prop :=
  exists ri rj, nth_error rules i = Some ri /\ nth_error rules j = Some rj /\ i <> j /\
    r_prio ri = r_prio rj /\ In (r_class rj) (r_deps ri) /\
    forall k rk, j < k -> nth_error rules k = Some rk -> r_prio rk = r_prio rj -> r_class rk <> r_class rj.

(** [i] starts a chain of [n] such waits *)
Fixpoint chain (rules : list rule) (n i : nat) : Prop :=
  match n with 0 => i < List.length rules | S k => exists j, waits rules i j /\ chain rules k j end.
(** the longest one has [d] waits *)
Definition depth (rules : list rule) (d i : nat) : Prop := chain rules d i /\ ~ chain rules (S d) i.
(** rules each of which waits for another one of them *)
Definition knot (rules : list rule) (c : list nat) : Prop :=
  c <> [] /\ forall i, In i c -> exists j, In j c /\ waits rules i j.

(** Python iterates a set in some order, but gives each of its elements once. *)
Definition some_order (shuffle : list nat -> list nat) : Prop := forall l, Permutation (shuffle l) l.

(** ** Lists *)
Lemma sorted_concat {A} (R : A -> A -> Prop) : forall ll : list (list A),
  Forall (StronglySorted R) ll -> StronglySorted (fun g h => forall x y, In x g -> In y h -> R x y) ll -> StronglySorted R (List.concat ll).
Proof.
  assert (Happ : forall l m : list A, StronglySorted R l -> StronglySorted R m -> (forall x y, In x l -> In y m -> R x y) -> StronglySorted R (l ++ m)).
  { induction l as [|x l IH]; intros m H H' Hx; cbn [app]; [exact H'|]. inversion H as [|? ? Hl Hf]; subst. constructor.
    - apply IH; [exact Hl|exact H'|]. intros a b Ha Hb. apply Hx; [right; exact Ha|exact Hb].
    - rewrite Forall_forall in *. intros y Hy. apply in_app_iff in Hy as [Hy|Hy]; [apply Hf; exact Hy|apply Hx; [left; reflexivity|exact Hy]]. }
  induction ll as [|g ll IH]; intros H H'; cbn [List.concat]; [constructor|].
  inversion H as [|? ? Hg Hr]; inversion H' as [|? ? Hl Hf]; subst. apply Happ; [exact Hg|apply IH; assumption|].
  intros x y Hx Hy. apply in_concat in Hy as (h & Hh & Hy). rewrite Forall_forall in Hf. apply (Hf h Hh); assumption.
Qed.
Lemma sorted_nth {A} (Q : A -> A -> Prop) : forall l : list A,
  (forall d d' x y, d < d' -> nth_error l d = Some x -> nth_error l d' = Some y -> Q x y) -> StronglySorted Q l.
Proof.
  induction l as [|a l IH]; intros H; constructor.
  - apply IH. intros d d' x y Hd Hx Hy. apply (H (S d) (S d')); [lia|exact Hx|exact Hy].
  - apply Forall_forall. intros y Hy. apply In_nth_error in Hy as (d & Hd). apply (H 0 (S d)); [lia|reflexivity|exact Hd].
Qed.
Lemma before_or {A} (l : list A) x y : x <> y -> In x l -> In y l -> before l x y \/ before l y x.
Proof.
  intros Hn Hx Hy. apply in_split in Hx as (a & b & ->). apply in_app_iff in Hy as [Hy|[Hy|Hy]]; [|congruence|].
  - right. apply in_split in Hy as (a1 & a2 & ->). exists a1, a2, b. rewrite <- app_assoc. reflexivity.
  - left. apply in_split in Hy as (b1 & b2 & ->). exists a, b1, b2. reflexivity.
Qed.
Lemma sorted_before {A} (R : A -> A -> Prop) (l : list A) x y : StronglySorted R l -> before l x y -> R x y.
Proof.
  intros H (a & b & c & ->). induction a as [|z a IH]; cbn [app] in H; inversion H as [|? ? Hl Hf]; subst; [|apply IH; exact Hl].
  rewrite Forall_forall in Hf. apply Hf. apply in_app_iff. right. left. reflexivity.
Qed.
Lemma before_sorted {A} (R : A -> A -> Prop) (l : list A) x y : StronglySorted R l ->
  (R x y -> R y x -> False) -> x <> y -> In x l -> In y l -> R x y -> before l x y.
Proof.
  intros H Ha Hn Hx Hy HR. destruct (before_or l x y Hn Hx Hy) as [B|B]; [exact B|]. exfalso. apply Ha; [exact HR|]. apply (sorted_before R l y x H B).
Qed.

(** ** The groups *)
Section Order.
Variable rules : list rule.
Local Notation n := (List.length rules).

Definition earlier (i j : nat) : Prop := (prio rules j < prio rules i)%Z \/ prio rules i = prio rules j /\ i < j.

Lemma insert_earlier x l : StronglySorted earlier l -> Forall (fun y => x < y) l ->
  StronglySorted earlier (insert (fun i j => Z.leb (prio rules j) (prio rules i)) x l).
Proof.
  induction l as [|y r IH]; cbn [insert]; intros H Hx; [repeat constructor|].
  inversion H as [|? ? Hr Hy]; inversion Hx as [|? ? Hxy Hxr]; subst.
  destruct (Z.leb_spec (prio rules y) (prio rules x)) as [L|L].
  - constructor; [exact H|]. rewrite Forall_forall in *. intros z [<-|Hz]; [unfold earlier; lia|].
    specialize (Hy z Hz). specialize (Hxr z Hz). unfold earlier in *. lia.
  - constructor; [apply IH; assumption|]. rewrite Forall_forall in *. intros z Hz.
    eapply Permutation_in in Hz; [|apply insert_perm]. destruct Hz as [<-|Hz]; [left; exact L|apply Hy; exact Hz].
Qed.
Lemma by_priority_sorted : StronglySorted earlier (by_priority rules).
Proof.
  unfold by_priority. generalize 0 at 1 as a. induction n as [|m IH]; intros a; cbn [seq isort]; [constructor|].
  apply insert_earlier; [apply IH|]. apply Forall_forall. intros y Hy.
  eapply Permutation_in in Hy; [|apply isort_perm]. apply in_seq in Hy. lia.
Qed.
Lemma by_priority_perm : Permutation (by_priority rules) (seq 0 n).
Proof. apply isort_perm. Qed.

Definition above (g h : list nat) : Prop := forall x y, In x g -> In y h -> (prio rules y < prio rules x)%Z.
Lemma runs_spec : forall l, StronglySorted earlier l ->
  List.concat (runs (prio rules) l) = l /\
  Forall (fun g => g <> [] /\ forall x y, In x g -> In y g -> prio rules x = prio rules y) (runs (prio rules) l) /\
  StronglySorted above (runs (prio rules) l) /\ Forall (StronglySorted lt) (runs (prio rules) l).
Proof.
  induction l as [|i r IH]; intros H; [repeat constructor|]. inversion H as [|? ? Hr Hi]; subst.
  destruct (IH Hr) as (E & Hc & Hs & Hl). cbn [runs]. rewrite Forall_forall in Hi.
  destruct (runs (prio rules) r) as [|[|j g] gs] eqn:Eg.
  - cbn [List.concat] in E. subst r. split; [reflexivity|]. split; [|split].
    + repeat constructor; [discriminate|]. intros x y [<-|[]] [<-|[]]. reflexivity.
    + repeat constructor.
    + repeat constructor.
  - exfalso. inversion Hc as [|? ? Hx _]; subst. apply (proj1 Hx). reflexivity.
  - inversion Hc as [|? ? (Hne & Hx) Hcr]; inversion Hs as [|? ? Hsr Hsf]; inversion Hl as [|? ? Hlj Hlr]; subst.
    cbn [List.concat] in Hi.
    assert (Hj : earlier i j) by (apply Hi; left; reflexivity).
    destruct (Z.eqb_spec (prio rules i) (prio rules j)) as [P|P].
    + split; [reflexivity|]. split; [|split].
      * constructor; [|exact Hcr]. split; [discriminate|]. intros x y.
        assert (Hz : forall z, In z (i :: j :: g) -> prio rules z = prio rules j).
        { intros z [<-|Hz]; [exact P|]. apply Hx; [exact Hz|left; reflexivity]. }
        intros Hx' Hy'. rewrite (Hz x Hx'), (Hz y Hy'). reflexivity.
      * constructor; [exact Hsr|]. rewrite Forall_forall in *. intros h Hh x y Hx' Hy. specialize (Hsf h Hh).
        destruct Hx' as [<-|Hx']; [rewrite P; apply Hsf; [left; reflexivity|exact Hy]|apply Hsf; assumption].
      * constructor; [|exact Hlr]. constructor; [exact Hlj|]. apply Forall_forall. intros z Hz.
        assert (E' : earlier i z) by (apply Hi; apply in_app_iff; left; exact Hz).
        rewrite (Hx j z (or_introl eq_refl) Hz) in P. unfold earlier in E'. lia.
    + assert (Q : (prio rules j < prio rules i)%Z) by (unfold earlier in Hj; lia).
      split; [reflexivity|]. split; [|split].
      * constructor; [|exact Hc]. split; [discriminate|]. intros x y [<-|[]] [<-|[]]. reflexivity.
      * constructor; [exact Hs|]. apply Forall_forall. intros h [<-|Hh] x y [<-|[]] Hy.
        -- rewrite (Hx y j Hy (or_introl eq_refl)). exact Q.
        -- rewrite Forall_forall in Hsf. specialize (Hsf h Hh j y (or_introl eq_refl) Hy). lia.
      * constructor; [repeat constructor|exact Hl].
Qed.

Definition groups := runs (prio rules) (by_priority rules).
Lemma groups_In i : i < n <-> exists g, In g groups /\ In i g.
Proof.
  destruct (runs_spec _ by_priority_sorted) as (E & _). fold groups in E.
  assert (H : i < n <-> In i (by_priority rules)).
  { split; intros H.
    - eapply Permutation_in; [symmetry; apply by_priority_perm|]. apply in_seq. lia.
    - eapply Permutation_in in H; [|apply by_priority_perm]. apply in_seq in H. lia. }
  rewrite H, <- E, in_concat. reflexivity.
Qed.
(** A group is everything of one priority. *)
Lemma group_full g i j : In g groups -> In i g -> j < n -> prio rules j = prio rules i -> In j g.
Proof.
  intros Hg Hi Hj P. apply groups_In in Hj as (h & Hh & Hjh).
  destruct (runs_spec _ by_priority_sorted) as (_ & _ & Hs & _). fold groups in Hs.
  apply In_nth_error in Hg as (a & Ha). apply In_nth_error in Hh as (b & Hb).
  assert (Hnth : forall l (S : StronglySorted above l) a b g h, nth_error l a = Some g -> nth_error l b = Some h -> a < b -> above g h).
  { clear. intros l S. induction S as [|z l S IH F]; intros a b g h Ha Hb Hab; [destruct a; discriminate|].
    destruct b as [|b]; [lia|]. destruct a as [|a]; cbn [nth_error] in *.
    - injection Ha as <-. rewrite Forall_forall in F. apply F. apply nth_error_In with b. exact Hb.
    - apply (IH a b); [exact Ha|exact Hb|lia]. }
  destruct (Nat.lt_trichotomy a b) as [L|[->|L]].
  - pose proof (Hnth _ Hs a b g h Ha Hb L i j Hi Hjh). lia.
  - congruence.
  - pose proof (Hnth _ Hs b a h g Hb Ha L j i Hjh Hi). lia.
Qed.
Lemma group_const g i j : In g groups -> In i g -> In j g -> prio rules i = prio rules j.
Proof.
  intros Hg Hi Hj. destruct (runs_spec _ by_priority_sorted) as (_ & Hc & _). fold groups in Hc. rewrite Forall_forall in Hc.
  apply (Hc g Hg); assumption.
Qed.
Lemma group_lt g : In g groups -> StronglySorted lt g.
Proof. intros Hg. destruct (runs_spec _ by_priority_sorted) as (_ & _ & _ & Hl). fold groups in Hl. rewrite Forall_forall in Hl. apply Hl; exact Hg. Qed.
Lemma lt_NoDup l : StronglySorted lt l -> NoDup l.
Proof. induction 1 as [|x l H IH F]; constructor; [|exact IH]. intros Hx. rewrite Forall_forall in F. specialize (F x Hx). lia. Qed.

(** ** The graph of a group *)
Lemma find_rev_last (P : nat -> bool) g j : StronglySorted lt g ->
  find P (rev g) = Some j <-> In j g /\ P j = true /\ forall k, In k g -> j < k -> P k = false.
Proof.
  intros H. induction H as [|x l H IH F]; cbn [rev]; [split; [discriminate|intros ([] & _)]|].
  assert (Hf : forall a b, find P (a ++ b) = match find P a with Some y => Some y | None => find P b end).
  { clear. induction a as [|y a IH]; intros b; cbn [app find]; [reflexivity|]. destruct (P y); [reflexivity|apply IH]. }
  rewrite Hf. rewrite Forall_forall in F. destruct (find P (rev l)) as [y|] eqn:E.
  - split.
    + intros Hj. injection Hj as ->. destruct (proj1 IH eq_refl) as (Hi & Hp & Hk). split; [right; exact Hi|]. split; [exact Hp|].
      intros k [<-|Hk'] L; [specialize (F j Hi); lia|apply Hk; assumption].
    + intros (Hj & Hp & Hk). destruct Hj as [<-|Hj].
      * exfalso. apply find_some in E as (Ey & Py'). apply in_rev in Ey. rewrite (Hk y) in Py'; [discriminate|right; exact Ey|apply F; exact Ey].
      * apply IH. split; [exact Hj|]. split; [exact Hp|]. intros k Hk' L. apply Hk; [right; exact Hk'|exact L].
  - cbn [find]. split.
    + destruct (P x) eqn:Px; [|discriminate]. intros Hj. injection Hj as <-. split; [left; reflexivity|]. split; [exact Px|].
      intros k [<-|Hk] L; [lia|]. apply (List.find_none _ _ E). apply in_rev in Hk. exact Hk.
    + intros (Hj & Hp & Hk). destruct Hj as [<-|Hj]; [rewrite Hp; reflexivity|].
      rewrite (List.find_none _ _ E j) in Hp; [discriminate|]. apply -> in_rev. exact Hj.
Qed.
Lemma In_filter_map {A B} (f : A -> option B) l b : In b (filter_map f l) <-> exists a, In a l /\ f a = Some b.
Proof.
  induction l as [|a l IH]; cbn [filter_map]; [split; [intros []|intros (? & [] & _)]|].
  destruct (f a) as [x|] eqn:E; cbn [In]; rewrite IH; split.
  - intros [<-|(c & H & Hc)]; [exists a; split; [left; reflexivity|exact E]|exists c; split; [right; exact H|exact Hc]].
  - intros (c & [<-|H] & Hc); [left; congruence|right; exists c; split; assumption].
  - intros (c & H & Hc). exists c; split; [right; exact H|exact Hc].
  - intros (c & [<-|H] & Hc); [congruence|exists c; split; assumption].
Qed.
Lemma nth_prio i r : nth_error rules i = Some r -> prio rules i = r_prio r /\ class rules i = r_class r /\ wants rules i = r_deps r.
Proof. unfold prio, class, wants. intros ->. repeat split. Qed.
Lemma lt_nth i : i < n -> exists r, nth_error rules i = Some r.
Proof. intros H. destruct (nth_error rules i) as [r|] eqn:E; [exists r; reflexivity|]. apply nth_error_None in E. lia. Qed.
Lemma nth_lt i r : nth_error rules i = Some r -> i < n.
Proof. intros H. apply nth_error_Some. congruence. Qed.
Lemma group_In_lt g i : In g groups -> In i g -> i < n.
Proof. intros Hg Hi. apply groups_In. exists g. split; assumption. Qed.

Lemma graph_keys g : map fst (graph rules g) = g.
Proof. unfold graph. rewrite map_map. cbn [fst]. apply map_id. Qed.
Lemma graph_length g : List.length (graph rules g) = List.length g.
Proof. unfold graph. apply map_length. Qed.
Lemma edge_waits g i j : In g groups -> edge (graph rules g) i j <-> In i g /\ waits rules i j.
Proof.
  intros Hg. unfold edge, graph. split.
  - intros (ds & H & Hj). apply in_map_iff in H as (k & E & Hi). injection E as -> <-. split; [exact Hi|].
    apply filter_In in Hj as [Hj Hne]. apply In_filter_map in Hj as (c & Hc & Hj). unfold of_class in Hj.
    apply (find_rev_last _ _ _ (group_lt g Hg)) in Hj as (Hjg & Hp & Hk). apply str_eqb_eq in Hp.
    destruct (lt_nth i (group_In_lt g i Hg Hi)) as (ri & Ei). destruct (lt_nth j (group_In_lt g j Hg Hjg)) as (rj & Ej).
    destruct (nth_prio _ _ Ei) as (Pi & Ci & Wi). destruct (nth_prio _ _ Ej) as (Pj & Cj & Wj).
    exists ri, rj. split; [exact Ei|]. split; [exact Ej|]. split; [apply negb_true_iff, Nat.eqb_neq in Hne; exact Hne|].
    split; [rewrite <- Pi, <- Pj; apply (group_const g); assumption|].
    split; [rewrite <- Wi, <- Cj, Hp; exact Hc|].
    intros k rk L Ek Pk Hcl. destruct (nth_prio _ _ Ek) as (Pk' & Ck & _).
    assert (Hkg : In k g) by (apply (group_full g j k Hg Hjg (nth_lt k rk Ek)); congruence).
    specialize (Hk k Hkg L). cbn beta in Hk. rewrite Ck, Hcl, <- Cj, Hp in Hk. rewrite str_eqb_refl in Hk. discriminate.
  - intros (Hi & ri & rj & Ei & Ej & Hne & P & Hc & Hlast).
    destruct (nth_prio _ _ Ei) as (Pi & Ci & Wi). destruct (nth_prio _ _ Ej) as (Pj & Cj & Wj).
    assert (Hjg : In j g) by (apply (group_full g i j Hg Hi (nth_lt j rj Ej)); congruence).
    eexists. split; [apply in_map_iff; exists i; split; [reflexivity|exact Hi]|].
    apply filter_In. split; [|apply negb_true_iff, Nat.eqb_neq; exact Hne].
    apply In_filter_map. exists (r_class rj). split; [rewrite Wi; exact Hc|]. unfold of_class.
    apply (find_rev_last _ _ _ (group_lt g Hg)). split; [exact Hjg|]. split; [rewrite Cj; apply str_eqb_refl|].
    intros k Hk L. destruct (str_eqb (class rules k) (r_class rj)) eqn:E; [|reflexivity]. apply str_eqb_eq in E.
    destruct (lt_nth k (group_In_lt g k Hg Hk)) as (rk & Ek). destruct (nth_prio _ _ Ek) as (Pk & Ck & _).
    exfalso. apply (Hlast k rk L Ek); [|congruence]. rewrite <- Pk, <- Pj. apply (group_const g); assumption.
Qed.
Lemma waits_group g i j : In g groups -> In i g -> waits rules i j -> In j g.
Proof.
  intros Hg Hi (ri & rj & Ei & Ej & _ & P & _). apply (group_full g i j Hg Hi (nth_lt j rj Ej)).
  rewrite (proj1 (nth_prio _ _ Ei)), (proj1 (nth_prio _ _ Ej)). congruence.
Qed.
Lemma graph_closed g : In g groups -> closed (graph rules g).
Proof.
  intros Hg. split; [rewrite graph_keys; apply lt_NoDup, group_lt; exact Hg|].
  intros i ds j H Hj. rewrite graph_keys. assert (E : edge (graph rules g) i j) by (exists ds; split; assumption).
  apply (edge_waits g i j Hg) in E as (Hi & W). apply (waits_group g i j Hg Hi W).
Qed.
Lemma chain_graph g : In g groups -> forall d i, In i g -> chain_in (graph rules g) d i <-> chain rules d i.
Proof.
  intros Hg. induction d as [|d IH]; intros i Hi; cbn [chain_in chain].
  - rewrite graph_keys. split; intros _; [apply (group_In_lt g i Hg Hi)|exact Hi].
  - split.
    + intros (j & E & H). apply (edge_waits g i j Hg) in E as (_ & W). exists j. split; [exact W|]. apply IH; [apply (waits_group g i j Hg Hi W)|exact H].
    + intros (j & W & H). exists j. split; [apply (edge_waits g i j Hg); split; assumption|]. apply IH; [apply (waits_group g i j Hg Hi W)|exact H].
Qed.

(** ** The order of a group *)
Definition sooner (i j : nat) : Prop :=
  exists d d', depth rules d i /\ depth rules d' j /\ (d < d' \/ d = d' /\ i < j).
Lemma isort_lt l : NoDup l -> StronglySorted lt (isort Nat.leb l).
Proof.
  intros Hn.
  assert (H : StronglySorted (Le Nat.leb) (isort Nat.leb l)).
  { apply isort_sorted; [intros x y E; apply Nat.leb_gt in E; apply Nat.leb_le; lia|].
    intros x y z Hx Hy. apply Nat.leb_le in Hx, Hy. apply Nat.leb_le. lia. }
  assert (Hd : NoDup (isort Nat.leb l)) by (eapply Permutation_NoDup; [symmetry; apply isort_perm|exact Hn]).
  induction H as [|x r H IH F]; [constructor|]. inversion Hd as [|? ? Hx Hr]; subst. constructor; [apply IH; exact Hr|].
  rewrite Forall_forall in *. intros y Hy. specialize (F y Hy). unfold Le in F. apply Nat.leb_le in F.
  destruct (Nat.eq_dec x y) as [->|Hxy]; [contradiction|lia].
Qed.
Lemma schedule_group_spec shuffle g order : some_order shuffle -> In g groups -> schedule_group shuffle rules g = Ok order ->
  Permutation order g /\ StronglySorted sooner order.
Proof.
  intros Hsh Hg H. unfold schedule_group in H. destruct (levels _ _) as [lv|e] eqn:El; cbn [bind] in H; [|discriminate].
  injection H as <-. pose proof (levels_perm _ _ _ (graph_closed g Hg) El) as Hp. rewrite graph_keys in Hp.
  pose proof (levels_nth _ _ _ (graph_closed g Hg) El) as Hn.
  assert (Hl : forall l, Permutation (isort Nat.leb (shuffle l)) l) by (intros l; eapply Permutation_trans; [apply isort_perm|apply Hsh]).
  assert (Hmap : forall ll, Permutation (List.concat (map (fun l => isort Nat.leb (shuffle l)) ll)) (List.concat ll)).
  { induction ll as [|l ll IH]; cbn [map List.concat]; [constructor|]. apply Permutation_app; [apply Hl|exact IH]. }
  split; [eapply Permutation_trans; [apply Hmap|exact Hp]|].
  assert (Hdep : forall d l i, nth_error lv d = Some l -> In i l -> depth rules d i).
  { intros d l i Hd Hi. pose proof Hi as Hi'. apply (Hn d l Hd i) in Hi as (H1 & H2).
    assert (Hig : In i g). { eapply Permutation_in; [exact Hp|]. apply in_concat. exists l. split; [apply nth_error_In with d; exact Hd|exact Hi']. }
    split; [apply (chain_graph g Hg d i Hig); exact H1|]. intros H3. apply H2. apply (chain_graph g Hg (S d) i Hig). exact H3. }
  apply sorted_concat.
  - apply Forall_forall. intros m Hm. apply in_map_iff in Hm as (l & <- & Hin). apply In_nth_error in Hin as (d & Hd).
    assert (Hnd : NoDup l).
    { assert (Hall : NoDup (List.concat lv)) by (eapply Permutation_NoDup; [symmetry; exact Hp|apply lt_NoDup, group_lt; exact Hg]).
      apply nth_error_split in Hd as (l1 & l2 & -> & _). rewrite concat_app in Hall. cbn [List.concat] in Hall.
      clear -Hall. induction (List.concat l1) as [|z m IH]; cbn [app] in Hall; [|inversion Hall; apply IH; assumption].
      induction l as [|z m IH]; [constructor|]. cbn [app] in Hall. inversion Hall as [|? ? Hz Hr]; subst. constructor; [|apply IH; exact Hr].
      intros Hin. apply Hz. apply in_app_iff. left. exact Hin. }
    assert (S : StronglySorted lt (isort Nat.leb (shuffle l))) by (apply isort_lt; eapply Permutation_NoDup; [symmetry; apply Hsh|exact Hnd]).
    assert (A : forall i, In i (isort Nat.leb (shuffle l)) -> depth rules d i).
    { intros i Hi. apply (Hdep d l i Hd). eapply Permutation_in; [apply Hl|exact Hi]. }
    clear -S A. induction S as [|x r S IH F]; [constructor|]. constructor; [apply IH; intros i Hi; apply A; right; exact Hi|].
    rewrite Forall_forall in *. intros y Hy. exists d, d. split; [apply A; left; reflexivity|]. split; [apply A; right; exact Hy|]. right. split; [reflexivity|apply F; exact Hy].
  - apply sorted_nth. intros d d' x y L Hx Hy i j Hi Hj. rewrite nth_error_map in Hx, Hy.
    destruct (nth_error lv d) as [l|] eqn:Ed; [|discriminate]. destruct (nth_error lv d') as [l'|] eqn:Ed'; [|discriminate].
    cbn [option_map] in Hx, Hy. injection Hx as <-. injection Hy as <-.
    exists d, d'. split; [apply (Hdep d l i Ed); eapply Permutation_in; [apply Hl|exact Hi]|].
    split; [apply (Hdep d' l' j Ed'); eapply Permutation_in; [apply Hl|exact Hj]|]. left. exact L.
Qed.

(** ** The whole order *)
Lemma chain_mono m : forall d i, m <= d -> chain rules d i -> chain rules m i.
Proof.
  induction m as [|m IH]; intros d i L H; [destruct d; [exact H|]; destruct H as (j & (ri & rj & E & _) & _); apply (nth_lt i ri E)|].
  destruct d as [|d]; [lia|]. destruct H as (j & W & H). exists j. split; [exact W|]. apply (IH d); [lia|exact H].
Qed.
Lemma depth_unique d d' i : depth rules d i -> depth rules d' i -> d = d'.
Proof.
  intros (H1 & H2) (H3 & H4). destruct (Nat.lt_trichotomy d d') as [L|[E|L]]; [|exact E|].
  - exfalso. apply H2. apply (chain_mono (S d) d'); [lia|exact H3].
  - exfalso. apply H4. apply (chain_mono (S d') d); [lia|exact H1].
Qed.
Definition first (i j : nat) : Prop := (prio rules j < prio rules i)%Z \/ prio rules i = prio rules j /\ sooner i j.
Lemma first_asym i j : first i j -> first j i -> False.
Proof.
  intros [L|(E & d & d' & H1 & H2 & H)] [L'|(E' & e & e' & H3 & H4 & H')]; try lia.
  pose proof (depth_unique _ _ _ H1 H4). pose proof (depth_unique _ _ _ H2 H3). lia.
Qed.
Lemma mapM_Forall2 {A B} (f : A -> res B) l r : mapM f l = Ok r -> Forall2 (fun a b => f a = Ok b) l r.
Proof.
  revert r. induction l as [|a l IH]; intros r H; cbn [mapM] in H; [injection H as <-; constructor|].
  destruct (f a) as [b|e] eqn:E; cbn [bind] in H; [|discriminate]. destruct (mapM f l) as [bs|e] eqn:Er; cbn [bind] in H; [|discriminate].
  injection H as <-. constructor; [exact E|apply IH; reflexivity].
Qed.
Lemma schedule_spec shuffle order : some_order shuffle -> schedule shuffle rules = Ok order ->
  Permutation order (seq 0 n) /\ StronglySorted first order.
Proof.
  intros Hsh H. unfold schedule in H. fold groups in H. destruct (mapM _ groups) as [os|e] eqn:Em; cbn [bind] in H; [|discriminate].
  injection H as <-. apply mapM_Forall2 in Em.
  destruct (runs_spec _ by_priority_sorted) as (E & Hc & Hs & _). fold groups in E, Hc, Hs.
  assert (Hg : forall g, In g groups -> In g groups) by auto.
  assert (HP : Forall2 (fun g o => Permutation o g /\ StronglySorted sooner o /\ In g groups) groups os).
  { assert (Hgen : forall gs, Forall2 (fun a b => schedule_group shuffle rules a = Ok b) gs os -> (forall g, In g gs -> In g groups) ->
      Forall2 (fun g o => Permutation o g /\ StronglySorted sooner o /\ In g groups) gs os).
    { clear -Hsh. intros gs Em. induction Em as [|g o gs os Ho Em IH]; intros Hg; constructor.
      - assert (Hin : In g groups) by (apply Hg; left; reflexivity).
        destruct (schedule_group_spec shuffle g o Hsh Hin Ho) as (H1 & H2). split; [exact H1|]. split; [exact H2|exact Hin].
      - apply IH. intros g' Hg'. apply Hg. right. exact Hg'. }
    apply Hgen; assumption. }
  split.
  - eapply Permutation_trans; [|apply by_priority_perm]. rewrite <- E. clear -HP.
    induction HP as [|g o gs os (Ho & _) HP IH]; cbn [List.concat]; [constructor|]. apply Permutation_app; assumption.
  - apply sorted_concat.
    + clear -HP. induction HP as [|g o gs os (Ho & Hso & Hg) HP IH]; constructor; [|exact IH].
      assert (Hpr : forall x y, In x o -> In y o -> prio rules x = prio rules y).
      { intros x y Hx Hy. apply (group_const g); [exact Hg|eapply Permutation_in; [exact Ho|exact Hx]|eapply Permutation_in; [exact Ho|exact Hy]]. }
      clear -Hso Hpr. induction Hso as [|x r S IH F]; [constructor|]. constructor.
      * apply IH. intros a b Ha Hb. apply Hpr; right; assumption.
      * rewrite Forall_forall in *. intros y Hy. right. split; [apply Hpr; [left; reflexivity|right; exact Hy]|apply F; exact Hy].
    + assert (HQ : Forall2 (fun g o => Permutation o g) groups os) by (clear -HP; induction HP as [|g o gs os (Ho & _) HP IH]; constructor; assumption).
      clear -HQ Hs. revert HQ Hs. generalize groups. intros gs HP. induction HP as [|g o gs os Ho HP IH]; intros Hs; [constructor|].
      inversion Hs as [|g0 gs0 Hsr Hf [E1 E2]].
      constructor; [apply IH; exact Hsr|]. rewrite Forall_forall in Hf. apply Forall_forall. intros o' Ho' x y Hx Hy. left.
      assert (Hex : exists g', In g' gs /\ Permutation o' g').
      { clear -HP Ho'. induction HP as [|g o gs os Ho HP IH]; [destruct Ho'|]. destruct Ho' as [<-|Ho'].
        - exists g. split; [left; reflexivity|exact Ho].
        - destruct (IH Ho') as (g' & Hg' & Hp). exists g'. split; [right; exact Hg'|exact Hp]. }
      destruct Hex as (g' & Hg' & Hp). apply (Hf g' Hg'); [eapply Permutation_in; [exact Ho|exact Hx]|eapply Permutation_in; [exact Hp|exact Hy]].
Qed.
End Order.

(** ** C109: how the rules of any rule table are ordered *)

(** Each rule runs once; the higher priority first; among equals, a rule runs after those
    it waits for; and the order is fixed entirely: shorter chains of waits first, then
    load order. *)
Theorem C109_order shuffle rules order :
  some_order shuffle -> schedule shuffle rules = Ok order ->
  Permutation order (seq 0 (List.length rules)) /\
  (forall i j ri rj, nth_error rules i = Some ri -> nth_error rules j = Some rj -> (r_prio rj < r_prio ri)%Z -> before order i j) /\
  (forall i j, waits rules i j -> before order j i) /\
  (forall i j ri rj d e, nth_error rules i = Some ri -> nth_error rules j = Some rj -> r_prio ri = r_prio rj ->
     depth rules d i -> depth rules e j -> (d < e \/ d = e /\ i < j) -> before order i j).
Proof.
  intros Hsh H. destruct (schedule_spec rules shuffle order Hsh H) as (Hp & Hs). split; [exact Hp|].
  assert (Hin : forall i r, nth_error rules i = Some r -> In i order).
  { intros i r E. eapply Permutation_in; [symmetry; exact Hp|]. apply in_seq. split; [lia|]. apply (nth_lt rules i r E). }
  assert (HB : forall i j, i <> j -> In i order -> In j order -> first rules i j -> before order i j).
  { intros i j Hn Hi Hj HR. apply (before_sorted (first rules) order i j Hs); [apply first_asym|exact Hn|exact Hi|exact Hj|exact HR]. }
  split; [|split].
  - intros i j ri rj Ei Ej L. apply HB; [intros ->; rewrite Ei in Ej; injection Ej as ->; lia|apply (Hin i ri Ei)|apply (Hin j rj Ej)|].
    left. rewrite (proj1 (nth_prio rules _ _ Ei)), (proj1 (nth_prio rules _ _ Ej)). exact L.
  - intros i j (ri & rj & Ei & Ej & Hn & P & Hc & Hlast).
    assert (Hor : before order j i \/ before order i j) by (apply before_or; [congruence|apply (Hin j rj Ej)|apply (Hin i ri Ei)]).
    destruct Hor as [B|B]; [exact B|]. exfalso. pose proof (sorted_before (first rules) order i j Hs B) as F.
    destruct (nth_prio rules _ _ Ei) as (Pi & _). destruct (nth_prio rules _ _ Ej) as (Pj & _).
    destruct F as [L|(E & d & e & (H1 & H2) & (H3 & H4) & Hd)]; [lia|].
    apply H2. apply (chain_mono rules (S d) (S e)); [lia|]. exists j. split; [|exact H3].
    exists ri, rj. repeat split; assumption.
  - intros i j ri rj d e Ei Ej P Di De Hd. apply HB.
    + intros ->. pose proof (depth_unique rules d e j Di De). lia.
    + apply (Hin i ri Ei).
    + apply (Hin j rj Ej).
    + right. rewrite (proj1 (nth_prio rules _ _ Ei)), (proj1 (nth_prio rules _ _ Ej)). split; [exact P|]. exists d, e. split; [exact Di|]. split; [exact De|exact Hd].
Qed.
Print Assumptions C109_order.

Lemma mapM_err {A B} (f : A -> res B) l e : mapM f l = Err e -> exists a, In a l /\ f a = Err e.
Proof.
  induction l as [|a l IH]; cbn [mapM]; intros H; [discriminate|]. destruct (f a) as [b|x] eqn:E; cbn [bind] in H.
  - destruct (mapM f l) as [bs|x] eqn:Er; cbn [bind] in H; [discriminate|]. injection H as ->. destruct (IH eq_refl) as (c & Hc & Ec).
    exists c. split; [right; exact Hc|exact Ec].
  - injection H as ->. exists a. split; [left; reflexivity|exact E].
Qed.
Lemma mapM_ok_all {A B} (f : A -> res B) l r : mapM f l = Ok r -> forall a, In a l -> exists b, f a = Ok b.
Proof.
  revert r. induction l as [|a l IH]; intros r H x Hx; [destruct Hx|]. cbn [mapM] in H. destruct (f a) as [b|e] eqn:E; cbn [bind] in H; [|discriminate].
  destruct (mapM f l) as [bs|e] eqn:Er; cbn [bind] in H; [|discriminate]. destruct Hx as [<-|Hx]; [exists b; exact E|apply (IH bs eq_refl x Hx)].
Qed.

(** It fails exactly when some rules all wait for one another, always with the same error. *)
Theorem C109_cycles shuffle rules :
  ((exists e, schedule shuffle rules = Err e) <-> (exists c, knot rules c)) /\
  (forall e, schedule shuffle rules = Err e -> e = OtherError 7).
Proof.
  assert (Hfwd : forall e, schedule shuffle rules = Err e -> e = OtherError 7 /\ exists c, knot rules c).
  { intros e H. unfold schedule in H. destruct (mapM _ _) as [os|x] eqn:Em; cbn [bind] in H; [discriminate|]. injection H as ->.
    apply mapM_err in Em as (g & Hg & Eg). fold (groups rules) in Hg. unfold schedule_group in Eg.
    destruct (levels _ _) as [lv|x] eqn:El; cbn [bind] in Eg; [discriminate|]. injection Eg as ->.
    apply levels_err in El as (-> & c & Hne & Hk); [|apply (graph_closed rules g Hg)|rewrite graph_length; lia].
    split; [reflexivity|]. exists c. split; [exact Hne|]. intros i Hi. destruct (Hk i Hi) as (j & Hj & E).
    apply (edge_waits rules g i j Hg) in E as (_ & W). exists j. split; assumption. }
  split; [|intros e H; apply (Hfwd e H)]. split.
  - intros (e & H). apply (proj2 (Hfwd e H)).
  - intros (c & Hne & Hk). destruct (schedule shuffle rules) as [o|e] eqn:E; [|exists e; reflexivity]. exfalso.
    unfold schedule in E. destruct (mapM _ _) as [os|x] eqn:Em; cbn [bind] in E; [|discriminate]. fold (groups rules) in Em.
    destruct c as [|i c]; [apply Hne; reflexivity|].
    assert (Hi : i < List.length rules). { destruct (Hk i (or_introl eq_refl)) as (j & _ & (ri & rj & Ei & _)). apply (nth_lt rules i ri Ei). }
    apply (groups_In rules i) in Hi as (g & Hg & Hi). destruct (mapM_ok_all _ _ _ Em g Hg) as (b & Hb).
    unfold schedule_group in Hb. 
    rewrite (levels_knot _ (graph rules g) (filter (fun k => nmem k g) (i :: c))) in Hb; [discriminate|apply (graph_closed rules g Hg)|rewrite graph_length; lia|].
    split.
    + intros Hnil. assert (Hin : In i (filter (fun k => nmem k g) (i :: c))) by (apply filter_In; split; [left; reflexivity|apply nmem_In; exact Hi]).
      rewrite Hnil in Hin. destruct Hin.
    + intros k Hkin. apply filter_In in Hkin as (Hkc & Hkg). apply nmem_In in Hkg. destruct (Hk k Hkc) as (j & Hj & W).
      exists j. split; [|apply (edge_waits rules g k j Hg); split; assumption].
      apply filter_In. split; [exact Hj|]. apply nmem_In. apply (waits_group rules g k j Hg Hkg W).
Qed.
Print Assumptions C109_cycles.

(** The order does not depend on how Python iterates its sets. *)
Theorem C109_determined s1 s2 rules : some_order s1 -> some_order s2 -> schedule s1 rules = schedule s2 rules.
Proof.
  intros H1 H2. destruct (schedule s1 rules) as [o1|e1] eqn:E1, (schedule s2 rules) as [o2|e2] eqn:E2.
  - destruct (schedule_spec rules s1 o1 H1 E1) as (P1 & S1). destruct (schedule_spec rules s2 o2 H2 E2) as (P2 & S2). f_equal.
    apply (sorted_unique (first rules)); [|exact S1|exact S2|].
    + intros x y _ _ F G. exfalso. apply (first_asym rules x y F G).
    + eapply Permutation_trans; [exact P1|symmetry; exact P2].
  - exfalso. assert (K : exists e, schedule s1 rules = Err e) by (apply (proj1 (C109_cycles s1 rules)), (proj1 (C109_cycles s2 rules)); exists e2; exact E2).
    destruct K as (e & K). congruence.
  - exfalso. assert (K : exists e, schedule s2 rules = Err e) by (apply (proj1 (C109_cycles s2 rules)), (proj1 (C109_cycles s1 rules)); exists e1; exact E1).
    destruct K as (e & K). congruence.
  - rewrite (proj2 (C109_cycles s1 rules) e1 E1), (proj2 (C109_cycles s2 rules) e2 E2). reflexivity.
Qed.
Print Assumptions C109_determined.

(** Rules that wait for each other are refused; a rule that names itself is not. *)
Example a_cycle : schedule (fun l => l) [R (lit "A") 0 [lit "B"]; R (lit "B") 0 [lit "A"]] = Err (OtherError 7).
Proof. vm_compute. reflexivity. Qed.
Example a_self : schedule (@rev nat) [R (lit "A") 0 [lit "A"; lit "B"]; R (lit "B") 0 []; R (lit "C") 64 [lit "A"]] = Ok [2; 1; 0].
Proof. vm_compute. reflexivity. Qed.

(** ** C109: guessit's own rules *)

(** A rule is in play when it is one of rebulk's two default rules, or is loaded by a
    builder that is not switched off: a builder is off when it has property names and
    all of them are excluded. *)
Definition in_play (excluded : str -> bool) (r : rule) : Prop :=
  In r default_rules \/
  exists names rs, In (names, rs) builders /\ In r rs /\ (names = [] \/ exists p, In p names /\ excluded p = false).

Definition the_table : list rule := default_rules ++ List.concat (map snd builders).
Fixpoint rank_in (fuel : nat) (c : str) : nat :=
  match fuel with
  | 0 => 0
  | S k => fold_right (fun r m => if str_eqb (r_class r) c then Nat.max (fold_right (fun d m => Nat.max (S (rank_in k d)) m) 0 (r_deps r)) m else m) 0 the_table
  end.
Definition ranks : list (str * nat) := map (fun r => (r_class r, rank_in 8 (r_class r))) the_table.
Definition rank (c : str) : nat := match find (fun p => str_eqb (fst p) c) ranks with Some p => snd p | None => 0 end.
Definition table_ok : bool :=
  forallb (fun r => forallb (fun d => Nat.ltb (rank d) (rank (r_class r)) &&
    forallb (fun r' => negb (str_eqb (r_class r') d) || Z.leb (r_prio r) (r_prio r')) the_table) (r_deps r)) the_table.
Lemma table_is_ok : table_ok = true.
Proof. vm_compute. reflexivity. Qed.
Fixpoint strs_eqb (a b : list str) : bool :=
  match a, b with [], [] => true | x :: a, y :: b => str_eqb x y && strs_eqb a b | _, _ => false end.
Definition alike : bool :=
  forallb (fun r => forallb (fun r' => negb (str_eqb (r_class r) (r_class r')) || (Z.eqb (r_prio r) (r_prio r') && strs_eqb (r_deps r) (r_deps r'))) the_table) the_table.
Lemma alike_ok : alike = true.
Proof. vm_compute. reflexivity. Qed.
Lemma strs_eqb_eq a b : strs_eqb a b = true -> a = b.
Proof.
  revert b. induction a as [|x a IH]; intros [|y b] H; cbn [strs_eqb] in H; try discriminate; [reflexivity|].
  apply andb_true_iff in H as (H1 & H2). apply str_eqb_eq in H1. f_equal; [exact H1|apply IH; exact H2].
Qed.
(** rules of the same class are declared alike *)
Lemma table_alike r r' : In r the_table -> In r' the_table -> r_class r = r_class r' -> r = r'.
Proof.
  intros Hr Hr' E. pose proof alike_ok as H. unfold alike in H. rewrite forallb_forall in H. specialize (H r Hr). rewrite forallb_forall in H.
  specialize (H r' Hr'). cbn beta in H. rewrite E, str_eqb_refl in H. cbn [negb orb] in H. apply andb_true_iff in H as (H1 & H2).
  apply Z.eqb_eq in H1. apply strs_eqb_eq in H2. destruct r as [c1 p1 d1], r' as [c2 p2 d2]. change (c1 = c2) in E. change (p1 = p2) in H1. change (d1 = d2) in H2. subst. reflexivity.
Qed.

Section Extend.
  Lemma extend_spec source : forall target,
    NoDup (map r_class target) ->
    NoDup (map r_class (extend_safe target source)) /\
    (forall r, In r target -> In r (extend_safe target source)) /\
    (forall r, In r (extend_safe target source) -> In r target \/ In r source) /\
    (forall r, In r source -> In (r_class r) (map r_class (extend_safe target source))).
  Proof.
    unfold extend_safe. induction source as [|s source IH]; intros target Hn; cbn [fold_left].
    - split; [exact Hn|]. split; [auto|]. split; [auto|]. intros r [].
    - destruct (existsb (fun x => str_eqb (r_class x) (r_class s)) target) eqn:E.
      + destruct (IH target Hn) as (H1 & H2 & H3 & H4). split; [exact H1|]. split; [exact H2|].
        split; [intros r Hr; destruct (H3 r Hr); [left; assumption|right; right; assumption]|].
        intros r [<-|Hr]; [|apply H4; exact Hr]. apply existsb_exists in E as (x & Hx & Ex). apply str_eqb_eq in Ex. rewrite <- Ex.
        apply in_map. apply H2. exact Hx.
      + assert (Hn' : NoDup (map r_class (target ++ [s]))).
        { rewrite map_app. cbn [map]. apply NoDup_Add with (a := r_class s) (l := map r_class target ++ []).
          - apply Add_app.
          - rewrite app_nil_r. split; [exact Hn|]. intros Hin. apply in_map_iff in Hin as (x & Ex & Hx).
            assert (T : existsb (fun x => str_eqb (r_class x) (r_class s)) target = true) by (apply existsb_exists; exists x; split; [exact Hx|apply str_eqb_eq; exact Ex]).
            congruence. }
        destruct (IH (target ++ [s]) Hn') as (H1 & H2 & H3 & H4). split; [exact H1|].
        split; [intros r Hr; apply H2; apply in_app_iff; left; exact Hr|].
        split. { intros r Hr. destruct (H3 r Hr) as [Hr'|Hr']; [|right; right; exact Hr']. apply in_app_iff in Hr' as [Hr'|[<-|[]]]; [left; exact Hr'|right; left; reflexivity]. }
        intros r [<-|Hr]; [|apply H4; exact Hr]. apply in_map. apply H2. apply in_app_iff. right. left. reflexivity.
  Qed.
End Extend.

Lemma not_off excluded names : switched_off excluded names = false <-> (names = [] \/ exists p, In p names /\ excluded p = false).
Proof.
  unfold switched_off. destruct names as [|p names]; [split; [left; reflexivity|reflexivity]|]. split.
  - intros H. right. destruct (forallb excluded (p :: names)) eqn:E; [discriminate|].
    clear H. induction (p :: names) as [|q l IH]; cbn [forallb] in E; [discriminate|]. destruct (excluded q) eqn:Eq.
    + destruct (IH E) as (x & Hx & Ex). exists x. split; [right; exact Hx|exact Ex].
    + exists q. split; [left; reflexivity|exact Eq].
  - intros [H|(q & Hq & Eq)]; [discriminate|]. destruct (forallb excluded (p :: names)) eqn:E; [|reflexivity].
    rewrite forallb_forall in E. rewrite (E q Hq) in Eq. discriminate.
Qed.

Lemma effective_spec excluded :
  NoDup (map r_class (effective_rules excluded)) /\
  (forall r, In r (effective_rules excluded) -> in_play excluded r) /\
  (forall r, in_play excluded r -> In (r_class r) (map r_class (effective_rules excluded))).
Proof.
  assert (Hgen : forall bs rs, NoDup (map r_class rs) -> 
    let out := fold_left (fun rs b => if switched_off excluded (fst b) then rs else extend_safe (extend_safe rs default_rules) (snd b)) bs rs in
    NoDup (map r_class out) /\ (forall r, In r rs -> In r out) /\
    (forall r, In r out -> In r rs \/ In r default_rules \/ exists b, In b bs /\ In r (snd b) /\ switched_off excluded (fst b) = false) /\
    (forall b r, In b bs -> switched_off excluded (fst b) = false -> In r (snd b) -> In (r_class r) (map r_class out))).
  { induction bs as [|b bs IH]; intros rs Hn; cbn [fold_left].
    - split; [exact Hn|]. split; [auto|]. split; [auto|]. intros b r [].
    - destruct (switched_off excluded (fst b)) eqn:Eb.
      + destruct (IH rs Hn) as (H1 & H2 & H3 & H4). split; [exact H1|]. split; [exact H2|]. split.
        * intros r Hr. destruct (H3 r Hr) as [H|[H|(b' & Hb & H)]]; [left; exact H|right; left; exact H|right; right; exists b'; split; [right; exact Hb|exact H]].
        * intros b' r [<-|Hb] E; [congruence|]. apply (H4 b' r Hb E).
      + destruct (extend_spec default_rules rs Hn) as (A1 & A2 & A3 & A4).
        destruct (extend_spec (snd b) _ A1) as (B1 & B2 & B3 & B4).
        destruct (IH _ B1) as (H1 & H2 & H3 & H4). split; [exact H1|]. split; [intros r Hr; apply H2, B2, A2; exact Hr|]. split.
        * intros r Hr. destruct (H3 r Hr) as [H|[H|(b' & Hb & H)]].
          -- destruct (B3 r H) as [H'|H']; [destruct (A3 r H') as [H''|H'']; [left; exact H''|right; left; exact H'']|].
             right. right. exists b. split; [left; reflexivity|]. split; [exact H'|exact Eb].
          -- right. left. exact H.
          -- right. right. exists b'. split; [right; exact Hb|exact H].
        * intros b' r [<-|Hb] E Hr; [|apply (H4 b' r Hb E Hr)].
          pose proof (B4 r Hr) as Hc. apply in_map_iff in Hc as (x & Ex & Hx). rewrite <- Ex. apply in_map. apply H2. exact Hx. }
  assert (Hd : NoDup (map r_class default_rules)).
  { constructor; [|constructor; [intros []|constructor]]. intros [H|[]]. vm_compute in H. discriminate. }
  destruct (Hgen builders default_rules Hd) as (H1 & H2 & H3 & H4). fold (effective_rules excluded) in H1, H2, H3, H4. split; [exact H1|]. split.
  - intros r Hr. destruct (H3 r Hr) as [H|[H|((names & rs) & Hb & H & E)]]; [left; exact H|left; exact H|].
    right. exists names, rs. split; [exact Hb|]. split; [exact H|]. apply not_off. exact E.
  - intros r [H|(names & rs & Hb & H & E)]; [apply in_map; apply H2; exact H|]. apply (H4 (names, rs) r Hb); [apply not_off; exact E|exact H].
Qed.

Lemma in_play_table excluded r : in_play excluded r -> In r the_table.
Proof.
  unfold the_table. intros [H|(names & rs & Hb & H & _)]; apply in_app_iff; [left; exact H|right].
  apply in_concat. exists rs. split; [|exact H]. apply in_map_iff. exists (names, rs). split; [reflexivity|exact Hb].
Qed.

Lemma rank_less r d : In r the_table -> In d (r_deps r) -> rank d < rank (r_class r).
Proof.
  intros Hr Hd. pose proof table_is_ok as H. unfold table_ok in H. rewrite forallb_forall in H. specialize (H r Hr). rewrite forallb_forall in H.
  specialize (H d Hd). apply andb_true_iff in H as (H & _). apply Nat.ltb_lt in H. exact H.
Qed.
Lemma prio_more r r' : In r the_table -> In r' the_table -> In (r_class r') (r_deps r) -> (r_prio r <= r_prio r')%Z.
Proof.
  intros Hr Hr' Hd. pose proof table_is_ok as H. unfold table_ok in H. rewrite forallb_forall in H. specialize (H r Hr). rewrite forallb_forall in H.
  specialize (H _ Hd). apply andb_true_iff in H as (_ & H). rewrite forallb_forall in H. specialize (H r' Hr'). cbn beta in H.
  rewrite str_eqb_refl in H. cbn [negb orb] in H. apply Z.leb_le in H. exact H.
Qed.
Lemma no_knot excluded c : ~ knot (effective_rules excluded) c.
Proof.
  intros (Hne & Hk). destruct (effective_spec excluded) as (_ & Hin & _).
  assert (Hno : forall m i r, nth_error (effective_rules excluded) i = Some r -> rank (r_class r) < m -> ~ In i c).
  { induction m as [|m IH]; intros i r Ei Hm Hi; [lia|]. destruct (Hk i Hi) as (j & Hj & (ri & rj & Ei' & Ej & _ & _ & Hd & _)).
    rewrite Ei in Ei'. injection Ei' as <-. apply (IH j rj Ej); [|exact Hj].
    assert (Hr : In r the_table) by (apply (in_play_table excluded), Hin, (nth_error_In _ _ Ei)).
    pose proof (rank_less r (r_class rj) Hr Hd). lia. }
  destruct c as [|i c]; [apply Hne; reflexivity|]. destruct (Hk i (or_introl eq_refl)) as (j & _ & (ri & rj & Ei & _)).
  apply (Hno (S (rank (r_class ri))) i ri Ei); [lia|left; reflexivity].
Qed.
Lemma before_map {A B} (f : A -> B) l i j : before l i j -> before (map f l) (f i) (f j).
Proof. intros (a & b & c & ->). exists (map f a), (map f b), (map f c). rewrite map_app. cbn [map]. rewrite map_app. reflexivity. Qed.

(** Whatever is excluded, and however sets are iterated: the run never stops on a cycle;
    every rule in play runs, once; a rule of a higher priority runs before one of a lower;
    and a rule runs after every rule in play that it declares as a dependency. *)
Theorem C109_guessit shuffle excluded : some_order shuffle -> exists order,
  guessit_order shuffle excluded = Ok order /\ NoDup order /\
  (forall c, In c order <-> exists r, in_play excluded r /\ r_class r = c) /\
  (forall r r', in_play excluded r -> in_play excluded r' -> (r_prio r' < r_prio r)%Z -> before order (r_class r) (r_class r')) /\
  (forall r d, in_play excluded r -> In d (r_deps r) -> In d order -> before order d (r_class r)).
Proof.
  intros Hsh. set (rs := effective_rules excluded). destruct (effective_spec excluded) as (Hnd & Hin & Hout). fold rs in Hnd, Hin, Hout.
  destruct (schedule shuffle rs) as [o|e] eqn:Es.
  2:{ exfalso. destruct (proj1 (proj1 (C109_cycles shuffle rs)) (ex_intro _ e Es)) as (c & Hk). apply (no_knot excluded c Hk). }
  exists (map (class rs) o). destruct (C109_order shuffle rs o Hsh Es) as (Hp & Hprio & Hwait & _).
  assert (Hmap : map (class rs) (seq 0 (List.length rs)) = map r_class rs).
  { clear. assert (G : forall pre l, map (class (pre ++ l)) (seq (List.length pre) (List.length l)) = map r_class l).
    { intros pre l. revert pre. induction l as [|r l IH]; intros pre; cbn [List.length seq map]; [reflexivity|]. f_equal.
      - unfold class. rewrite nth_error_app2, Nat.sub_diag by lia. reflexivity.
      - specialize (IH (pre ++ [r])). rewrite <- app_assoc in IH. cbn [app] in IH. rewrite app_length in IH. cbn [List.length] in IH.
        rewrite Nat.add_1_r in IH. exact IH. }
    exact (G [] rs). }
  assert (Hpm : Permutation (map (class rs) o) (map r_class rs)) by (rewrite <- Hmap; apply Permutation_map; exact Hp).
  assert (Hidx : forall r, in_play excluded r -> exists i, nth_error rs i = Some r).
  { intros r Hr. pose proof (Hout r Hr) as Hc. apply in_map_iff in Hc as (x & Ex & Hx).
    rewrite (table_alike x r) in Hx; [apply In_nth_error; exact Hx|apply (in_play_table excluded), Hin; exact Hx|apply (in_play_table excluded); exact Hr|exact Ex]. }
  split; [unfold guessit_order; fold rs; rewrite Es; reflexivity|].
  split; [eapply Permutation_NoDup; [symmetry; exact Hpm|exact Hnd]|].
  assert (HIn : forall c, In c (map (class rs) o) <-> exists r, in_play excluded r /\ r_class r = c).
  { intros c. split.
    - intros Hc. eapply Permutation_in in Hc; [|exact Hpm]. apply in_map_iff in Hc as (r & E & Hr). exists r. split; [apply Hin; exact Hr|exact E].
    - intros (r & Hr & <-). eapply Permutation_in; [symmetry; exact Hpm|]. apply Hout. exact Hr. }
  split; [exact HIn|].
  assert (HP : forall r r', in_play excluded r -> in_play excluded r' -> (r_prio r' < r_prio r)%Z -> before (map (class rs) o) (r_class r) (r_class r')).
  { intros r r' Hr Hr' L. destruct (Hidx r Hr) as (i & Ei). destruct (Hidx r' Hr') as (j & Ej).
    rewrite <- (proj1 (proj2 (nth_prio rs i r Ei))), <- (proj1 (proj2 (nth_prio rs j r' Ej))). apply before_map. apply (Hprio i j r r' Ei Ej L). }
  split; [exact HP|].
  intros r d Hr Hd Hdo. apply HIn in Hdo as (r' & Hr' & <-).
  pose proof (prio_more r r' (in_play_table _ _ Hr) (in_play_table _ _ Hr') Hd) as L.
  destruct (Z.eq_dec (r_prio r) (r_prio r')) as [P|P]; [|apply HP; [exact Hr'|exact Hr|lia]].
  destruct (Hidx r Hr) as (i & Ei). destruct (Hidx r' Hr') as (j & Ej).
  rewrite <- (proj1 (proj2 (nth_prio rs i r Ei))), <- (proj1 (proj2 (nth_prio rs j r' Ej))). apply before_map. apply Hwait.
  exists r, r'. split; [exact Ei|]. split; [exact Ej|]. split.
  - intros ->. rewrite Ei in Ej. injection Ej as <-. pose proof (rank_less r (r_class r) (in_play_table _ _ Hr) Hd). lia.
  - split; [exact P|]. split; [exact Hd|]. intros k rk L' Ek _ Hc.
    assert (E : j = k); [|lia]. assert (Hnth : nth_error (map r_class rs) j = nth_error (map r_class rs) k) by (rewrite !nth_error_map, Ej, Ek; cbn [option_map]; congruence).
    apply (proj1 (NoDup_nth_error (map r_class rs)) Hnd); [|exact Hnth]. apply nth_error_Some. rewrite nth_error_map, Ej. discriminate.
Qed.
Print Assumptions C109_guessit.

(** The stages: whatever is excluded, overlapping matches are settled and the groups enlarged before any other rule; and the last adjustments,
    the type and the MIME type, the private matches being removed among them, come after every other rule. *)
Definition first_stage : list string := ["ConflictSolver"; "EnlargeGroupMatches"]%string.
Definition last_stage : list string :=
  ["PrivateRemover"; "RenameEpisodeTitleWhenMovieType"; "ProperCountRule"; "EquivalentHoles"; "RemoveLessSpecificSeasonEpisode"; "RemoveAmbiguous"; "SeasonYear"; "YearSeason";
   "Processors"; "StripSeparators"; "Mimetype"; "TypeProcessor"]%string.
Definition staged (l : list string) (r : rule) : bool := existsb (fun c => str_eqb (lit c) (r_class r)) l.
Lemma stages_table : forallb (fun r => forallb (fun r' => (negb (staged first_stage r) || staged first_stage r' || (r_prio r' <? r_prio r)%Z) && (staged last_stage r || negb (staged last_stage r') || (r_prio r' <? r_prio r)%Z)) the_table) the_table = true.
Proof. vm_compute. reflexivity. Qed.
Lemma staged_iff l r : staged l r = true <-> exists c, In c l /\ r_class r = lit c.
Proof. unfold staged. rewrite existsb_exists. split; intros (c & H & E); exists c; (split; [exact H|]); [apply str_eqb_eq in E; congruence|apply str_eqb_eq; congruence]. Qed.
Theorem C109_stages shuffle excluded : some_order shuffle -> exists order, guessit_order shuffle excluded = Ok order /\ In (lit "ConflictSolver") order /\ In (lit "PrivateRemover") order /\
  forall a b, In a order -> In b order ->
    ((exists c, In c first_stage /\ a = lit c) -> ~ (exists c, In c first_stage /\ b = lit c) -> before order a b) /\
    (~ (exists c, In c last_stage /\ a = lit c) -> (exists c, In c last_stage /\ b = lit c) -> before order a b).
Proof.
  intros Hsh. destruct (C109_guessit shuffle excluded Hsh) as (o & Ho & _ & HIn & HP & _). exists o. split; [exact Ho|].
  split; [apply HIn; exists (R (lit "ConflictSolver") PRE_PROCESS []); split; [left; left; reflexivity|reflexivity]|].
  split; [apply HIn; exists (R (lit "PrivateRemover") POST_PROCESS []); split; [left; right; left; reflexivity|reflexivity]|].
  intros a b Ha Hb. apply HIn in Ha as (r & Hr & <-). apply HIn in Hb as (r' & Hr' & <-).
  pose proof stages_table as T. rewrite forallb_forall in T. specialize (T r (in_play_table _ _ Hr)). rewrite forallb_forall in T. specialize (T r' (in_play_table _ _ Hr')).
  apply andb_true_iff in T as [T1 T2]. rewrite !orb_true_iff, negb_true_iff in T1, T2. rewrite <- !staged_iff. split; intros H1 H2; apply HP; auto; apply Z.ltb_lt.
  - destruct T1 as [[T1|T1]|T1]; congruence || exact T1.
  - destruct T2 as [[T2|T2]|T2]; congruence || exact T2.
Qed.
Print Assumptions C109_stages.

(** The orders users see: whatever is excluded, of two rules in this list that both take place, the first comes first. Subtitle languages and film
    titles before the title, the title before episode titles, bonus titles and scene groups, the sources that are stuck to a word before the weak ones,
    Ultra HD after the codecs, and the type after everything else. *)
Definition told_order : list (string * string) :=
  [("FilmTitleRule", "TitleFromPosition"); ("SubtitlePrefixLanguageRule", "TitleFromPosition"); ("SubtitleSuffixLanguageRule", "TitleFromPosition"); ("SubtitleExtensionRule", "TitleFromPosition");
   ("SubtitlePrefixLanguageRule", "SubtitleSuffixLanguageRule"); ("TitleFromPosition", "PreferTitleWithYear"); ("TitleFromPosition", "TitleToEpisodeTitle");
   ("TitleToEpisodeTitle", "EpisodeTitleFromPosition"); ("EpisodeTitleFromPosition", "AlternativeTitleReplace"); ("TitleFromPosition", "SceneReleaseGroup"); ("SceneReleaseGroup", "AnimeReleaseGroup");
   ("TitleFromPosition", "BonusTitleRule"); ("TitleFromPosition", "EpisodeSingleDigitValidator"); ("ValidateSourcePrefixSuffix", "ValidateWeakSource"); ("HqConflictRule", "UltraHdBlurayRule");
   ("AudioValidatorRule", "DtsHDRule"); ("AudioValidatorRule", "DtsRule"); ("AudioValidatorRule", "AacRule"); ("AudioValidatorRule", "DolbyDigitalRule");
   ("DtsHDRule", "HqConflictRule"); ("RemoveWeakDuplicate", "RemoveDetachedEpisodeNumber"); ("RemoveWeakIfSxxExx", "RemoveDetachedEpisodeNumber"); ("RemoveWeakIfMovie", "VersionValidator");
   ("Processors", "TypeProcessor"); ("Processors", "Mimetype"); ("TypeProcessor", "RenameEpisodeTitleWhenMovieType")]%string.
Lemma told_table : forallb (fun p => forallb (fun r => negb (str_eqb (r_class r) (lit (snd p))) || smem (lit (fst p)) (r_deps r)) the_table) told_order = true.
Proof. vm_compute. reflexivity. Qed.
Theorem C109_told shuffle excluded : some_order shuffle -> exists order, guessit_order shuffle excluded = Ok order /\
  forall a b, In (a, b) told_order -> In (lit a) order -> In (lit b) order -> before order (lit a) (lit b).
Proof.
  intros Hsh. destruct (C109_guessit shuffle excluded Hsh) as (o & Ho & _ & HIn & _ & Hdep). exists o. split; [exact Ho|].
  intros a b Hab Ha Hb. apply HIn in Hb as (r & Hr & E). rewrite <- E. apply (Hdep r (lit a) Hr); [|exact Ha].
  pose proof told_table as T. rewrite forallb_forall in T. specialize (T _ Hab). rewrite forallb_forall in T. specialize (T r (in_play_table _ _ Hr)). cbn [fst snd] in T. rewrite E in T.
  apply orb_true_iff in T as [T|T]; [apply negb_true_iff in T; rewrite (proj2 (str_eqb_eq _ _) eq_refl) in T; discriminate|]. apply smem_In. exact T.
Qed.
Print Assumptions C109_told.

(** The theorem on the full set of rules: the title is looked for after the film title and
    the subtitle languages, the scene release group after the title, the type at the end. *)
Example full_order : exists o, guessit_order (@rev nat) (fun _ => false) = Ok o /\
  before o (lit "TitleFromPosition") (lit "SceneReleaseGroup") /\ before o (lit "FilmTitleRule") (lit "TitleFromPosition").
Proof.
  destruct (C109_guessit (@rev nat) (fun _ => false)) as (o & Ho & _ & HIn & _ & Hdep); [intros l; symmetry; apply Permutation_rev|].
  exists o. split; [exact Ho|].
  assert (T : forall names rs r, In (names, rs) builders -> In r rs -> (names = [] \/ exists p, In p names) -> in_play (fun _ => false) r).
  { intros names rs r H H' [E|(p & Hp)]; right; exists names, rs; (split; [exact H|]); (split; [exact H'|]); [left; exact E|right; exists p; split; [exact Hp|reflexivity]]. }
  assert (Ti : in_play (fun _ => false) (R (lit "TitleFromPosition") 0 [lit "FilmTitleRule"; lit "SubtitlePrefixLanguageRule"; lit "SubtitleSuffixLanguageRule"; lit "SubtitleExtensionRule"])).
  { apply (T [lit "title"] title_rules); [unfold builders; do 7 right; left; reflexivity|left; reflexivity|right; eexists; left; reflexivity]. }
  split.
  - refine (Hdep (R (lit "SceneReleaseGroup") 0 [lit "TitleFromPosition"]) (lit "TitleFromPosition") _ (or_introl eq_refl) _).
    + apply (T [lit "release_group"] release_group_rules); [unfold builders; do 10 right; left; reflexivity|right; left; reflexivity|right; eexists; left; reflexivity].
    + apply HIn. eexists. split; [exact Ti|reflexivity].
  - refine (Hdep _ (lit "FilmTitleRule") Ti (or_introl eq_refl) _). apply HIn. exists (R (lit "FilmTitleRule") 0 []). split; [|reflexivity].
    apply (T [lit "film"] film_rules); [unfold builders; do 15 right; left; reflexivity|left; reflexivity|right; eexists; left; reflexivity].
Qed.

(** What is not promised: two rules with no dependency between them keep their order only
    while the same rules are in play. Excluding languages and films makes the title be
    looked for before the dash-separated release group instead of after it. *)
Fixpoint index_of (c : str) (l : list str) : nat :=
  match l with [] => 0 | x :: r => if str_eqb x c then 0 else S (index_of c r) end.
Lemma C109_limit : exists o o', guessit_order (fun l => l) (fun _ => false) = Ok o /\
  guessit_order (fun l => l) (fun p => smem p [lit "film"; lit "language"; lit "subtitle_language"]) = Ok o' /\
  index_of (lit "DashSeparatedReleaseGroup") o < index_of (lit "TitleFromPosition") o /\
  index_of (lit "TitleFromPosition") o' < index_of (lit "DashSeparatedReleaseGroup") o' < List.length o'.
Proof.
  eexists. eexists. split; [vm_compute; reflexivity|]. split; [vm_compute; reflexivity|]. split; [apply Nat.ltb_lt; vm_compute; reflexivity|].
  split; apply Nat.ltb_lt; vm_compute; reflexivity.
Qed.
