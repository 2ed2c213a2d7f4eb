(** Generic stable insertion sort, the model of Python's stable [sorted]/[list.sort]
    for a comparison that is total and transitive. *)
From Coq Require Import List Bool Sorting.Sorted Sorting.Permutation Lia.
Import ListNotations.

Section Sort.
  Context {A : Type} (le : A -> A -> bool).

  (** inserted before the first element that is strictly greater: equal ones keep their order *)
  Fixpoint insert (x : A) (l : list A) : list A :=
    match l with
    | [] => [x]
    | y :: r => if le x y then x :: y :: r else y :: insert x r
    end.
  Fixpoint isort (l : list A) : list A :=
    match l with
    | [] => []
    | x :: r => insert x (isort r)
    end.

  Lemma insert_perm x l : Permutation (insert x l) (x :: l).
  Proof.
    induction l as [|y r IH]; cbn [insert]; [reflexivity|].
    destruct (le x y); [reflexivity|]. rewrite IH. apply perm_swap.
  Qed.
  Lemma isort_perm l : Permutation (isort l) l.
  Proof. induction l as [|x r IH]; cbn [isort]; [reflexivity|]. rewrite insert_perm, IH; reflexivity. Qed.

  Definition Le (x y : A) : Prop := le x y = true.
  Hypothesis total : forall x y, le x y = false -> le y x = true.
  Hypothesis trans : forall x y z, le x y = true -> le y z = true -> le x z = true.

  Lemma insert_sorted x l : StronglySorted Le l -> StronglySorted Le (insert x l).
  Proof.
    induction l as [|y r IH]; cbn [insert]; intros H; [repeat constructor|].
    inversion H as [|? ? Hr Hy]; subst. destruct (le x y) eqn:E.
    - constructor; [exact H|]. constructor; [exact E|].
      eapply Forall_impl; [|exact Hy]. intros z Hz; eapply trans; [exact E|exact Hz].
    - constructor; [apply IH; exact Hr|].
      rewrite Forall_forall in *. intros z Hz.
      eapply Permutation_in in Hz; [|apply insert_perm]. destruct Hz as [<-|Hz]; [apply total; exact E|apply Hy; exact Hz].
  Qed.
  Lemma isort_sorted l : StronglySorted Le (isort l).
  Proof. induction l as [|x r IH]; cbn [isort]; [constructor|]. apply insert_sorted; exact IH. Qed.
End Sort.

(** A sorted list is determined by its elements when the order is antisymmetric on them. *)
Lemma sorted_unique {A} (R : A -> A -> Prop) : forall l1 l2 : list A,
  (forall x y, In x l1 -> In y l1 -> R x y -> R y x -> x = y) ->
  StronglySorted R l1 -> StronglySorted R l2 -> Permutation l1 l2 -> l1 = l2.
Proof.
  induction l1 as [|x l1 IH]; intros l2 Ha H1 H2 Hp.
  - apply Permutation_nil in Hp; subst; reflexivity.
  - destruct l2 as [|y l2]; [symmetry in Hp; apply Permutation_nil in Hp; discriminate|].
    inversion H1 as [|? ? H1r H1x]; inversion H2 as [|? ? H2r H2y]; subst.
    rewrite Forall_forall in H1x, H2y.
    assert (E : x = y).
    { assert (Hx : In x (y :: l2)) by (eapply Permutation_in; [exact Hp|left; reflexivity]).
      assert (Hy : In y (x :: l1)) by (eapply Permutation_in; [symmetry; exact Hp|left; reflexivity]).
      destruct Hx as [->|Hx]; [reflexivity|]. destruct Hy as [->|Hy]; [reflexivity|].
      apply Ha; [left; reflexivity|right; exact Hy|apply H1x; exact Hy|apply H2y; exact Hx]. }
    subst y. f_equal. apply IH; auto.
    + intros a b Hin Hin'; apply Ha; right; assumption.
    + eapply Permutation_cons_inv; exact Hp.
Qed.
