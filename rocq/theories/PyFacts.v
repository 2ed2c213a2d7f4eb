(** Facts about the primitives of [Py.v]. *)
From Verif Require Import Py.
From Coq Require Import Permutation.

Lemma str_eqb_spec a b : reflect (a = b) (str_eqb a b).
Proof.
  revert b; induction a as [|x a IH]; intros [|y b]; simpl; try (constructor; congruence).
  destruct (N.eqb_spec x y) as [->|Hn]; simpl.
  - destruct (IH b) as [->|Hn]; constructor; congruence.
  - constructor; congruence.
Qed.
Lemma str_eqb_eq a b : str_eqb a b = true <-> a = b.
Proof. destruct (str_eqb_spec a b); split; congruence. Qed.
Lemma str_eqb_refl a : str_eqb a a = true.
Proof. apply str_eqb_eq; reflexivity. Qed.
Lemma key_eqb_spec a b : reflect (a = b) (key_eqb a b).
Proof.
  destruct a as [x|x], b as [y|y]; simpl; try (constructor; congruence);
  destruct (str_eqb_spec x y); constructor; congruence.
Qed.
Lemma key_eqb_eq a b : key_eqb a b = true <-> a = b.
Proof. destruct (key_eqb_spec a b); split; congruence. Qed.
Lemma key_eqb_refl a : key_eqb a a = true.
Proof. apply key_eqb_eq; reflexivity. Qed.
Lemma key_eq_dec (a b : key) : {a = b} + {a <> b}.
Proof. destruct (key_eqb_spec a b); [left|right]; assumption. Qed.

Lemma cmem_In c s : cmem c s = true <-> In c s.
Proof.
  unfold cmem; rewrite existsb_exists; split.
  - intros (x & Hx & E); apply N.eqb_eq in E; subst; exact Hx.
  - intros H; exists c; split; [exact H | apply N.eqb_refl].
Qed.
Lemma smem_In s l : smem s l = true <-> In s l.
Proof.
  unfold smem; rewrite existsb_exists; split.
  - intros (x & Hx & E); apply str_eqb_eq in E; subst; exact Hx.
  - intros H; exists s; split; [exact H | apply str_eqb_refl].
Qed.

(** dict lemmas *)
Section Dict.
  Context {V : Type}.
  Implicit Types (d : list (key * V)) (k : key) (v : V).
  Lemma dget_dset_eq d k v : dget (dset d k v) k = Some v.
  Proof.
    induction d as [|[k' v'] d IH]; simpl.
    - rewrite key_eqb_refl; reflexivity.
    - destruct (key_eqb_spec k k') as [->|Hn]; simpl.
      + rewrite key_eqb_refl; reflexivity.
      + destruct (key_eqb_spec k k'); [congruence|exact IH].
  Qed.
  Lemma dget_dset_ne d k k2 v : k2 <> k -> dget (dset d k v) k2 = dget d k2.
  Proof.
    intros Hne; induction d as [|[k' v'] d IH]; simpl.
    - destruct (key_eqb_spec k2 k); [congruence|reflexivity].
    - destruct (key_eqb_spec k k') as [->|Hn]; simpl.
      + destruct (key_eqb_spec k2 k'); [congruence|reflexivity].
      + destruct (key_eqb_spec k2 k'); [reflexivity|exact IH].
  Qed.
  Lemma dget_In d k v : dget d k = Some v -> In (k, v) d.
  Proof.
    induction d as [|[k' v'] d IH]; simpl; [discriminate|].
    destruct (key_eqb_spec k k') as [->|Hn]; intros H.
    - injection H as ->; left; reflexivity.
    - right; apply IH; exact H.
  Qed.
  Lemma In_dget d k v : NoDup (dkeys d) -> In (k, v) d -> dget d k = Some v.
  Proof.
    induction d as [|[k' v'] d IH]; simpl; [intros _ []|].
    intros Hnd [E|Hin]; inversion Hnd as [|? ? Hni Hnd']; subst.
    - injection E as -> ->; rewrite key_eqb_refl; reflexivity.
    - destruct (key_eqb_spec k k') as [->|Hn].
      + exfalso; apply Hni; unfold dkeys; apply (in_map fst) in Hin; exact Hin.
      + apply IH; assumption.
  Qed.
  Lemma dget_None d k : dget d k = None <-> ~ In k (dkeys d).
  Proof.
    induction d as [|[k' v'] d IH]; simpl; [tauto|].
    destruct (key_eqb_spec k k') as [->|Hn].
    - split; [discriminate|intros H; exfalso; apply H; left; reflexivity].
    - rewrite IH; split; [intros H [E|E]; [congruence|tauto] | tauto].
  Qed.
  Lemma dget_Some_key d k v : dget d k = Some v -> In k (dkeys d).
  Proof.
    intros H; destruct (in_dec key_eq_dec k (dkeys d)) as [|Hn]; [assumption|].
    apply dget_None in Hn; congruence.
  Qed.
  Lemma dget_key_Some d k : In k (dkeys d) -> exists v, dget d k = Some v.
  Proof.
    intros H; destruct (dget d k) as [v|] eqn:E; [exists v; reflexivity|].
    apply dget_None in E; contradiction.
  Qed.
  Lemma dkeys_dset d k v :
    dkeys (dset d k v) = if dmem d k then dkeys d else dkeys d ++ [k].
  Proof.
    unfold dmem; induction d as [|[k' v'] d IH]; simpl; [reflexivity|].
    destruct (key_eqb_spec k k') as [->|Hn]; simpl; [reflexivity|].
    rewrite IH; destruct (dget d k); reflexivity.
  Qed.
  Lemma dset_NoDup d k v : NoDup (dkeys d) -> NoDup (dkeys (dset d k v)).
  Proof.
    intros H; rewrite dkeys_dset; unfold dmem.
    destruct (dget d k) eqn:E; [exact H|].
    apply dget_None in E.
    apply (Permutation_NoDup (l := k :: dkeys d)).
    - apply Permutation_cons_append.
    - constructor; assumption.
  Qed.
  Lemma dget_ddel_eq d k : dget (ddel d k) k = None.
  Proof.
    induction d as [|[k' v'] d IH]; simpl; [reflexivity|].
    destruct (key_eqb_spec k k') as [->|Hn]; simpl; [exact IH|].
    destruct (key_eqb_spec k k'); [congruence|exact IH].
  Qed.
  Lemma dget_ddel_ne d k k2 : k2 <> k -> dget (ddel d k) k2 = dget d k2.
  Proof.
    intros Hne; induction d as [|[k' v'] d IH]; simpl; [reflexivity|].
    destruct (key_eqb_spec k k') as [->|Hn]; simpl.
    - destruct (key_eqb_spec k2 k'); [congruence|exact IH].
    - destruct (key_eqb_spec k2 k'); [reflexivity|exact IH].
  Qed.
  Lemma ddel_NoDup d k : NoDup (dkeys d) -> NoDup (dkeys (ddel d k)).
  Proof.
    unfold ddel; induction d as [|[k' v'] d IH]; simpl; [trivial|].
    intros H; inversion H as [|? ? Hni Hnd]; subst.
    destruct (key_eqb_spec k k') as [->|Hn]; simpl; [apply IH; exact Hnd|].
    constructor; [|apply IH; exact Hnd].
    intros Hin; apply Hni; unfold dkeys in *.
    apply in_map_iff in Hin; destruct Hin as ([k2 v2] & <- & Hin).
    apply filter_In in Hin; apply in_map_iff; exists (k2, v2); tauto.
  Qed.
  Lemma dkeys_NoDup_app_dset d k v : dget d k = None -> dset d k v = d ++ [(k, v)].
  Proof.
    induction d as [|[k' v'] d IH]; simpl; [reflexivity|].
    destruct (key_eqb_spec k k') as [->|Hn]; [discriminate|].
    intros H; rewrite IH by exact H; reflexivity.
  Qed.
End Dict.

(** Induction principle for [val] *)
Section ValInd.
  Variable P : val -> Prop.
  Hypothesis HNone : P VNone.
  Hypothesis HBool : forall b, P (VBool b).
  Hypothesis HInt : forall z, P (VInt z).
  Hypothesis HFloat : forall q, P (VFloat q).
  Hypothesis HStr : forall s, P (VStr s).
  Hypothesis HBytes : forall s, P (VBytes s).
  Hypothesis HList : forall l, Forall P l -> P (VList l).
  Hypothesis HDict : forall d, Forall (fun kv => P (snd kv)) d -> P (VDict d).
  Fixpoint val_ind' (v : val) : P v :=
    match v with
    | VNone => HNone
    | VBool b => HBool b
    | VInt z => HInt z
    | VFloat q => HFloat q
    | VStr s => HStr s
    | VBytes s => HBytes s
    | VList l => HList l ((fix go (l : list val) : Forall P l :=
                             match l with
                             | [] => Forall_nil _
                             | x :: r => Forall_cons _ (val_ind' x) (go r)
                             end) l)
    | VDict d => HDict d ((fix go (d : list (key * val)) : Forall (fun kv => P (snd kv)) d :=
                             match d with
                             | [] => Forall_nil _
                             | kv :: r => Forall_cons kv (val_ind' (snd kv)) (go r)
                             end) d)
    end.
End ValInd.

(** unfolding equations of [py_eq] *)
Fixpoint list_eq (l1 l2 : list val) : bool :=
  match l1, l2 with
  | [], [] => true
  | x :: r1, y :: r2 => py_eq x y && list_eq r1 r2
  | _, _ => false
  end.
Definition entries_in (d d2 : dict) : bool :=
  forallb (fun kv => match dget d2 (fst kv) with Some w => py_eq (snd kv) w | None => false end) d.
Lemma py_eq_list l1 l2 : py_eq (VList l1) (VList l2) = list_eq l1 l2.
Proof.
  simpl; revert l2; induction l1 as [|x l1 IH]; intros [|y l2]; simpl; reflexivity.
Qed.
Lemma py_eq_dict d1 d2 :
  py_eq (VDict d1) (VDict d2) = Nat.eqb (List.length d1) (List.length d2) && entries_in d1 d2.
Proof.
  simpl; f_equal. induction d1 as [|[k v] d1 IH]; simpl; [reflexivity|].
  f_equal; exact IH.
Qed.

Lemma Qeq_bool_refl q : Qeq_bool q q = true.
Proof. apply Qeq_bool_iff; reflexivity. Qed.
Lemma Qeq_bool_sym p q : Qeq_bool p q = Qeq_bool q p.
Proof.
  destruct (Qeq_bool p q) eqn:E1, (Qeq_bool q p) eqn:E2; try reflexivity.
  - apply Qeq_bool_iff in E1; symmetry in E1; apply Qeq_bool_iff in E1; congruence.
  - apply Qeq_bool_iff in E2; symmetry in E2; apply Qeq_bool_iff in E2; congruence.
Qed.
Lemma Qeq_bool_trans p q r : Qeq_bool p q = true -> Qeq_bool q r = true -> Qeq_bool p r = true.
Proof.
  intros H1 H2; apply Qeq_bool_iff in H1; apply Qeq_bool_iff in H2; apply Qeq_bool_iff.
  transitivity q; assumption.
Qed.

Lemma py_eq_refl v : wf v -> py_eq v v = true.
Proof.
  induction v as [|b|z|q|s|s|l IH|d IH] using val_ind'; intros Hwf;
    try (simpl; first [reflexivity | apply str_eqb_refl | apply Qeq_bool_refl]).
  - rewrite py_eq_list; inversion Hwf as [| | | | | |? Hl|]; subst.
    induction l as [|x l IHl]; simpl; [reflexivity|].
    inversion IH; inversion Hl; subst. rewrite IHl; auto using wf_list.
    rewrite andb_true_r; auto.
  - rewrite py_eq_dict, Nat.eqb_refl; simpl. inversion Hwf as [| | | | | | |? Hnd Hl]; subst.
    apply forallb_forall; intros [k v] Hin; simpl.
    rewrite (In_dget d k v Hnd Hin).
    rewrite Forall_forall in IH, Hl. apply (IH (k, v) Hin), (Hl (k, v) Hin).
Qed.

(** generic list facts *)
Lemma existsb_false {A} (f : A -> bool) l : existsb f l = false <-> forall x, In x l -> f x = false.
Proof.
  split.
  - intros H x Hx; destruct (f x) eqn:E; [|reflexivity].
    assert (existsb f l = true) by (apply existsb_exists; exists x; tauto); congruence.
  - intros H; destruct (existsb f l) eqn:E; [|reflexivity].
    apply existsb_exists in E; destruct E as (x & Hx & E); rewrite H in E; [discriminate|assumption].
Qed.
