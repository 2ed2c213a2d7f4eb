(** Proofs about [ToDict.v]: specification by grouping, and commutation with byte encoding. *)
From Verif Require Import Py PyFacts ToDict.

(** ** Specification: values of a name, distinct values *)
Definition values_of (name : key) (ms : list (key * val)) : list val :=
  map snd (filter (fun m => key_eqb name (fst m)) ms).
(** [firsts seen l out]: [out] are the elements of [l], in order, equal to no element of [seen]
    nor to an earlier one of [out] *)
Inductive firsts : list val -> list val -> list val -> Prop :=
| fi_nil seen : firsts seen [] []
| fi_dup seen x l out : (exists y, In y seen /\ py_eq y x = true) -> firsts seen l out -> firsts seen (x :: l) out
| fi_new seen x l out : (forall y, In y seen -> py_eq y x = false) ->
    firsts (seen ++ [x]) l out -> firsts seen (x :: l) (x :: out).
(** names in order of first occurrence *)
Fixpoint first_names (seen : list key) (ms : list (key * val)) : list key :=
  match ms with
  | [] => []
  | (k, _) :: r => if existsb (key_eqb k) seen then first_names seen r else k :: first_names (k :: seen) r
  end.

Definition not_list (v : val) : Prop := match v with VList _ => False | _ => True end.

Definition add_value (enforce : bool) (cur : option val) (v : val) : val :=
  match cur with
  | Some (VList l) => if py_in v l then VList l else VList (l ++ [v])
  | Some c => if py_eq c v then c else VList [c; v]
  | None => match v with VList _ => v | _ => if enforce then VList [v] else v end
  end.

Lemma dset_same {V} (d : list (key * V)) k v : dget d k = Some v -> dset d k v = d.
Proof.
  induction d as [|[k' v'] d IH]; simpl; [discriminate|].
  destruct (key_eqb_spec k k') as [->|]; intros H; [congruence|]. rewrite IH by exact H; reflexivity.
Qed.

Lemma add_match_eq enf ret name v :
  add_match false enf ret (name, v) = dset ret name (add_value enf (dget ret name) v).
Proof.
  unfold add_match, add_value. destruct (dget ret name) as [cur|] eqn:E.
  - destruct cur; try (match goal with |- context [py_eq ?a ?b] => destruct (py_eq a b) end;
      [rewrite dset_same by exact E|]; reflexivity).
    destruct (py_in v l); [rewrite dset_same by exact E|]; reflexivity.
  - destruct v; reflexivity.
Qed.

Lemma fold_not_in fv enf ms : forall ret name,
  (forall v, ~ In (name, v) ms) -> dget (fold_left (add_match fv enf) ms ret) name = dget ret name.
Proof.
  induction ms as [|[k v] ms IH]; intros ret name H; [reflexivity|]. cbn [fold_left].
  rewrite IH by (intros w Hw; apply (H w); right; exact Hw).
  assert (Hne : name <> k) by (intros ->; apply (H v); left; reflexivity).
  unfold add_match. destruct (dget ret k) as [cur|].
  - destruct fv; [reflexivity|]. destruct cur; repeat match goal with |- context [if ?b then _ else _] => destruct b end;
      try reflexivity; apply dget_dset_ne; exact Hne.
  - destruct v; apply dget_dset_ne; exact Hne.
Qed.

(** single key evolution *)
Definition fold_values (fv enf : bool) (vs : list val) (cur : option val) : option val :=
  fold_left (fun cur v => match cur with
                          | Some c => if fv then Some c else Some (add_value enf (Some c) v)
                          | None => Some (add_value enf None v)
                          end) vs cur.

Lemma fold_key fv enf ms : forall ret name,
  dget (fold_left (add_match fv enf) ms ret) name = fold_values fv enf (values_of name ms) (dget ret name).
Proof.
  induction ms as [|[k v] ms IH]; intros ret name; [reflexivity|]. cbn [fold_left].
  rewrite IH. unfold values_of; cbn [filter fst]. destruct (key_eqb_spec name k) as [->|Hne].
  - cbn [map snd]. unfold fold_values; cbn [fold_left]. f_equal.
    destruct fv.
    + unfold add_match, add_value. destruct (dget ret k) as [cur|] eqn:E; [exact E|].
      destruct v; apply dget_dset_eq.
    + rewrite add_match_eq, dget_dset_eq. destruct (dget ret k); reflexivity.
  - f_equal. unfold add_match. destruct (dget ret k) as [cur|].
    + destruct fv; [reflexivity|]. destruct cur; repeat match goal with |- context [if ?b then _ else _] => destruct b end;
        try reflexivity; apply dget_dset_ne; exact Hne.
    + destruct v; apply dget_dset_ne; exact Hne.
Qed.

Lemma fold_values_list enf vs : forall l,
  exists out, fold_values false enf vs (Some (VList l)) = Some (VList (l ++ out)) /\ firsts l vs out.
Proof.
  induction vs as [|v vs IH]; intros l.
  - exists []; rewrite app_nil_r; split; [reflexivity|constructor].
  - change (fold_values false enf (v :: vs) (Some (VList l))) with (fold_values false enf vs (Some (add_value enf (Some (VList l)) v))).
    cbn [add_value].
    destruct (py_in v l) eqn:E.
    + destruct (IH l) as (out & Ho & Hf); exists out; split; [exact Ho|].
      apply fi_dup; [apply existsb_exists in E; exact E|exact Hf].
    + destruct (IH (l ++ [v])) as (out & Ho & Hf); exists (v :: out); split.
      * rewrite <- app_assoc in Ho; exact Ho.
      * apply fi_new; [|exact Hf]. intros y Hy; unfold py_in in E; rewrite existsb_false in E; apply E; exact Hy.
Qed.

Definition shown (enforce : bool) (distinct : list val) : val :=
  match distinct with
  | [x] => if enforce then VList [x] else x
  | l => VList l
  end.

Lemma fold_values_scalar vs : forall c, not_list c -> Forall not_list vs ->
  exists out, firsts [c] vs out /\
    fold_values false false vs (Some c) = Some (shown false (c :: out)).
Proof.
  induction vs as [|v vs IH]; intros c Hc Hvs.
  - exists []; split; [constructor|reflexivity].
  - inversion Hvs; subst. change (fold_values false false (v :: vs) (Some c)) with (fold_values false false vs (Some (add_value false (Some c) v))).
    assert (Ea : add_value false (Some c) v = if py_eq c v then c else VList [c; v])
      by (destruct c; try reflexivity; destruct Hc).
    rewrite Ea; destruct (py_eq c v) eqn:E.
    + destruct (IH c Hc ltac:(assumption)) as (out & Hf & Ho); exists out; split; [|exact Ho].
      apply fi_dup; [exists c; split; [left; reflexivity|exact E]|exact Hf].
    + destruct (fold_values_list false vs [c; v]) as (out & Ho & Hf).
      exists (v :: out); split; [|exact Ho].
      apply fi_new; [|exact Hf]. intros y [<-|[]]; exact E.
Qed.

(** ** main characterisation *)
Lemma to_dict_value enf ms name :
  Forall (fun m => not_list (snd m)) ms ->
  match values_of name ms with
  | [] => dget (to_dict false enf ms) name = None
  | v :: vs => exists out, firsts [v] vs out /\ dget (to_dict false enf ms) name = Some (shown enf (v :: out))
  end.
Proof.
  intros Hnl; unfold to_dict; rewrite fold_key; cbn [dget].
  assert (Hv : Forall not_list (values_of name ms)).
  { unfold values_of; apply Forall_forall; intros x Hx; apply in_map_iff in Hx; destruct Hx as (m & <- & Hm).
    apply filter_In in Hm; rewrite Forall_forall in Hnl; apply Hnl; tauto. }
  destruct (values_of name ms) as [|v vs]; [reflexivity|]. inversion Hv as [|? ? Hv1 Hvs]; subst.
  change (fold_values false enf (v :: vs) None) with (fold_values false enf vs (Some (add_value enf None v))).
  assert (Ea : add_value enf None v = if enf then VList [v] else v) by (destruct v; try reflexivity; destruct Hv1).
  rewrite Ea; destruct enf.
  - destruct (fold_values_list true vs [v]) as (out & Ho & Hf); exists out; split; [exact Hf|].
    rewrite Ho; destruct out; reflexivity.
  - destruct (fold_values_scalar vs v Hv1 Hvs) as (out & Hf & Ho); exists out; split; assumption.
Qed.
Lemma to_dict_first enf ms name :
  Forall (fun m => not_list (snd m)) ms ->
  match values_of name ms with
  | [] => dget (to_dict true enf ms) name = None
  | v :: vs => dget (to_dict true enf ms) name = Some (shown enf [v])
  end.
Proof.
  intros Hnl; unfold to_dict; rewrite fold_key; cbn [dget].
  assert (Hv : Forall not_list (values_of name ms)).
  { unfold values_of; apply Forall_forall; intros x Hx; apply in_map_iff in Hx; destruct Hx as (m & <- & Hm).
    apply filter_In in Hm; rewrite Forall_forall in Hnl; apply Hnl; tauto. }
  destruct (values_of name ms) as [|v vs]; [reflexivity|]. inversion Hv as [|? ? Hv1 Hvs]; subst.
  unfold fold_values; cbn [fold_left].
  assert (Ea : add_value enf None v = if enf then VList [v] else v) by (destruct v; try reflexivity; destruct Hv1).
  rewrite Ea. assert (Hfix : forall c, fold_left
    (fun (cur : option val) (v0 : val) =>
     match cur with
     | Some c => Some c
     | None => Some (add_value enf None v0)
     end) vs (Some c) = Some c) by (intros c; clear; induction vs; simpl; auto).
  rewrite Hfix; reflexivity.
Qed.

Lemma existsb_key k l : existsb (key_eqb k) l = true <-> In k l.
Proof.
  rewrite existsb_exists; split.
  - intros (x & Hx & E); apply key_eqb_eq in E; subst; exact Hx.
  - intros H; exists k; split; [exact H|apply key_eqb_refl].
Qed.
Lemma first_names_ext ms : forall s1 s2, (forall k, In k s1 <-> In k s2) -> first_names s1 ms = first_names s2 ms.
Proof.
  induction ms as [|[k v] ms IH]; intros s1 s2 H; simpl; [reflexivity|].
  assert (E : existsb (key_eqb k) s1 = existsb (key_eqb k) s2).
  { destruct (existsb (key_eqb k) s1) eqn:E1, (existsb (key_eqb k) s2) eqn:E2; try reflexivity.
    - apply existsb_key, H, existsb_key in E1; congruence.
    - apply existsb_key, H, existsb_key in E2; congruence. }
  rewrite E; destruct (existsb (key_eqb k) s2); [apply IH; exact H|].
  f_equal; apply IH; intros x; simpl; rewrite H; tauto.
Qed.
Lemma to_dict_keys fv enf ms : dkeys (to_dict fv enf ms) = first_names [] ms.
Proof.
  unfold to_dict. assert (G : forall ms ret, dkeys (fold_left (add_match fv enf) ms ret) = dkeys ret ++ first_names (dkeys ret) ms).
  2:{ rewrite G; reflexivity. }
  clear ms; induction ms as [|[k v] ms IH]; intros ret; [simpl; rewrite app_nil_r; reflexivity|].
  cbn [fold_left first_names]. rewrite IH. assert (Hk : dkeys (add_match fv enf ret (k, v)) = if dmem ret k then dkeys ret else dkeys ret ++ [k]).
  { unfold add_match, dmem; destruct (dget ret k) as [cur|] eqn:E.
    - assert (Hs : forall w, dkeys (dset ret k w) = dkeys ret) by (intros w; rewrite dkeys_dset; unfold dmem; rewrite E; reflexivity).
      destruct fv; [reflexivity|]. destruct cur; repeat match goal with |- context [if ?b then _ else _] => destruct b end; auto.
    - assert (Hs : forall w, dkeys (dset ret k w) = dkeys ret ++ [k]) by (intros w; rewrite dkeys_dset; unfold dmem; rewrite E; reflexivity).
      destruct v; apply Hs. }
  rewrite Hk. unfold dmem. destruct (dget ret k) as [cur|] eqn:E.
  - assert (Hin : existsb (key_eqb k) (dkeys ret) = true) by (apply existsb_key; eapply dget_Some_key; exact E).
    rewrite Hin; reflexivity.
  - assert (Hin : existsb (key_eqb k) (dkeys ret) = false).
    { destruct (existsb (key_eqb k) (dkeys ret)) eqn:E2; [|reflexivity].
      apply existsb_key in E2; apply dget_None in E; contradiction. }
    rewrite Hin, <- app_assoc; simpl. do 2 f_equal.
    apply first_names_ext; intros x; rewrite in_app_iff; simpl; tauto.
Qed.

(** ** byte encoding of the values commutes with grouping *)
Definition enc1 (v : val) : val := match v with VStr s => VBytes s | _ => v end.
Definition enc (v : val) : val := match v with VList l => VList (map enc1 l) | _ => enc1 v end.
Definition enc_dict (d : dict) : dict := map (fun kv => (fst kv, enc (snd kv))) d.
Definition textual (v : val) : Prop := match v with VList _ | VDict _ | VBytes _ => False | _ => True end.
Definition textual_entry (v : val) : Prop := match v with VList l => Forall textual l | _ => textual v end.

Lemma enc1_eq a b : textual a -> textual b -> py_eq (enc1 a) (enc1 b) = py_eq a b.
Proof. destruct a, b; simpl; intros; try contradiction; try reflexivity. Qed.
Lemma enc1_in v l : textual v -> Forall textual l -> py_in (enc1 v) (map enc1 l) = py_in v l.
Proof.
  intros Hv Hl; induction Hl as [|x l Hx Hl IH]; [reflexivity|]. cbn [map].
  unfold py_in in *; cbn [existsb]; rewrite IH, enc1_eq by assumption; reflexivity.
Qed.
Lemma enc_textual v : textual v -> enc v = enc1 v.
Proof. destruct v; simpl; intros; try contradiction; reflexivity. Qed.
Lemma dget_enc d k : dget (enc_dict d) k = option_map enc (dget d k).
Proof. induction d as [|[k' v] d IH]; simpl; [reflexivity|]. destruct (key_eqb k k'); auto. Qed.
Lemma dset_enc d k v : enc_dict (dset d k v) = dset (enc_dict d) k (enc v).
Proof. induction d as [|[k' v'] d IH]; simpl; [reflexivity|]. destruct (key_eqb k k'); simpl; congruence. Qed.
Lemma In_dset' {V} (d : list (key * V)) k v kv : In kv (dset d k v) -> snd kv = v \/ In kv d.
Proof.
  induction d as [|[k2 v2] d IH]; simpl.
  - intros [<-|[]]; left; reflexivity.
  - destruct (key_eqb k k2); simpl; intros [<-|Hin]; auto. destruct (IH Hin); auto.
Qed.

Lemma add_match_enc fv enf ret k v :
  textual v -> Forall (fun kv => textual_entry (snd kv)) ret ->
  add_match fv enf (enc_dict ret) (k, enc1 v) = enc_dict (add_match fv enf ret (k, v)) /\
  Forall (fun kv => textual_entry (snd kv)) (add_match fv enf ret (k, v)).
Proof.
  intros Hv Hr. unfold add_match. rewrite dget_enc.
  assert (Hset : forall w, textual_entry w -> Forall (fun kv => textual_entry (snd kv)) (dset ret k w)).
  { intros w Hw; apply Forall_forall; intros kv Hkv; apply In_dset' in Hkv; destruct Hkv as [->|Hin]; [exact Hw|].
    rewrite Forall_forall in Hr; apply Hr; exact Hin. }
  destruct (dget ret k) as [cur|] eqn:E; cbn [option_map].
  - destruct fv; [split; [reflexivity|exact Hr]|].
    assert (Hc : textual_entry cur).
    { apply dget_In in E; rewrite Forall_forall in Hr; apply (Hr (k, cur) E). }
    destruct cur; cbn [enc enc1 textual_entry textual] in *; try contradiction;
      try (match goal with |- context [py_eq ?c v] =>
             assert (Hq : py_eq (enc1 c) (enc1 v) = py_eq c v) by (apply enc1_eq; assumption);
             cbn [enc1] in Hq; rewrite Hq; destruct (py_eq c v) end;
           [split; [reflexivity|exact Hr]|];
           split; [rewrite dset_enc; reflexivity|apply Hset; repeat constructor; assumption]).
    + rewrite enc1_in by assumption. destruct (py_in v l); [split; [reflexivity|exact Hr]|].
      split; [rewrite dset_enc; cbn [enc]; rewrite map_app; reflexivity|].
      apply Hset; apply Forall_app; split; [exact Hc|constructor; [exact Hv|constructor]].
  - destruct v; cbn [enc1] in *; try contradiction; destruct enf;
      (split; [rewrite dset_enc; reflexivity|apply Hset; repeat constructor]).
Qed.
Lemma to_dict_enc fv enf ms :
  Forall (fun m => textual (snd m)) ms ->
  to_dict fv enf (map (fun m => (fst m, enc1 (snd m))) ms) = enc_dict (to_dict fv enf ms).
Proof.
  unfold to_dict; intros H. change (@nil (key * val)) with (enc_dict []) at 1.
  assert (Hr : Forall (fun kv : key * val => textual_entry (snd kv)) []) by constructor.
  revert Hr; generalize (@nil (key * val)) as ret.
  induction H as [|[k v] ms Hv Hms IH]; intros ret Hr; [reflexivity|].
  cbn [map fold_left fst snd] in *. destruct (add_match_enc fv enf ret k v Hv Hr) as [-> Hr'].
  apply IH; exact Hr'.
Qed.
