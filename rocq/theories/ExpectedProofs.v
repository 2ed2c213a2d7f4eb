From Coq Require Import Sorting.Sorted ZifyBool ZifyNat ZifyN.
From Verif Require Import Py PyFacts Text TextFacts Formatters Expected.

(** same character up to case, all separators being the same *)
Definition same_char (c d : char) : Prop := (In c seps /\ In d seps) \/ to_lower c = to_lower d.
Definition same_text (u v : str) : Prop := Forall2 same_char u v.
(** separators written as spaces *)
Definition spaced (s : str) : str := map (fun c => if is_sep c then 32%N else c) s.

Lemma replace_seps_spaced s : replace_seps s = spaced s.
Proof.
  unfold replace_seps, spaced, is_sep.
  assert (G : forall l t, fold_left (fun t c => replace_char c 32%N t) l t = map (fun c => if cmem c l then 32%N else c) t).
  { induction l as [|x l IH]; intros t; cbn [fold_left].
    - rewrite map_ext with (g := fun c => c) by reflexivity. symmetry; apply map_id.
    - rewrite IH. unfold replace_char. rewrite map_map. apply map_ext. intros c. change (cmem c (x :: l)) with ((N.eqb c x) || cmem c l).
      destruct (N.eqb c x); cbn [orb]; [|reflexivity]. destruct (cmem 32 l); reflexivity. }
  apply G.
Qed.
Lemma spaced_length s : List.length (spaced s) = List.length s.
Proof. apply map_length. Qed.
Lemma sep_space : In 32%N seps.
Proof. apply cmem_In. reflexivity. Qed.
Lemma to_lower_space c : to_lower c = 32%N -> c = 32%N.
Proof. unfold to_lower. destruct (is_upper c) eqn:E; [unfold is_upper in E; lia|auto]. Qed.
Lemma sep_lower c : In c seps -> to_lower c = c.
Proof. intros H. vm_compute in H. repeat (destruct H as [<-|H]; [reflexivity|]). destruct H. Qed.
Lemma lower_letter c d : to_lower c = to_lower d -> In c seps -> In d seps.
Proof.
  intros H Hc. rewrite (sep_lower c Hc) in H. unfold to_lower in H. destruct (is_upper d) eqn:E; [|congruence].
  assert (is_lower c = true) by (unfold is_lower, is_upper in *; lia). exfalso. vm_compute in Hc. repeat (destruct Hc as [<-|Hc]; [discriminate|]). destruct Hc.
Qed.
Lemma same_char_iff c d : same_char c d <-> to_lower (if is_sep c then 32%N else c) = to_lower (if is_sep d then 32%N else d).
Proof.
  unfold same_char, is_sep. destruct (cmem c seps) eqn:Ec, (cmem d seps) eqn:Ed.
  - apply cmem_In in Ec, Ed. tauto.
  - apply cmem_In in Ec. assert (Hd : ~ In d seps) by (intros H; apply cmem_In in H; congruence). split.
    + intros [[_ H]|H]; [contradiction|]. destruct Hd. eapply lower_letter; eassumption.
    + intros H. symmetry in H. apply to_lower_space in H. subst. destruct Hd. exact sep_space.
  - apply cmem_In in Ed. assert (Hc : ~ In c seps) by (intros H; apply cmem_In in H; congruence). split.
    + intros [[H _]|H]; [contradiction|]. destruct Hc. eapply lower_letter; [symmetry; exact H|exact Ed].
    + intros H. apply to_lower_space in H. subst. destruct Hc. exact sep_space.
  - assert (Hc : ~ In c seps) by (intros H; apply cmem_In in H; congruence). tauto.
Qed.
Lemma same_text_iff u v : same_text u v <-> lower (spaced u) = lower (spaced v).
Proof.
  revert v. induction u as [|c u IH]; intros v.
  - split; [inversion 1; reflexivity|]. destruct v; [constructor|discriminate].
  - destruct v as [|d v]; [split; [inversion 1|discriminate]|]. unfold lower, spaced. cbn [map]. split.
    + intros H. inversion H as [|? ? ? ? H1 H2]; subst. apply same_char_iff in H1. apply IH in H2. unfold lower, spaced in H2. rewrite H1, H2. reflexivity.
    + intros H. injection H as H1 H2. constructor; [apply same_char_iff; exact H1|apply IH; exact H2].
Qed.
Lemma slice_map {A B} (f : A -> B) i j s : slice i j (map f s) = map f (slice i j s).
Proof. unfold slice. rewrite skipn_map, firstn_map. reflexivity. Qed.
Lemma spaced_idem s : spaced (spaced s) = spaced s.
Proof. unfold spaced. rewrite map_map. apply map_ext. intros c. destruct (is_sep c) eqn:E; [reflexivity|]. rewrite E. reflexivity. Qed.

(** where the text [t] is found in [s] *)
Definition locates (s t : str) (l : list found) : Prop :=
  (forall f, In f l -> exists a b, f = FText a b (spaced (slice a b s)) /\ b = a + List.length t /\ b <= List.length s /\ same_text (slice a b s) t) /\
  StronglySorted (fun f g => match f, g with FText _ b _, FText a _ _ => b <= a | _, _ => False end) l /\
  (forall k, k + List.length t <= List.length s -> same_text (slice k (k + List.length t) s) t ->
     exists a b v, In (FText a b v) l /\ a <= k < b).

Lemma one_text s t : t <> [] -> exists starts, find_all true (spaced s) (spaced t) = Ok starts /\
  locates s t (map (fun a => FText a (a + List.length (spaced t)) (slice a (a + List.length (spaced t)) (spaced s))) starts).
Proof.
  intros Ht. unfold find_all. set (s' := lower (spaced s)). set (t' := lower (spaced t)).
  assert (Ht' : t' <> []) by (unfold t', lower, spaced; destruct t; [congruence|discriminate]).
  assert (Hl : List.length t' = List.length t) by (unfold t'; rewrite lower_length, spaced_length; reflexivity).
  assert (Hls : List.length s' = List.length s) by (unfold s'; rewrite lower_length, spaced_length; reflexivity).
  destruct (find_all_loop_spec t' s' Ht' (S (S (List.length s'))) 0 ltac:(lia) ltac:(lia)) as (l & E & H1 & H2 & H3).
  assert (Hocc : forall a, occurs t' s' a <-> a + List.length t <= List.length s /\ same_text (slice a (a + List.length t) s) t).
  { intros a. rewrite (occurs_iff t' s' a Ht'), Hl, Hls. unfold s', t', lower, spaced. rewrite !slice_map. fold (spaced t) (spaced (slice a (a + List.length t) s)).
    fold (lower (spaced t)) (lower (spaced (slice a (a + List.length t) s))). rewrite same_text_iff. tauto. }
  exists l. split; [exact E|]. rewrite spaced_length. split; [|split].
  - intros f Hf. apply in_map_iff in Hf as (a & <- & Ha). rewrite Forall_forall in H1. destruct (H1 a Ha) as [_ Ho]. apply Hocc in Ho as [Ho1 Ho2].
    exists a, (a + List.length t). unfold spaced at 1. rewrite slice_map. auto.
  - rewrite Hl in H2. clear - H2. induction H2 as [|a l Hs IH Ha]; [constructor|]. cbn [map]. constructor; [exact IH|].
    apply Forall_map. exact Ha.
  - intros k Hk Hs. destruct (H3 k ltac:(lia)) as (a & Ha & Hr); [apply Hocc; auto|]. rewrite Hl in Hr.
    exists a, (a + List.length t), (slice a (a + List.length t) (spaced s)). split; [|exact Hr]. apply in_map_iff. exists a. auto.
Qed.
Lemma locates_spaced s t l : locates (spaced s) t l -> locates s t l.
Proof.
  intros (H1 & H2 & H3).
  assert (Hsp : forall a b u, same_text (slice a b (spaced s)) u <-> same_text (slice a b s) u).
  { intros a b u. rewrite !same_text_iff. unfold spaced at 2. rewrite slice_map. fold (spaced (slice a b s)). rewrite spaced_idem. reflexivity. }
  split; [|split].
  - intros f Hf. destruct (H1 f Hf) as (a & b & -> & Hb & Hl & Hs). exists a, b. rewrite spaced_length in Hl. apply Hsp in Hs.
    split; [|auto]. f_equal. unfold spaced at 2. rewrite slice_map. fold (spaced (slice a b s)). apply spaced_idem.
  - exact H2.
  - intros k Hk Hs. apply (H3 k); [rewrite spaced_length; exact Hk|apply Hsp; exact Hs].
Qed.
Definition plain (t : str) : Prop := t <> [] /\ startswith (lit "re:") t = false.
Lemma all_texts regex_spans ts : Forall plain ts -> forall s, exists ls, expected regex_spans s ts = Ok (List.concat ls) /\ Forall2 (locates s) ts ls.
Proof.
  unfold expected. induction 1 as [|t ts [Hne Hp] Hts IH]; intros s; [exists []; split; [reflexivity|constructor]|].
  cbn [expected_loop]. rewrite Hp, !replace_seps_spaced. destruct (one_text s t Hne) as (starts & -> & Hl). cbn [bind].
  destruct (IH (spaced s)) as (ls & -> & Hls). cbn [bind]. eexists (_ :: ls). split; [reflexivity|]. constructor; [exact Hl|].
  clear - Hls. induction Hls as [|u l us ls H1 H2 IH]; constructor; [apply locates_spaced; exact H1|exact IH].
Qed.
