(** Proofs about [levels]: which items are in which level, when it fails. *)
From Coq Require Import List Bool ZArith Lia Permutation Sorting.Sorted.
From Verif Require Import Py Sort Schedule.
Import ListNotations.

Definition ready (data : list (nat * list nat)) : list nat :=
  map fst (filter (fun d => match snd d with [] => true | _ => false end) data).
Definition remaining (data : list (nat * list nat)) : list (nat * list nat) :=
  map (fun d => (fst d, filter (fun j => negb (nmem j (ready data))) (snd d)))
      (filter (fun d => negb (nmem (fst d) (ready data))) data).
Definition closed (data : list (nat * list nat)) : Prop :=
  NoDup (map fst data) /\ forall i ds j, In (i, ds) data -> In j ds -> In j (map fst data).

Lemma nmem_In i l : nmem i l = true <-> In i l.
Proof. unfold nmem. rewrite existsb_exists. split; [intros (x & H & E); apply Nat.eqb_eq in E; subst; exact H|intros H; exists i; split; [exact H|apply Nat.eqb_refl]]. Qed.
Lemma nmem_not i l : negb (nmem i l) = true <-> ~ In i l.
Proof. rewrite negb_true_iff, <- nmem_In. destruct (nmem i l); split; congruence. Qed.

Lemma In_ready data i : In i (ready data) <-> In (i, []) data.
Proof.
  unfold ready. rewrite in_map_iff. split.
  - intros ((k & ds) & E & H). apply filter_In in H as [H Hd]. cbn [fst snd] in *. subst k. destruct ds; [exact H|discriminate].
  - intros H. exists (i, []). split; [reflexivity|]. apply filter_In. split; [exact H|reflexivity].
Qed.
Lemma ready_keys data i : In i (ready data) -> In i (map fst data).
Proof. rewrite In_ready. intros H. apply in_map_iff. exists (i, []). split; [reflexivity|exact H]. Qed.
Lemma key_pair (data : list (nat * list nat)) i : In i (map fst data) -> exists ds, In (i, ds) data.
Proof. intros H. apply in_map_iff in H as ((k & ds) & <- & H). exists ds. exact H. Qed.
Lemma pair_key (data : list (nat * list nat)) i ds : In (i, ds) data -> In i (map fst data).
Proof. intros H. apply in_map_iff. exists (i, ds). split; [reflexivity|exact H]. Qed.
Lemma same_deps (data : list (nat * list nat)) i ds ds' : NoDup (map fst data) -> In (i, ds) data -> In (i, ds') data -> ds = ds'.
Proof.
  induction data as [|(k & e) r IH]; cbn [map fst]; intros Hn H H'; [destruct H|].
  inversion Hn as [|? ? Hk Hr]; subst. destruct H as [H|H], H' as [H'|H'].
  - congruence.
  - injection H as -> ->. exfalso. apply Hk. apply (pair_key _ _ _ H').
  - injection H' as -> ->. exfalso. apply Hk. apply (pair_key _ _ _ H).
  - apply IH; assumption.
Qed.

Lemma remaining_keys data : map fst (remaining data) = filter (fun i => negb (nmem i (ready data))) (map fst data).
Proof.
  unfold remaining. rewrite map_map. cbn [fst]. generalize (ready data). intros o.
  induction data as [|(k & e) r IH]; cbn [map filter fst]; [reflexivity|].
  destruct (negb (nmem k o)); cbn [map fst]; rewrite IH; reflexivity.
Qed.
Lemma In_remaining_key data i : In i (map fst (remaining data)) <-> In i (map fst data) /\ ~ In i (ready data).
Proof. rewrite remaining_keys, filter_In, nmem_not. reflexivity. Qed.
Lemma In_remaining data i ds' : In (i, ds') (remaining data) <->
  exists ds, In (i, ds) data /\ ~ In i (ready data) /\ ds' = filter (fun j => negb (nmem j (ready data))) ds.
Proof.
  unfold remaining. rewrite in_map_iff. split.
  - intros ((k & ds) & E & H). apply filter_In in H as [H Hd]. cbn [fst snd] in *. injection E as -> <-.
    exists ds. split; [exact H|]. split; [apply nmem_not; exact Hd|reflexivity].
  - intros (ds & H & Hn & ->). exists (i, ds). split; [reflexivity|]. apply filter_In. split; [exact H|]. apply nmem_not; exact Hn.
Qed.
Lemma remaining_closed data : closed data -> closed (remaining data).
Proof.
  intros (Hn & Hc). split.
  - rewrite remaining_keys. apply NoDup_filter. exact Hn.
  - intros i ds j H Hj. apply In_remaining in H as (e & H & Hi & ->). apply filter_In in Hj as [Hj Hr].
    apply In_remaining_key. split; [apply (Hc i e j H Hj)|apply nmem_not; exact Hr].
Qed.
Lemma perm_split {A} (f : A -> bool) (l : list A) : Permutation (filter f l ++ filter (fun x => negb (f x)) l) l.
Proof.
  induction l as [|x r IH]; cbn [filter app]; [constructor|]. destruct (f x); cbn [negb app].
  - constructor. exact IH.
  - rewrite <- Permutation_middle. constructor. exact IH.
Qed.
Lemma ready_remaining data : closed data -> Permutation (ready data ++ map fst (remaining data)) (map fst data).
Proof.
  intros (Hn & Hc). rewrite remaining_keys. 
  eapply Permutation_trans; [|exact (perm_split (fun i => nmem i (ready data)) (map fst data))]. apply Permutation_app_tail.
  apply NoDup_Permutation.
  - unfold ready. clear Hc. induction data as [|(k & e) r IH]; cbn [map filter snd fst]; [constructor|].
    inversion Hn as [|? ? Hk Hr]; subst. destruct e; [|apply IH; exact Hr]. cbn [map fst]. constructor; [|apply IH; exact Hr].
    intros H. apply Hk. apply (ready_keys r). exact H.
  - apply NoDup_filter. exact Hn.
  - intros i. rewrite filter_In, nmem_In. split; [intros H; split; [apply ready_keys; exact H|exact H]|intros [_ H]; exact H].
Qed.

(** [data] says that [i] waits for [j] *)
Definition edge (data : list (nat * list nat)) (i j : nat) : Prop := exists ds, In (i, ds) data /\ In j ds.
Fixpoint chain_in (data : list (nat * list nat)) (n i : nat) : Prop :=
  match n with 0 => In i (map fst data) | S k => exists j, edge data i j /\ chain_in data k j end.

Lemma chain_key data n i : chain_in data n i -> In i (map fst data).
Proof. destruct n; cbn [chain_in]; [intros H; exact H|]. intros (j & (ds & H & _) & _). apply (pair_key _ _ _ H). Qed.
Lemma chain_le data n m i : closed data -> m <= n -> chain_in data n i -> chain_in data m i.
Proof.
  intros (Hn & Hc). revert n i. induction m as [|m IH]; intros n i Hm H; [apply (chain_key _ _ _ H)|].
  destruct n as [|n]; [lia|]. destruct H as (j & E & H). exists j. split; [exact E|]. apply (IH n); [lia|exact H].
Qed.

Lemma chain_remaining data : closed data -> forall n i, chain_in (remaining data) n i <-> chain_in data (S n) i.
Proof.
  intros Hcl. pose proof Hcl as (Hn & Hc).
  assert (Hready : forall i n, In i (ready data) -> chain_in data (S n) i -> False).
  { intros i n H (j & (ds & Hi & Hj) & _). apply In_ready in H. rewrite (same_deps data i ds [] Hn Hi H) in Hj. destruct Hj. }
  induction n as [|n IH]; intros i.
  - cbn [chain_in]. rewrite In_remaining_key. split.
    + intros (H & Hr). apply key_pair in H as (ds & H). destruct ds as [|j ds]; [exfalso; apply Hr, In_ready, H|].
      exists j. split; [exists (j :: ds); split; [exact H|left; reflexivity]|]. apply (Hc i (j :: ds) j H). left; reflexivity.
    + intros H. split; [destruct H as (j & (ds & H & _) & _); apply (pair_key _ _ _ H)|].
      intros Hr. apply (Hready i 0 Hr H).
  - split.
    + intros (j & (ds' & H & Hj) & Hch). apply In_remaining in H as (ds & H & Hi & ->). apply filter_In in Hj as [Hj Hr].
      exists j. split; [exists ds; split; assumption|]. apply IH. exact Hch.
    + intros H. destruct H as (j & (ds & Hi & Hj) & Hch). exists j. split; [|apply IH; exact Hch].
      exists (filter (fun j => negb (nmem j (ready data))) ds). split.
      * apply In_remaining. exists ds. split; [exact Hi|]. split; [|reflexivity].
        intros Hr. apply In_ready in Hr. rewrite (same_deps data i ds [] Hn Hi Hr) in Hj. destruct Hj.
      * apply filter_In. split; [exact Hj|]. apply nmem_not. intros Hr. apply (Hready j n Hr Hch).
Qed.

Lemma levels_S k data : levels (S k) data =
  match ready data with
  | [] => match data with [] => Ok [] | _ => Err (OtherError 7) end
  | _ => rest <- levels k (remaining data); Ok (ready data :: rest)
  end.
Proof. reflexivity. Qed.

(** Every level holds the items whose longest chain of dependencies has that length. *)
Lemma levels_perm : forall k data lv, closed data -> levels k data = Ok lv -> Permutation (List.concat lv) (map fst data).
Proof.
  induction k as [|k IH]; intros data lv Hc H; [discriminate|]. rewrite levels_S in H.
  pose proof (ready_remaining data Hc) as Hp.
  destruct (ready data) as [|a o] eqn:E.
  - destruct data; [|discriminate]. injection H as <-. constructor.
  - destruct (levels k (remaining data)) as [rest|e] eqn:El; cbn [bind] in H; [|discriminate].
    injection H as <-. cbn [List.concat]. rewrite (IH _ _ (remaining_closed data Hc) El). exact Hp.
Qed.
Lemma levels_nth : forall k data lv, closed data -> levels k data = Ok lv -> forall d l, nth_error lv d = Some l ->
  forall i, In i l <-> chain_in data d i /\ ~ chain_in data (S d) i.
Proof.
  induction k as [|k IH]; intros data lv Hc H; [discriminate|]. rewrite levels_S in H.
  destruct (ready data) as [|a o] eqn:E.
  - destruct data; [|discriminate]. injection H as <-. intros d l Hd. destruct d; discriminate.
  - destruct (levels k (remaining data)) as [rest|e] eqn:El; cbn [bind] in H; [|discriminate].
    injection H as <-. rewrite <- E. intros d l Hd i. destruct d as [|d]; cbn [nth_error] in Hd.
    + injection Hd as <-. rewrite <- (chain_remaining data Hc 0 i). cbn [chain_in]. rewrite In_remaining_key. split.
      * intros H. split; [apply ready_keys; exact H|intros (_ & Hn); apply Hn; exact H].
      * intros (H & Hn). destruct (in_dec Nat.eq_dec i (ready data)) as [Hi|Hi]; [exact Hi|]. exfalso. apply Hn. split; assumption.
    + rewrite (IH _ _ (remaining_closed data Hc) El d l Hd i). rewrite !(chain_remaining data Hc). reflexivity.
Qed.

(** A knot: items that all wait for another one of them. *)
Definition knot_in (data : list (nat * list nat)) (c : list nat) : Prop :=
  c <> [] /\ forall i, In i c -> exists j, In j c /\ edge data i j.

Lemma knot_remaining data c : closed data -> knot_in data c -> knot_in (remaining data) c.
Proof.
  intros (Hn & Hc) (Hne & H). split; [exact Hne|]. intros i Hi. destruct (H i Hi) as (j & Hj & (ds & Hd & Hin)).
  assert (Hr : forall i, In i c -> ~ In i (ready data)).
  { intros x Hx Hr. apply In_ready in Hr. destruct (H x Hx) as (y & _ & (e & He & Hy)). rewrite (same_deps data x e [] Hn He Hr) in Hy. destruct Hy. }
  exists j. split; [exact Hj|]. exists (filter (fun j => negb (nmem j (ready data))) ds). split.
  - apply In_remaining. exists ds. split; [exact Hd|]. split; [apply Hr; exact Hi|reflexivity].
  - apply filter_In. split; [exact Hin|]. apply nmem_not. apply Hr. exact Hj.
Qed.
Lemma knot_back data c : knot_in (remaining data) c -> knot_in data c.
Proof.
  intros (Hne & H). split; [exact Hne|]. intros i Hi. destruct (H i Hi) as (j & Hj & (ds' & Hd & Hin)). exists j. split; [exact Hj|].
  apply In_remaining in Hd as (ds & Hd & _ & ->). apply filter_In in Hin as [Hin _]. exists ds. split; assumption.
Qed.
Lemma remaining_shorter data a o : ready data = a :: o -> closed data -> List.length (remaining data) < List.length data.
Proof.
  intros E Hc. pose proof (Permutation_length (ready_remaining data Hc)) as H. rewrite app_length, !map_length, E in H. cbn in H. lia.
Qed.
Lemma levels_ok : forall k data, closed data -> List.length data < k ->
  (forall c, ~ knot_in data c) -> exists lv, levels k data = Ok lv.
Proof.
  induction k as [|k IH]; intros data Hc Hk Hn; [lia|]. rewrite levels_S. destruct (ready data) as [|a o] eqn:E.
  - destruct data as [|d data]; [eexists; reflexivity|]. exfalso. apply (Hn (map fst (d :: data))). split; [discriminate|].
    intros i Hi. apply key_pair in Hi as (ds & Hi). destruct ds as [|j ds].
    + exfalso. apply In_ready in Hi. rewrite E in Hi. destruct Hi.
    + exists j. split; [apply (proj2 Hc i (j :: ds) j Hi); left; reflexivity|]. exists (j :: ds). split; [exact Hi|left; reflexivity].
  - pose proof (remaining_shorter data a o E Hc).
    destruct (IH (remaining data)) as (lv & ->); [apply remaining_closed; exact Hc|lia| |].
    + intros c H'. apply (Hn c). apply knot_back. exact H'.
    + eexists. reflexivity.
Qed.
Lemma levels_knot : forall k data c, closed data -> List.length data < k -> knot_in data c -> levels k data = Err (OtherError 7).
Proof.
  induction k as [|k IH]; intros data c Hc Hk Hn; [lia|]. rewrite levels_S. destruct (ready data) as [|a o] eqn:E.
  - destruct data as [|d data]; [|reflexivity]. exfalso. destruct Hn as (Hne & H). destruct c as [|i c]; [apply Hne; reflexivity|].
    destruct (H i (or_introl eq_refl)) as (j & _ & (ds & [] & _)).
  - pose proof (remaining_shorter data a o E Hc).
    rewrite (IH (remaining data) c); [reflexivity|apply remaining_closed; exact Hc|lia|apply knot_remaining; assumption].
Qed.
Lemma levels_err : forall k data e, closed data -> List.length data < k -> levels k data = Err e ->
  e = OtherError 7 /\ exists c, knot_in data c.
Proof.
  induction k as [|k IH]; intros data e Hc Hk H; [lia|]. rewrite levels_S in H. destruct (ready data) as [|a o] eqn:E.
  - destruct data as [|d data]; [discriminate|]. injection H as <-. split; [reflexivity|].
    exists (map fst (d :: data)). split; [discriminate|].
    intros i Hi. apply key_pair in Hi as (ds & Hi). destruct ds as [|j ds].
    + exfalso. apply In_ready in Hi. rewrite E in Hi. destruct Hi.
    + exists j. split; [apply (proj2 Hc i (j :: ds) j Hi); left; reflexivity|]. exists (j :: ds). split; [exact Hi|left; reflexivity].
  - pose proof (remaining_shorter data a o E Hc). destruct (levels k (remaining data)) as [lv|e'] eqn:El; cbn [bind] in H; [discriminate|].
    injection H as <-. destruct (IH (remaining data) e' (remaining_closed data Hc) ltac:(lia) El) as (He & c & Hk').
    split; [exact He|]. exists c. apply knot_back. exact Hk'.
Qed.
