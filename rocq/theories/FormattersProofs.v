(** cleanup / reorder_title: specification and proofs *)
From Coq Require Import Sorting.Permutation ZifyBool ZifyNat ZifyN.
From Verif Require Import Py PyFacts Text TextFacts Formatters.

(** * Specification of cleanup *)
(** The separators turned into spaces *)
Definition cleaned_chars : str := lit " [](){}+*|=_~#.".
(** position of the character two before [i], cyclically (Python's [s[i - 2]]) *)
Definition two_before (s : str) (i : nat) : nat := if i =? 1 then List.length s - 1 else i - 2.
(** The character at [i] is a separator after a single letter: what precedes the letter is a
    separator, and what follows is the end or one letter and the same separator. *)
Definition single_sep (s : str) (i : nat) : Prop :=
  1 <= i /\ exists c, nth_error s i = Some c /\ In c seps /\
  (exists b, nth_error s (two_before s i) = Some b /\ In b seps) /\
  (exists a, nth_error s (i - 1) = Some a /\ ~ In a seps) /\
  (List.length s <= i + 2 \/
   (nth_error s (i + 2) = Some c /\ exists d, nth_error s (i + 1) = Some d /\ ~ In d seps)).
(** ... and it is one of at least two such separators in a row (S.H.I.E.L.D.) *)
Definition restored (s : str) (i : nat) : Prop :=
  single_sep s i /\ exists j, single_sep s j /\ (j + 2 = i \/ j = i + 2).
(** characters removed at both ends *)
Definition strippable (s : str) (c : char) : Prop :=
  In c seps /\ ~ exists i, restored s i /\ nth_error s i = Some c.
(** each maximal run of spaces becomes one space *)
Inductive squeezed : str -> str -> Prop :=
| sq_nil : squeezed [] []
| sq_char c s t : c <> 32%N -> squeezed s t -> squeezed (c :: s) (c :: t)
| sq_run n s t : hd_error s <> Some 32%N -> squeezed s t -> squeezed (repeat 32%N (S n) ++ s) (32%N :: t).
(** [t] is [s] where separators may be replaced by a space or dropped *)
Inductive only_seps_touched : str -> str -> Prop :=
| ot_nil : only_seps_touched [] []
| ot_keep c s t : only_seps_touched s t -> only_seps_touched (c :: s) (c :: t)
| ot_space c s t : In c seps -> only_seps_touched s t -> only_seps_touched (c :: s) (32%N :: t)
| ot_drop c s t : In c seps -> only_seps_touched s t -> only_seps_touched (c :: s) t.
Fixpoint no_double_space (s : str) : Prop :=
  match s with
  | a :: ((b :: _) as r) => ~ (a = 32%N /\ b = 32%N) /\ no_double_space r
  | _ => True
  end.

(** * Proofs *)
Lemma zindex_nat {A} (s : list A) i : zindex s (Z.of_nat i) = nth_error s i.
Proof. unfold zindex. destruct (Z.ltb_spec (Z.of_nat i) 0); [lia|]. rewrite Nat2Z.id; reflexivity. Qed.
Lemma at_nat s i : at_ s (Z.of_nat i) = match nth_error s i with Some c => Ok c | None => Err IndexError end.
Proof. unfold at_. rewrite zindex_nat; reflexivity. Qed.
Lemma nth_ex {A} (s : list A) i : i < List.length s -> exists c, nth_error s i = Some c.
Proof. intros H. destruct (nth_error s i) eqn:E; [eauto|]. apply nth_error_None in E; lia. Qed.
Lemma cmem_false c s : cmem c s = false <-> ~ In c s.
Proof. rewrite <- cmem_In. destruct (cmem c s); split; congruence. Qed.

Lemma at_two_before s i : 1 <= i < List.length s -> at_ s (Z.of_nat i - 2) =
  match nth_error s (two_before s i) with Some c => Ok c | None => Err IndexError end.
Proof.
  intros H. unfold two_before. destruct (Nat.eqb_spec i 1) as [->|Hn].
  - change (Z.of_nat 1 - 2)%Z with (-1)%Z. unfold at_, zindex. destruct (Z.ltb_spec (-1) 0); [|lia].
    destruct (Z.leb_spec 0 (Z.of_nat (List.length s) + -1)); [|lia].
    replace (Z.to_nat (Z.of_nat (List.length s) + -1)) with (List.length s - 1) by lia. reflexivity.
  - replace (Z.of_nat i - 2)%Z with (Z.of_nat (i - 2)) by lia. apply at_nat.
Qed.

Definition pot_test (s : str) (i : nat) : res bool :=
  b <- potential_before i s; if b then potential_after i s else Ok false.
Lemma pot_test_spec s i : i < List.length s -> exists b, pot_test s i = Ok b /\ (b = true <-> single_sep s i).
Proof.
  intros Hi. unfold pot_test, potential_before.
  destruct (Z.leb_spec 0 (Z.of_nat i - 1)) as [H1|H1].
  2:{ exists false. cbn [bind]. split; [reflexivity|]. split; [discriminate|]. intros [H _]; lia. }
  rewrite at_nat. destruct (nth_ex s i Hi) as [c Hc]. rewrite Hc; cbn [bind].
  assert (N : forall (P : Prop) , (single_sep s i -> P) -> (P -> False) -> exists b, Ok false = Ok b /\ (b = true <-> single_sep s i)).
  { intros P H2 H3. exists false. split; [reflexivity|]. split; [discriminate|]. intros H; exfalso; auto. }
  destruct (cmem c seps) eqn:E1; cbn [negb bind].
  2:{ apply (N (In c seps)); [|apply cmem_false; exact E1]. intros (_ & c' & Hc' & H & _). congruence. }
  rewrite at_two_before by lia. destruct (nth_ex s (two_before s i)) as [b Hb]; [unfold two_before; destruct (Nat.eqb_spec i 1); lia|].
  rewrite Hb; cbn [bind]. destruct (cmem b seps) eqn:E2; cbn [negb bind].
  2:{ apply (N (In b seps)); [|apply cmem_false; exact E2]. intros (_ & c' & _ & _ & (b' & Hb' & H) & _). congruence. }
  replace (Z.of_nat i - 1)%Z with (Z.of_nat (i - 1)) by lia. rewrite at_nat. destruct (nth_ex s (i - 1)) as [a Ha]; [lia|].
  rewrite Ha; cbn [bind]. destruct (cmem a seps) eqn:E3; cbn [negb bind].
  { apply (N (~ In a seps)); [|intros H; apply H; apply cmem_In; exact E3]. intros (_ & c' & _ & _ & _ & (a' & Ha' & H) & _). congruence. }
  unfold potential_after. destruct (Nat.leb_spec (List.length s) (i + 2)) as [Hl|Hl].
  { exists true. split; [reflexivity|]. split; [|reflexivity]. intros _. split; [lia|]. exists c. split; [exact Hc|].
    split; [apply cmem_In; exact E1|]. split; [exists b; split; [exact Hb|apply cmem_In; exact E2]|].
    split; [exists a; split; [exact Ha|apply cmem_false; exact E3]|left; exact Hl]. }
  replace (Z.of_nat i + 2)%Z with (Z.of_nat (i + 2)) by lia. replace (Z.of_nat i + 1)%Z with (Z.of_nat (i + 1)) by lia.
  rewrite !at_nat, Hc. destruct (nth_ex s (i + 2)) as [e He]; [lia|]. destruct (nth_ex s (i + 1)) as [d Hd]; [lia|].
  rewrite He, Hd; cbn [bind]. destruct (N.eqb_spec e c) as [->|Hne]; cbn [negb bind].
  2:{ apply (N (e = c)); [|exact Hne]. intros (_ & c' & Hc' & _ & _ & _ & [H|[H _]]); [lia|]. congruence. }
  exists (negb (cmem d seps)). split; [reflexivity|]. rewrite Bool.negb_true_iff, cmem_false. split.
  - intros Hnd. split; [lia|]. exists c. split; [exact Hc|]. split; [apply cmem_In; exact E1|].
    split; [exists b; split; [exact Hb|apply cmem_In; exact E2]|]. split; [exists a; split; [exact Ha|apply cmem_false; exact E3]|].
    right. split; [exact He|]. exists d; auto.
  - intros (_ & c' & _ & _ & _ & _ & [H|(_ & d' & Hd' & H)]); [lia|congruence].
Qed.

Lemma filterM_ok {A} (f : A -> res bool) (P : A -> Prop) l :
  (forall x, In x l -> exists b, f x = Ok b /\ (b = true <-> P x)) ->
  exists r, filterM f l = Ok r /\ forall x, In x r <-> In x l /\ P x.
Proof.
  induction l as [|x l IH]; intros H; cbn [filterM].
  - exists []. split; [reflexivity|]. simpl; tauto.
  - destruct (H x (or_introl eq_refl)) as (b & E & Hb). rewrite E; cbn [bind].
    destruct IH as (r & Er & Hr); [intros y Hy; apply H; right; exact Hy|]. rewrite Er; cbn [bind].
    eexists; split; [reflexivity|]. intros y. destruct b; simpl; rewrite Hr.
    + split; [intros [<-|[H1 H2]]; [split; [left; reflexivity|apply Hb; reflexivity]|tauto]|tauto].
    + split; [tauto|]. intros [[<-|H1] H2]; [apply Hb in H2; discriminate|auto].
Qed.
Lemma mapM_at s l : (forall i, In i l -> i < List.length s) ->
  exists r, mapM (fun i => at_ s (Z.of_nat i)) l = Ok r /\ r = map (fun i => nth i s 0%N) l.
Proof.
  induction l as [|i l IH]; intros H; cbn [mapM]; [exists []; auto|].
  rewrite at_nat. destruct (nth_ex s i) as [c Hc]; [apply H; left; reflexivity|]. rewrite Hc; cbn [bind].
  destruct IH as (r & E & ->); [intros j Hj; apply H; right; exact Hj|]. rewrite E; cbn [bind].
  eexists; split; [reflexivity|]. simpl. f_equal. symmetry; apply nth_error_nth; exact Hc.
Qed.

Lemma positions_In p s : forall pos i, In i (positions p s pos) <-> pos <= i /\ exists c, nth_error s (i - pos) = Some c /\ p c = true.
Proof.
  induction s as [|x s IH]; intros pos i; simpl.
  - split; [tauto|]. intros [_ [c [H _]]]. destruct (i - pos); discriminate.
  - assert (G : pos < i -> nth_error (x :: s) (i - pos) = nth_error s (i - S pos)).
    { intros H. replace (i - pos) with (S (i - S pos)) by lia. reflexivity. }
    destruct (p x) eqn:E; simpl; rewrite IH.
    + split.
      * intros [<-|[H [c Hc]]]; [split; [lia|]; rewrite Nat.sub_diag; simpl; eauto|]. split; [lia|]. rewrite G by lia; eauto.
      * intros [H [c Hc]]. destruct (Nat.eq_dec pos i) as [->|Hn]; [left; reflexivity|right]. split; [lia|]. rewrite G in Hc by lia; eauto.
    + split.
      * intros [H [c Hc]]. split; [lia|]. rewrite G by lia; eauto.
      * intros [H [c [Hc Hs]]]. destruct (Nat.eq_dec pos i) as [->|Hn].
        -- rewrite Nat.sub_diag in Hc; simpl in Hc. congruence.
        -- split; [lia|]. rewrite G in Hc by lia; eauto.
Qed.

(** replacing the clean characters *)
Lemma clean_map s : fold_left (fun t c => replace_char c 32%N t) clean_chars s = map (fun c => if cmem c cleaned_chars then 32%N else c) s.
Proof.
  assert (G : forall l s, In 32%N l -> fold_left (fun t c => replace_char c 32%N t) l s = map (fun c => if cmem c l then 32%N else c) s \/ True) by auto.
  clear G. assert (G : forall l s, fold_left (fun t c => replace_char c 32%N t) l s = map (fun c => if cmem c l then 32%N else c) s).
  { induction l as [|d l IH]; intros t; simpl.
    - symmetry. rewrite <- map_id. apply map_ext. reflexivity.
    - rewrite IH. unfold replace_char. rewrite map_map. apply map_ext. intros c.
      unfold cmem; simpl. destruct (N.eqb c d); simpl; [|reflexivity].
      destruct (existsb (N.eqb 32%N) l); reflexivity. }
  rewrite G. reflexivity.
Qed.

Lemma set_at_length {A} (l : list A) i x : List.length (set_at l i x) = List.length l.
Proof. revert i; induction l as [|y l IH]; intros [|i]; simpl; auto. Qed.
Lemma set_at_nth {A} (l : list A) i x j : nth_error (set_at l i x) j = if Nat.eqb i j then (if j <? List.length l then Some x else None) else nth_error l j.
Proof.
  revert i j; induction l as [|y l IH]; intros [|i] [|j]; simpl; auto.
  - destruct (Nat.eqb i j); reflexivity.
  - rewrite IH. reflexivity.
Qed.
Lemma fold_set_length {A} (ics : list (nat * A)) : forall l, List.length (fold_left (fun t ic => set_at t (fst ic) (snd ic)) ics l) = List.length l.
Proof. induction ics as [|[i x] r IH]; intros l; simpl; [reflexivity|]. rewrite IH. apply set_at_length. Qed.
Lemma fold_set_nth (s : str) is : forall l, List.length l = List.length s -> (forall i, In i is -> i < List.length s) ->
  forall j, nth_error (fold_left (fun t ic => set_at t (fst ic) (snd ic)) (combine is (map (fun i => nth i s 0%N) is)) l) j =
    if existsb (Nat.eqb j) is then nth_error s j else nth_error l j.
Proof.
  induction is as [|i is IH]; intros l Hl Hin j; simpl; [reflexivity|].
  rewrite IH.
  2:{ rewrite set_at_length; exact Hl. }
  2:{ intros k Hk; apply Hin; right; exact Hk. }
  rewrite set_at_nth. destruct (existsb (Nat.eqb j) is) eqn:E; [rewrite Bool.orb_true_r; reflexivity|]. rewrite Bool.orb_false_r.
  rewrite (Nat.eqb_sym j i). destruct (Nat.eqb_spec i j) as [->|Hn]; [|reflexivity].
  assert (Hj : j < List.length s) by (apply Hin; left; reflexivity). rewrite Hl.
  destruct (Nat.ltb_spec j (List.length s)); [|lia]. destruct (nth_ex s j Hj) as [c Hc]. rewrite Hc. f_equal. apply nth_error_nth; exact Hc.
Qed.

(** strip *)
Lemma lstrip_spec p s : exists u, s = u ++ lstrip p s /\ Forall (fun c => p c = true) u /\
  match hd_error (lstrip p s) with Some c => p c = false | None => True end.
Proof.
  induction s as [|c s (u & E & Hu & Hh)]; simpl; [exists []; repeat split; constructor|].
  destruct (p c) eqn:Ep; [|exists []; simpl; auto]. exists (c :: u). rewrite <- app_comm_cons, <- E. auto.
Qed.
Definition last_error {A} (s : list A) : option A := hd_error (rev s).
Lemma rstrip_spec p s : exists v, s = rstrip p s ++ v /\ Forall (fun c => p c = true) v /\
  match last_error (rstrip p s) with Some c => p c = false | None => True end.
Proof.
  unfold rstrip, last_error. destruct (lstrip_spec p (rev s)) as (u & E & Hu & Hh). exists (rev u). rewrite rev_involutive. split; [|split; [|exact Hh]].
  - rewrite <- rev_app_distr, <- E, rev_involutive; reflexivity.
  - apply Forall_rev; exact Hu.
Qed.
Lemma hd_error_app_l {A} (u v : list A) c : hd_error u = Some c -> hd_error (u ++ v) = Some c.
Proof. destruct u; simpl; congruence. Qed.
Lemma strip_spec p s : exists u v, s = u ++ strip p s ++ v /\ Forall (fun c => p c = true) u /\ Forall (fun c => p c = true) v /\
  (forall c, hd_error (strip p s) = Some c -> p c = false) /\ (forall c, last_error (strip p s) = Some c -> p c = false).
Proof.
  unfold strip. destruct (lstrip_spec p s) as (u & E1 & Hu & Hh). destruct (rstrip_spec p (lstrip p s)) as (v & E2 & Hv & Hl).
  exists u, v. rewrite <- E2. split; [exact E1|]. split; [exact Hu|]. split; [exact Hv|]. split.
  - intros c Hc. rewrite E2 in Hh. rewrite (hd_error_app_l _ _ _ Hc) in Hh. exact Hh.
  - intros c Hc. rewrite Hc in Hl. exact Hl.
Qed.

(** squeeze *)
Lemma squeeze_from_spec s : (squeezed s (squeeze_from false s)) /\
  (exists n s', s = repeat 32%N n ++ s' /\ hd_error s' <> Some 32%N /\ squeezed s' (squeeze_from true s)).
Proof.
  induction s as [|c s [IH1 (n & s' & E & Hh & IH2)]]; simpl.
  - split; [constructor|]. exists 0, []. split; [reflexivity|]. split; [discriminate|constructor].
  - destruct (N.eqb_spec c 32) as [->|Hc].
    + split.
      * rewrite E. apply (sq_run n s'); [exact Hh|]. rewrite <- E. exact IH2.
      * exists (S n), s'. split; [rewrite E at 1; reflexivity|]. split; [exact Hh|exact IH2].
    + split; [constructor; assumption|]. exists 0, (c :: s). split; [reflexivity|]. split; [simpl; congruence|constructor; assumption].
Qed.
Lemma squeeze_spec s : squeezed s (squeeze s).
Proof. apply squeeze_from_spec. Qed.
Lemma squeezed_hd s t : squeezed s t -> hd_error t = hd_error s.
Proof. destruct 1; reflexivity. Qed.
Lemma squeezed_no_double s t : squeezed s t -> no_double_space t.
Proof.
  induction 1 as [|c s t Hc H IH|n s t Hh H IH]; [exact I| |].
  - destruct t as [|d t]; [exact I|]. split; [intros [-> _]; congruence|exact IH].
  - apply squeezed_hd in H. destruct t as [|d t]; [exact I|]. split; [|exact IH]. intros [_ ->]. apply Hh. rewrite <- H; reflexivity.
Qed.
Lemma last_error_cons {A} (c : A) s : last_error (c :: s) = match s with [] => Some c | _ => last_error s end.
Proof.
  unfold last_error. cbn [rev]. destruct s as [|d s]; [reflexivity|].
  destruct (rev (d :: s)) as [|x l] eqn:E; [apply (f_equal (@List.length _)) in E; rewrite rev_length in E; discriminate|]. reflexivity.
Qed.
Lemma squeezed_nil s t : squeezed s t -> (s = [] <-> t = []).
Proof. destruct 1; split; try discriminate; auto. Qed.
Lemma squeezed_last s t : squeezed s t -> last_error t = last_error s.
Proof.
  induction 1 as [|c s t Hc H IH|n s t Hh H IH]; [reflexivity| |].
  - rewrite !last_error_cons. apply squeezed_nil in H. destruct s, t; auto; exfalso; destruct H as [H1 H2]; try (specialize (H1 eq_refl); discriminate); specialize (H2 eq_refl); discriminate.
  - assert (G : forall n, last_error (repeat 32%N (S n) ++ s) = match s with [] => Some 32%N | _ => last_error s end).
    { clear. induction n as [|n IH]; [cbn [repeat app]; apply last_error_cons|].
      change (repeat 32%N (S (S n)) ++ s) with (32%N :: repeat 32%N (S n) ++ s). rewrite last_error_cons, IH. reflexivity. }
    rewrite G, last_error_cons. apply squeezed_nil in H. destruct s, t; auto; exfalso; destruct H as [H1 H2]; try (specialize (H1 eq_refl); discriminate); specialize (H2 eq_refl); discriminate.
Qed.

(** * cleanup *)
Lemma zmem_In z l : zmem z l = true <-> exists n, In n l /\ z = Z.of_nat n.
Proof.
  unfold zmem. rewrite existsb_exists. split; intros (n & H1 & H2); exists n; (split; [exact H1|]); apply Z.eqb_eq; exact H2.
Qed.
Lemma nmem_In n l : nmem n l = true <-> In n l.
Proof.
  unfold nmem. rewrite existsb_exists. split; [intros (m & H1 & H2); apply Nat.eqb_eq in H2; subst; exact H1|].
  intros H; exists n; split; [exact H|apply Nat.eqb_refl].
Qed.
Lemma sep_clean c : In (if cmem c cleaned_chars then 32%N else c) seps <-> In c seps.
Proof.
  destruct (cmem c cleaned_chars) eqn:E; [|reflexivity]. apply cmem_In in E. split; intros _.
  - unfold cleaned_chars in E; simpl in E. repeat (destruct E as [<-|E]; [vm_compute; tauto|]); destruct E.
  - vm_compute; tauto.
Qed.
Lemma single_sep_lt s i : single_sep s i -> i < List.length s.
Proof. intros (_ & c & Hc & _). apply nth_error_Some; congruence. Qed.

Lemma cleanup_exact s : exists l u m v t,
  cleanup s = Ok t /\ List.length l = List.length s /\
  (forall i c, nth_error s i = Some c ->
     (restored s i -> nth_error l i = Some c) /\
     (~ restored s i -> nth_error l i = Some (if cmem c cleaned_chars then 32%N else c))) /\
  l = u ++ m ++ v /\ Forall (strippable s) u /\ Forall (strippable s) v /\
  (forall c, hd_error m = Some c -> ~ strippable s c) /\ (forall c, last_error m = Some c -> ~ strippable s c) /\
  squeezed m t.
Proof.
  unfold cleanup. rewrite clean_map. set (clean := map _ s).
  assert (Hcl : List.length clean = List.length s) by (unfold clean; apply map_length).
  destruct (filterM_ok (pot_test s) (single_sep s) (positions (fun c => cmem c seps) clean 0)) as (pot & Epot & Hpot).
  { intros i Hi. apply positions_In in Hi as [_ (c & Hc & _)]. rewrite Nat.sub_0_r in Hc. apply pot_test_spec. rewrite <- Hcl. apply nth_error_Some; congruence. }
  assert (Hpot' : forall i, In i pot <-> single_sep s i).
  { intros i. rewrite Hpot, positions_In, Nat.sub_0_r. split; [tauto|]. intros H; split; [|exact H]. split; [lia|].
    destruct H as (_ & c & Hc & Hs & _). unfold clean. rewrite nth_error_map, Hc; cbn [option_map]. eexists; split; [reflexivity|].
    apply cmem_In, sep_clean; exact Hs. }
  change (filterM (fun i => b <- potential_before i s; if b then potential_after i s else Ok false)) with (filterM (pot_test s)).
  rewrite Epot; cbn [bind]. set (rep := filter _ pot).
  assert (Hrep : forall i, In i rep <-> restored s i).
  { intros i. unfold rep, restored. rewrite filter_In, Hpot', Bool.orb_true_iff, zmem_In, nmem_In, Hpot'. split.
    - intros [H [(n & Hn & E)|H2]]; (split; [exact H|]); [exists n; split; [apply Hpot'; exact Hn|lia]|exists (i + 2); split; [exact H2|lia]].
    - intros [H (j & Hj & [E|E])]; (split; [exact H|]); [left; exists j; split; [apply Hpot'; exact Hj|lia]|right; subst j; exact Hj]. }
  assert (Hlt : forall i, In i rep -> i < List.length s) by (intros i Hi; apply Hrep in Hi; apply single_sep_lt, Hi).
  destruct (mapM_at s rep Hlt) as (dots & Ed & Hdots). rewrite Ed; cbn [bind].
  set (l := fold_left _ (combine rep dots) clean).
  set (p := fun c => cmem c (filter (fun x => negb (cmem x dots)) seps)).
  assert (Hp : forall c, p c = true <-> strippable s c).
  { intros c. unfold p, strippable. rewrite cmem_In, filter_In, Bool.negb_true_iff, cmem_false.
    assert (E : In c dots <-> exists i, restored s i /\ nth_error s i = Some c).
    { rewrite Hdots, in_map_iff. split; intros (i & H1 & H2); exists i.
      - split; [apply Hrep; exact H2|]. apply Hlt in H2. destruct (nth_ex s i H2) as [d Hd]. rewrite Hd; f_equal. apply nth_error_nth with (d := 0%N) in Hd. congruence.
      - split; [apply nth_error_nth; exact H2|apply Hrep; exact H1]. }
    rewrite E. reflexivity. }
  destruct (strip_spec p l) as (u & v & El & Hu & Hv & Hh & Hla).
  exists l, u, (strip p l), v, (squeeze (strip p l)).
  split; [reflexivity|]. split; [unfold l; rewrite fold_set_length; exact Hcl|]. split.
  { intros i c Hc. unfold l. rewrite Hdots, fold_set_nth by assumption. split; intros H.
    - apply Hrep, nmem_In in H. unfold nmem in H. rewrite H. exact Hc.
    - destruct (existsb (Nat.eqb i) rep) eqn:E; [exfalso; apply H, Hrep, nmem_In; exact E|].
      unfold clean. rewrite nth_error_map, Hc. reflexivity. }
  split; [exact El|]. split; [eapply Forall_impl; [|exact Hu]; intros c; apply Hp|]. split; [eapply Forall_impl; [|exact Hv]; intros c; apply Hp|].
  split; [|split; [|apply squeeze_spec]].
  - intros c Hc Hs. apply Hh in Hc. apply Hp in Hs. congruence.
  - intros c Hc Hs. apply Hla in Hc. apply Hp in Hs. congruence.
Qed.

(** ** only separators are touched *)
Lemma ot_refl s : only_seps_touched s s.
Proof. induction s; constructor; assumption. Qed.
Lemma ot_trans s t u : only_seps_touched s t -> only_seps_touched t u -> only_seps_touched s u.
Proof.
  intros H; revert u; induction H as [|c s t H IH|c s t Hc H IH|c s t Hc H IH]; intros u Hu.
  - exact Hu.
  - inversion Hu; subst; [constructor|apply ot_space|apply ot_drop]; auto.
  - inversion Hu; subst; [apply ot_space|apply ot_space|apply ot_drop]; auto.
  - apply ot_drop; auto.
Qed.
Lemma ot_pointwise s l : List.length l = List.length s ->
  (forall i c, nth_error s i = Some c -> nth_error l i = Some c \/ (In c seps /\ nth_error l i = Some 32%N)) -> only_seps_touched s l.
Proof.
  revert l; induction s as [|c s IH]; intros [|d l] Hl H; simpl in Hl; try discriminate; [constructor|].
  assert (IH' : only_seps_touched s l) by (apply IH; [lia|]; intros i; exact (H (S i))).
  destruct (H 0 c eq_refl) as [E|[Hs E]]; injection E as ->; [apply ot_keep|apply ot_space]; assumption.
Qed.
Lemma ot_drops_l u s t : Forall (fun c => In c seps) u -> only_seps_touched s t -> only_seps_touched (u ++ s) t.
Proof. induction 1; simpl; intros; [assumption|apply ot_drop; auto]. Qed.
Lemma ot_drops_r v s t : Forall (fun c => In c seps) v -> only_seps_touched s t -> only_seps_touched (s ++ v) t.
Proof.
  intros Hv. induction 1; simpl; [|apply ot_keep|apply ot_space|apply ot_drop]; auto.
  induction Hv; [constructor|apply ot_drop; assumption].
Qed.
Lemma squeezed_ot s t : squeezed s t -> only_seps_touched s t.
Proof.
  assert (S32 : In 32%N seps) by (vm_compute; tauto).
  induction 1 as [|c s t Hc H IH|n s t Hh H IH]; [constructor|constructor; exact IH|].
  cbn [repeat app]. apply ot_keep. induction n as [|n IHn]; simpl; [exact IH|apply ot_drop; assumption].
Qed.
Lemma restored_dec s i : restored s i \/ ~ restored s i.
Proof.
  assert (D : forall j, single_sep s j \/ ~ single_sep s j).
  { intros j. destruct (Nat.lt_ge_cases j (List.length s)) as [H|H].
    - destruct (pot_test_spec s j H) as ([] & _ & Hb); [left; apply Hb; reflexivity|right; intros Hs; apply Hb in Hs; discriminate].
    - right. intros Hs; apply single_sep_lt in Hs; lia. }
  unfold restored. destruct (D i) as [Hi|Hi]; [|tauto].
  destruct (D (i + 2)) as [H2|H2]; [left; split; [exact Hi|exists (i + 2); auto]|].
  destruct (Nat.le_gt_cases 2 i) as [Hl|Hl].
  - destruct (D (i - 2)) as [H3|H3]; [left; split; [exact Hi|exists (i - 2); split; [exact H3|lia]]|].
    right. intros [_ (j & Hj & [E|E])]; [replace j with (i - 2) in Hj by lia|subst j]; auto.
  - right. intros [_ (j & Hj & [E|E])]; [lia|subst j; auto].
Qed.

Lemma cleanup_touches s : exists t, cleanup s = Ok t /\ only_seps_touched s t /\ no_double_space t /\
  (forall c, hd_error t = Some c -> ~ strippable s c) /\ (forall c, last_error t = Some c -> ~ strippable s c).
Proof.
  destruct (cleanup_exact s) as (l & u & m & v & t & E & Hl & Hpt & El & Hu & Hv & Hh & Hla & Hsq).
  exists t. split; [exact E|]. split; [|split; [eapply squeezed_no_double; exact Hsq|split]].
  - apply (ot_trans s l).
    + apply ot_pointwise; [exact Hl|]. intros i c Hc. destruct (Hpt i c Hc) as [H1 H2].
      destruct (restored_dec s i) as [Hr|Hr]; [left; auto|]. specialize (H2 Hr).
      destruct (cmem c cleaned_chars) eqn:Ec; [right; split; [|exact H2]|left; exact H2].
      apply sep_clean. rewrite Ec. vm_compute; tauto.
    + rewrite El. apply ot_drops_l; [eapply Forall_impl; [|exact Hu]; intros c Hc; apply Hc|].
      apply ot_drops_r; [eapply Forall_impl; [|exact Hv]; intros c Hc; apply Hc|]. apply squeezed_ot; exact Hsq.
  - intros c Hc. apply Hh. rewrite <- Hc. symmetry; apply squeezed_hd; exact Hsq.
  - intros c Hc. apply Hla. rewrite <- Hc. symmetry; apply squeezed_last; exact Hsq.
Qed.
Lemma ot_letters s t : only_seps_touched s t -> filter (fun c => negb (is_sep c)) t = filter (fun c => negb (is_sep c)) s.
Proof.
  induction 1 as [|c s t H IH|c s t Hc H IH|c s t Hc H IH]; cbn [filter]; try (apply cmem_In in Hc; unfold is_sep in *; rewrite Hc; cbn [negb]).
  - reflexivity.
  - rewrite IH; reflexivity.
  - exact IH.
  - exact IH.
Qed.
Lemma ot_length s t : only_seps_touched s t -> List.length t <= List.length s.
Proof. induction 1; simpl; lia. Qed.

(** * reorder_title *)
Lemma zslice_last {A} (s : list A) n : 0 < n -> zslice (- Z.of_nat n) (Z.of_nat (List.length s)) s = skipn (List.length s - n) s.
Proof.
  intros Hn. unfold zslice, slice, norm_bound. destruct (Z.ltb_spec (- Z.of_nat n) 0); [|lia]. destruct (Z.ltb_spec (Z.of_nat (List.length s)) 0); [lia|].
  replace (Z.to_nat (Z.max 0 (Z.of_nat (List.length s) + - Z.of_nat n))) with (List.length s - n) by lia.
  apply firstn_all2. rewrite skipn_length. lia.
Qed.
Lemma zslice_first {A} (s : list A) n : 0 < n -> zslice 0 (- Z.of_nat n) s = firstn (List.length s - n) s.
Proof.
  intros Hn. unfold zslice, slice, norm_bound. destruct (Z.ltb_spec (- Z.of_nat n) 0); [|lia]. simpl.
  replace (Z.to_nat (Z.max 0 (Z.of_nat (List.length s) + - Z.of_nat n)) - Nat.min (List.length s) 0) with (List.length s - n) by lia.
  replace (Nat.min (List.length s) 0) with 0 by lia. reflexivity.
Qed.

(** the title is [rest ++ sep ++ art], up to the case of the last two *)
Definition ends_with_article (title sep art : str) (rest sepT artT : str) : Prop :=
  title = rest ++ sepT ++ artT /\ lower sepT = sep /\ lower artT = art.
Lemma lower_app a b : lower (a ++ b) = lower a ++ lower b.
Proof. apply map_app. Qed.

Lemma try_sep_spec title article separators : article <> [] ->
  match try_separators title (lower title) article separators with
  | Some t => exists l sep r rest sepT artT, separators = l ++ sep :: r /\ ends_with_article title sep article rest sepT artT /\
      t = artT ++ [32%N] ++ rest /\ forall sep' a b c, In sep' l -> ~ ends_with_article title sep' article a b c
  | None => forall sep a b c, In sep separators -> ~ ends_with_article title sep article a b c
  end.
Proof.
  intros Ha. induction separators as [|sep r IH]; cbn [try_separators].
  - intros sep a b c [].
  - set (n := List.length (sep ++ article)).
    assert (Hn : 0 < n) by (unfold n; rewrite app_length; destruct article; [congruence|simpl; lia]).
    assert (Hlow : Z.of_nat (List.length title) = Z.of_nat (List.length (lower title))) by (rewrite lower_length; reflexivity).
    destruct (str_eqb_spec (zslice (- Z.of_nat n) (Z.of_nat (List.length title)) (lower title)) (sep ++ article)) as [E|E].
    + rewrite Hlow, zslice_last in E by exact Hn. rewrite lower_length in E.
      assert (Hlt : n <= List.length title).
      { assert (X : List.length (skipn (List.length title - n) (lower title)) = n) by (rewrite E; reflexivity). rewrite skipn_length, lower_length in X. lia. }
      exists [], sep, r, (firstn (List.length title - n) title),
        (firstn (List.length sep) (skipn (List.length title - n) title)), (skipn (List.length sep) (skipn (List.length title - n) title)).
      split; [reflexivity|]. split; [|split].
      * unfold ends_with_article. rewrite firstn_skipn, firstn_skipn. split; [reflexivity|].
        unfold lower in *. split.
        -- rewrite <- firstn_map, <- skipn_map, E, firstn_app, Nat.sub_diag, firstn_all. apply app_nil_r.
        -- rewrite <- skipn_map, <- skipn_map, E, skipn_app, Nat.sub_diag, skipn_all. reflexivity.
      * f_equal; [|f_equal; apply zslice_first; exact Hn].
        rewrite skipn_skipn'. assert (Hns : n = List.length sep + List.length article) by (unfold n; apply app_length).
        replace (- Z.of_nat n + Z.of_nat (List.length sep))%Z with (- Z.of_nat (List.length article))%Z by lia.
        rewrite zslice_last by (destruct article; [congruence|simpl; lia]). f_equal. lia.
      * intros sep' a b c [].
    + assert (Hno : forall a b c, ~ ends_with_article title sep article a b c).
      { intros a b c (Ht & H1 & H2). apply E. rewrite Hlow, zslice_last by exact Hn. rewrite lower_length, Ht, !lower_app, H1, H2.
        assert (X : List.length (a ++ b ++ c) - n = List.length (lower a)).
        { unfold n. rewrite <- H1, <- H2, !app_length, !lower_length. lia. }
        rewrite X, skipn_app, skipn_all, Nat.sub_diag. reflexivity. }
      destruct (try_separators title (lower title) article r) as [t|].
      * destruct IH as (l & sep0 & r0 & rest & sepT & artT & -> & H1 & H2 & H3). exists (sep :: l), sep0, r0, rest, sepT, artT.
        split; [reflexivity|]. split; [exact H1|]. split; [exact H2|]. intros sep' a b c [<-|Hi]; [apply Hno|apply H3; exact Hi].
      * intros sep' a b c [<-|Hi]; [apply Hno|apply IH; exact Hi].
Qed.

Lemma try_articles_spec title articles separators : Forall (fun a => a <> []) articles ->
  match try_articles title (lower title) articles separators with
  | Some t => exists la art ra ls sep rs rest sepT artT, articles = la ++ art :: ra /\ separators = ls ++ sep :: rs /\
      ends_with_article title sep art rest sepT artT /\ t = artT ++ [32%N] ++ rest /\
      (forall a s x y z, In a la -> In s separators -> ~ ends_with_article title s a x y z) /\
      (forall s x y z, In s ls -> ~ ends_with_article title s art x y z)
  | None => forall a s x y z, In a articles -> In s separators -> ~ ends_with_article title s a x y z
  end.
Proof.
  induction 1 as [|art r Ha Hr IH]; cbn [try_articles]; [intros a s x y z []|].
  pose proof (try_sep_spec title art separators Ha) as H.
  destruct (try_separators title (lower title) art separators) as [t|].
  - destruct H as (ls & sep & rs & rest & sepT & artT & -> & H1 & H2 & H3).
    exists [], art, r, ls, sep, rs, rest, sepT, artT. do 4 (split; [auto|]). split; [intros a s x y z []|].
    intros s x y z Hs; apply H3; exact Hs.
  - destruct (try_articles title (lower title) r separators) as [t|].
    + destruct IH as (la & art0 & ra & ls & sep & rs & rest & sepT & artT & -> & -> & H1 & H2 & H3 & H4).
      exists (art :: la), art0, ra, ls, sep, rs, rest, sepT, artT. do 4 (split; [auto|]). split; [|exact H4].
      intros a s x y z [<-|Hi] Hs; [apply H; exact Hs|apply H3; assumption].
    + intros a s x y z [<-|Hi] Hs; [apply H; exact Hs|apply IH; assumption].
Qed.
