(** More facts on the holes between matches: their order and the first one *)
From Verif Require Import Py PyFacts Text TextFacts Sort Rebulk RebulkFacts RuleSpec Title TitleProofs.
From Coq Require Import Arith ZifyBool Sorted.

Definition hole_lt (h h' : nat * nat) : Prop := snd h < fst h'.
(** invariant of the loop after the positions below [i] *)
Record hord (ms : list mt) (a l i : nat) (st : hstate) : Prop := {
  ho_sorted : StronglySorted (fun h h' => hole_lt h' h) (h_done st);
  ho_done : forall h, In h (h_done st) -> a <= fst h /\ fst h <= snd h /\ snd h < i;
  ho_open : forall x, h_open st = Some x -> a <= x /\ (a < x -> x < i) /\ l < i /\ (forall h, In h (h_done st) -> snd h < x) /\ ~ covered ms (i - 1)
}.
Lemma hord_step s ms a l i st : nonempty ms -> l <= i -> (forall m, In m ms -> l < m_start m -> a <= m_start m) ->
  hord ms a l i st -> hord ms a l (S i) (hole_step s ms never None a st i).
Proof.
  intros NE Hl Hs [S D O]. unfold hole_step. destruct (forallb never (at_index i ms)) eqn:F.
  - apply free_iff in F. destruct (h_open st) as [x|] eqn:E.
    + split; [exact S|intros h Hh; specialize (D h Hh); lia|]. intros y Ey. rewrite E in Ey; injection Ey as <-.
      destruct (O x eq_refl) as (O1 & O2 & O3 & O4 & O5). repeat split; auto; try lia. rewrite Nat.sub_succ, Nat.sub_0_r. exact F.
    + split; cbn [h_open h_done]; [exact S|intros h Hh; specialize (D h Hh); lia|]. intros y Ey; injection Ey as <-.
      repeat split; try lia; [intros h Hh; specialize (D h Hh); lia|]. rewrite Nat.sub_succ, Nat.sub_0_r. exact F.
  - assert (Cv : covered ms i). { destruct (covered_dec ms i) as [|N]; [assumption|]. apply free_iff in N. congruence. }
    destruct (h_open st) as [x|] eqn:E.
    + destruct (O x eq_refl) as (O1 & O2 & O3 & O4 & O5).
      assert (Ha : a <= i).
      { destruct Cv as (m & Hm & Hc). destruct (Nat.eq_dec (m_start m) i) as [<-|]; [apply Hs; [exact Hm|lia]|].
        exfalso. apply O5. exists m. split; [exact Hm|lia]. }
      split; cbn [h_open h_done].
      * constructor; [exact S|]. apply Forall_forall. intros h Hh. unfold hole_lt. cbn [fst]. apply O4; exact Hh.
      * intros h [<-|Hh]; [cbn [fst snd]; lia|specialize (D h Hh); lia].
      * discriminate.
    + split; [exact S|intros h Hh; specialize (D h Hh); lia|]. intros y Ey. congruence.
Qed.
Lemma StronglySorted_app_one {A} (R : A -> A -> Prop) l x : StronglySorted R l -> (forall y, In y l -> R y x) -> StronglySorted R (l ++ [x]).
Proof.
  induction 1 as [|y l S IH F]; intros H; cbn [app]; [repeat constructor|]. constructor; [apply IH; intros z Hz; apply H; right; exact Hz|].
  apply Forall_app; split; [exact F|]. constructor; [apply H; left; reflexivity|constructor].
Qed.
Lemma sorted_rev_lt l : StronglySorted (fun h h' => hole_lt h' h) l -> StronglySorted hole_lt (rev l).
Proof.
  induction 1 as [|h l S IH F]; cbn [rev]; [constructor|]. apply StronglySorted_app_one; [exact IH|].
  intros y Hy. rewrite <- in_rev in Hy. rewrite Forall_forall in F. apply F; exact Hy.
Qed.
(** the holes are in order, apart, and none has a negative length *)
Lemma holes_ordered s ms a b : nonempty ms -> a < Nat.min (max_end s ms) b ->
  StronglySorted hole_lt (holes s ms a b never None) /\
  forall h, In h (holes s ms a b never None) -> a <= fst h /\ fst h <= snd h /\ snd h <= Nat.min (max_end s ms) b.
Proof.
  intros NE Hab. unfold holes. set (e := Nat.min (max_end s ms) b) in *. set (l := hole_start a ms never).
  pose proof (hole_start_spec a ms) as [Hla Hls]. fold l in Hla, Hls.
  assert (Hs : forall m, In m ms -> l < m_start m -> a <= m_start m).
  { intros m Hm H. destruct (Nat.le_gt_cases a (m_start m)); [assumption|]. specialize (Hls ltac:(lia) m Hm ltac:(lia)). lia. }
  assert (G : forall n i st, l <= i -> hord ms a l i st -> hord ms a l (i + n) (fold_left (hole_step s ms never None a) (seq i n) st)).
  { induction n as [|n IH]; intros i st Hl H; cbn [seq fold_left]; [rewrite Nat.add_0_r; exact H|].
    rewrite <- Nat.add_succ_comm. apply IH; [lia|]. apply hord_step; assumption. }
  assert (I : hord ms a l (l + (e - l)) (fold_left (hole_step s ms never None a) (seq l (e - l)) (mk_h None []))).
  { apply G; [lia|]. split; cbn [h_open h_done]; [constructor|intros x []|discriminate]. }
  replace (l + (e - l)) with e in I by lia. destruct I as [S D O]. set (st := fold_left _ _ _) in *.
  destruct (h_open st) as [x|] eqn:E.
  - destruct (O x eq_refl) as (O1 & O2 & O3 & O4 & O5).
    assert (HE : Nat.min (hole_end (e - 1) (max_end s ms) ms never) e = e).
    { unfold hole_end. destruct (find _ _) as [k|] eqn:Ef; [|lia].
      apply find_some in Ef as [Hin Hk]. apply in_seq in Hin. apply starting_any in Hk as (m & Hm & Em).
      destruct (Nat.eq_dec k (e - 1)) as [->|]; [|lia]. exfalso. apply O5. exists m. split; [exact Hm|]. specialize (NE m Hm). lia. }
    rewrite HE. split.
    + apply sorted_rev_lt. constructor; [exact S|]. apply Forall_forall. intros h Hh. unfold hole_lt; cbn [fst]. apply O4; exact Hh.
    + intros h Hh. apply in_rev in Hh. destruct Hh as [<-|Hh]; [cbn [fst snd]; lia|]. specialize (D h Hh). lia.
  - split; [apply sorted_rev_lt; exact S|]. intros h Hh. apply in_rev in Hh. specialize (D h Hh). lia.
Qed.
(** a stretch of free positions that nothing can extend inside [a, e) *)
Definition free_run (ms : list mt) (a e : nat) (h : nat * nat) : Prop :=
  a <= fst h /\ fst h < snd h /\ snd h <= e /\ (forall j, fst h <= j < snd h -> ~ covered ms j) /\
  (fst h = a \/ covered ms (fst h - 1)) /\ (snd h = e \/ covered ms (snd h)).
Lemma holes_run s ms a b h : nonempty ms -> a < Nat.min (max_end s ms) b -> In h (holes s ms a b never None) -> fst h < snd h ->
  free_run ms a (Nat.min (max_end s ms) b) h.
Proof.
  intros NE Hab Hh Hlt. destruct (holes_ordered s ms a b NE Hab) as [_ B]. destruct (B h Hh) as (B1 & B2 & B3).
  destruct (holes_max s ms a b NE Hab h Hh) as [M1 M2].
  repeat (split; [assumption|]). split; [|split; assumption].
  intros j Hj. apply (holes_cover s ms a b NE j). exists h. auto.
Qed.
(** the first hole starts at [a] when [a] is free *)
Lemma holes_first s ms a b : nonempty ms -> a < Nat.min (max_end s ms) b -> ~ covered ms a ->
  exists h, first (holes s ms a b never None) = Some h /\ fst h = a /\ fst h < snd h /\ free_run ms a (Nat.min (max_end s ms) b) h.
Proof.
  intros NE Hab Hc. destruct (holes_ordered s ms a b NE Hab) as [S B].
  destruct (proj2 (holes_cover s ms a b NE a)) as (h & Hh & Hj); [split; [lia|exact Hc]|].
  destruct (B h Hh) as (B1 & B2 & B3). destruct (holes s ms a b never None) as [|h0 r] eqn:E; [destruct Hh|].
  assert (h = h0).
  { destruct Hh as [->|Hh]; [reflexivity|]. inversion S as [|? ? _ F]; subst. rewrite Forall_forall in F. specialize (F h Hh). unfold hole_lt in F.
    destruct (B h0 (or_introl eq_refl)) as (C1 & C2 & C3). lia. }
  subst h0. exists h. split; [reflexivity|]. split; [lia|]. split; [lia|]. apply (holes_run s ms a b); auto; [rewrite E; left; reflexivity|lia].
Qed.
(** the first hole of all: everything before it is covered *)
Lemma holes_first_covered s ms a b h : nonempty ms -> a < Nat.min (max_end s ms) b ->
  first (holes s ms a b never None) = Some h -> forall j, a <= j < fst h -> covered ms j.
Proof.
  intros NE Hab Hf j Hj. destruct (holes_ordered s ms a b NE Hab) as [S B].
  destruct (covered_dec ms j) as [|N]; [assumption|exfalso].
  destruct (holes s ms a b never None) as [|h0 r] eqn:E; [discriminate|]. injection Hf as ->.
  destruct (proj2 (holes_cover s ms a b NE j)) as (h' & Hh' & Hj'); [split; [|exact N]|].
  - destruct (B h (or_introl eq_refl)) as (C1 & C2 & C3). lia.
  - rewrite E in Hh'. destruct Hh' as [<-|Hh']; [lia|]. inversion S as [|? ? _ F]; subst. rewrite Forall_forall in F. specialize (F h' Hh'). unfold hole_lt in F.
    destruct (B h (or_introl eq_refl)) as (C1 & C2 & C3). lia.
Qed.

(** ** holes that separators cut *)
Definition cut_at (s : str) (seps : str) (i : nat) : Prop := exists c, nth_error s i = Some c /\ In c seps.
(** invariant of the loop after the positions below [i] *)
Record hcut (s seps : str) (ms : list mt) (a l i : nat) (st : hstate) : Prop := {
  hc_all : forall j, l <= j < i -> a <= j -> ~ covered ms j -> ~ cut_at s seps j ->
     (exists h, In h (h_done st) /\ fst h <= j < snd h) \/ (exists x, h_open st = Some x /\ x <= j);
  hc_done : forall h, In h (h_done st) -> a <= fst h /\ snd h < i /\ (covered ms (snd h) \/ cut_at s seps (snd h)) /\
     forall j, fst h <= j < snd h -> ~ covered ms j /\ (cut_at s seps j -> j = fst h);
  hc_sorted : StronglySorted (fun h h' => hole_lt h' h) (h_done st);
  hc_open : forall x, h_open st = Some x -> a <= x /\ (a < x -> x < i) /\ l < i /\ (forall h, In h (h_done st) -> snd h < x) /\
     ~ covered ms (i - 1) /\ forall j, x <= j < i -> ~ covered ms j /\ (cut_at s seps j -> j = x)
}.
Lemma cut_bool s seps i : match seps with [] => false | c :: r => match nth_error s i with Some d => cmem d (c :: r) | None => false end end = true <-> cut_at s seps i.
Proof.
  unfold cut_at. destruct seps as [|c r]; [split; [discriminate|intros (d & _ & [])]|]. destruct (nth_error s i) as [d|].
  - rewrite cmem_In. split; [intros H; exists d; auto|intros (e & E & H); congruence].
  - split; [discriminate|intros (d & E & _); discriminate].
Qed.
Lemma hcut_step s seps ms a l i st : l <= i -> hcut s seps ms a l i st -> hcut s seps ms a l (S i) (hole_step s ms never (Some seps) a st i).
Proof.
  intros Hl [A D S O]. unfold hole_step.
  assert (At : match seps with [] => false | c :: r => match nth_error s i with Some d => cmem d (c :: r) | None => false end end = true <-> cut_at s seps i) by apply cut_bool.
  set (at_sep := match seps with [] => false | c :: r => match nth_error s i with Some d => cmem d (c :: r) | None => false end end) in *. clearbody at_sep.
  assert (Dn : forall h, In h (h_done st) -> a <= fst h /\ snd h < Datatypes.S i /\ (covered ms (snd h) \/ cut_at s seps (snd h)) /\
     forall j, fst h <= j < snd h -> ~ covered ms j /\ (cut_at s seps j -> j = fst h)).
  { intros h Hh. destruct (D h Hh) as (D1 & D2 & D3 & D4). repeat (split; [assumption || lia|]). exact D4. }
  assert (Close : forall x, h_open st = Some x -> (covered ms i \/ cut_at s seps i) -> hcut s seps ms a l (Datatypes.S i) (mk_h None ((x, i) :: h_done st))).
  { intros x E Hc. destruct (O x E) as (O1 & O2 & O3 & O4 & O5 & O6). split; cbn [h_open h_done].
    - intros j Hj Ha Hu Hs. destruct (Nat.eq_dec j i) as [->|]; [destruct Hc; contradiction|].
      destruct (A j ltac:(lia) Ha Hu Hs) as [(h & Hh & Hb)|(y & Ey & Hy)].
      + left. exists h. split; [right; exact Hh|exact Hb].
      + rewrite E in Ey. injection Ey as <-. left. exists (x, i). split; [left; reflexivity|cbn [fst snd]; lia].
    - intros h [<-|Hh]; [cbn [fst snd]|apply Dn; exact Hh]. split; [exact O1|]. split; [lia|]. split; [exact Hc|exact O6].
    - constructor; [exact S|]. apply Forall_forall. intros h Hh. unfold hole_lt; cbn [fst]. apply O4; exact Hh.
    - discriminate. }
  destruct (h_open st) as [x|] eqn:E.
  - destruct (O x eq_refl) as (O1 & O2 & O3 & O4 & O5 & O6). destruct at_sep eqn:Es; [apply Close; [reflexivity|right; apply At; reflexivity]|].
    destruct (forallb never (at_index i ms)) eqn:F; [|apply Close; [reflexivity|left]].
    + apply free_iff in F. split.
      * intros j Hj Ha Hu Hs. destruct (Nat.eq_dec j i) as [->|]; [right; exists x; split; [exact E|lia]|]. rewrite E. apply A; auto; lia.
      * exact Dn.
      * exact S.
      * intros y Ey. rewrite E in Ey. injection Ey as <-. repeat (split; [assumption || lia|]). split; [rewrite Nat.sub_succ, Nat.sub_0_r; exact F|].
        intros j Hj. destruct (Nat.eq_dec j i) as [->|]; [|apply O6; lia]. split; [exact F|]. intros H. apply At in H. discriminate.
    + destruct (covered_dec ms i) as [|N]; [assumption|]. apply free_iff in N. congruence.
  - destruct (forallb never (at_index i ms)) eqn:F.
    + apply free_iff in F. split; cbn [h_open h_done].
      * intros j Hj Ha Hu Hs. destruct (Nat.eq_dec j i) as [->|]; [right; exists (Nat.max i a); split; [reflexivity|lia]|].
        destruct (A j ltac:(lia) Ha Hu Hs) as [H|(y & Ey & _)]; [left; exact H|congruence].
      * exact Dn.
      * exact S.
      * intros y Ey. injection Ey as <-. split; [lia|]. split; [lia|]. split; [lia|]. split; [intros h Hh; destruct (D h Hh) as (_ & D2 & _); lia|].
        split; [rewrite Nat.sub_succ, Nat.sub_0_r; exact F|]. intros j Hj. assert (j = i) as -> by lia. split; [exact F|lia].
    + assert (Cv : covered ms i) by (destruct (covered_dec ms i) as [|N]; [assumption|]; apply free_iff in N; congruence).
      split.
      * intros j Hj Ha Hu Hs. destruct (Nat.eq_dec j i) as [->|]; [contradiction|]. rewrite E. apply A; auto; lia.
      * exact Dn.
      * exact S.
      * intros y Ey. congruence.
Qed.
Record cut_holes (s seps : str) (ms : list mt) (a e : nat) (l : list (nat * nat)) : Prop := {
  ch_all : forall j, a <= j < e -> ~ covered ms j -> ~ cut_at s seps j -> exists h, In h l /\ fst h <= j < snd h;
  ch_in : forall h, In h l -> a <= fst h /\ snd h <= e /\ (snd h = e \/ covered ms (snd h) \/ cut_at s seps (snd h)) /\
     forall j, fst h <= j < snd h -> ~ covered ms j /\ (cut_at s seps j -> j = fst h);
  ch_sorted : StronglySorted hole_lt l
}.
Lemma holes_cut s seps ms a b : nonempty ms -> a < Nat.min (max_end s ms) b -> cut_holes s seps ms a (Nat.min (max_end s ms) b) (holes s ms a b never (Some seps)).
Proof.
  intros NE Hab. unfold holes. set (e := Nat.min (max_end s ms) b) in *. set (l := hole_start a ms never).
  pose proof (hole_start_spec a ms) as [Hla Hls]. fold l in Hla, Hls.
  assert (G : forall n i st, l <= i -> hcut s seps ms a l i st -> hcut s seps ms a l (i + n) (fold_left (hole_step s ms never (Some seps) a) (seq i n) st)).
  { induction n as [|n IH]; intros i st Hl H; cbn [seq fold_left]; [rewrite Nat.add_0_r; exact H|].
    rewrite <- Nat.add_succ_comm. apply IH; [lia|]. apply hcut_step; assumption. }
  assert (I : hcut s seps ms a l (l + (e - l)) (fold_left (hole_step s ms never (Some seps) a) (seq l (e - l)) (mk_h None []))).
  { apply G; [lia|]. split; cbn [h_open h_done]; [lia|intros x []|constructor|discriminate]. }
  replace (l + (e - l)) with e in I by lia. destruct I as [A D S O]. set (st := fold_left _ _ _) in *.
  destruct (h_open st) as [x|] eqn:E.
  - destruct (O x eq_refl) as (O1 & O2 & O3 & O4 & O5 & O6).
    assert (HE : Nat.min (hole_end (e - 1) (max_end s ms) ms never) e = e).
    { unfold hole_end. destruct (find _ _) as [k|] eqn:Ef; [|lia].
      apply find_some in Ef as [Hin Hk]. apply in_seq in Hin. apply starting_any in Hk as (m & Hm & Em).
      destruct (Nat.eq_dec k (e - 1)) as [->|]; [|lia]. exfalso. apply O5. exists m. split; [exact Hm|]. specialize (NE m Hm). lia. }
    rewrite HE. split.
    + intros j Hj Hu Hs. destruct (A j ltac:(lia) ltac:(lia) Hu Hs) as [(h & Hh & Hb)|(y & Ey & Hy)].
      * exists h. split; [apply -> in_rev; right; exact Hh|exact Hb].
      * injection Ey as <-. exists (x, e). split; [apply -> in_rev; left; reflexivity|cbn [fst snd]; lia].
    + intros h Hh. apply in_rev in Hh. destruct Hh as [<-|Hh]; [cbn [fst snd]|].
      * split; [exact O1|]. split; [lia|]. split; [left; reflexivity|exact O6].
      * destruct (D h Hh) as (D1 & D2 & D3 & D4). split; [exact D1|]. split; [lia|]. split; [right; exact D3|exact D4].
    + apply sorted_rev_lt. constructor; [exact S|]. apply Forall_forall. intros h Hh. unfold hole_lt; cbn [fst]. apply O4; exact Hh.
  - split.
    + intros j Hj Hu Hs. destruct (A j ltac:(lia) ltac:(lia) Hu Hs) as [(h & Hh & Hb)|(y & Ey & Hy)]; [|discriminate].
      exists h. split; [apply -> in_rev; exact Hh|exact Hb].
    + intros h Hh. apply in_rev in Hh. destruct (D h Hh) as (D1 & D2 & D3 & D4). split; [exact D1|]. split; [lia|]. split; [right; exact D3|exact D4].
    + apply sorted_rev_lt. exact S.
Qed.

(** ** a stretch that cannot be extended is a hole *)
Lemma run_hole s ms a b h : nonempty ms -> a < Nat.min (max_end s ms) b -> free_run ms a (Nat.min (max_end s ms) b) h -> In h (holes s ms a b never None).
Proof.
  intros NE Hab (R1 & R2 & R3 & R4 & R5 & R6).
  destruct (proj2 (holes_cover s ms a b NE (fst h))) as (h' & Hh' & Hj); [split; [lia|apply R4; lia]|].
  destruct (holes_run s ms a b h' NE Hab Hh' ltac:(lia)) as (Q1 & Q2 & Q3 & Q4 & Q5 & Q6).
  assert (fst h' = fst h).
  { destruct (Nat.lt_trichotomy (fst h') (fst h)) as [L|[L|L]]; [|exact L|lia]. exfalso. destruct R5 as [R5|R5]; [lia|]. apply (Q4 (fst h - 1)); [lia|exact R5]. }
  assert (snd h' = snd h).
  { destruct (Nat.lt_trichotomy (snd h') (snd h)) as [L|[L|L]]; [|exact L|]; exfalso.
    - destruct Q6 as [Q6|Q6]; [lia|]. apply (R4 (snd h')); [lia|exact Q6].
    - destruct R6 as [R6|R6]; [lia|]. apply (Q4 (snd h)); [lia|exact R6]. }
  destruct h, h'; cbn [fst snd] in *; subst; exact Hh'.
Qed.
(** the last match of a range *)
Lemma range_last s ms a b p : inside s ms -> b <= List.length s ->
  match last_o (range s ms a b p) with
  | Some x => (In x ms /\ m_start x < b /\ a < m_end x /\ p x = true) /\
              forall y, In y ms -> m_start y < b -> a < m_end y -> p y = true -> mt_le y x = true
  | None => forall y, In y ms -> m_start y < b -> a < m_end y -> p y = false
  end.
Proof.
  intros Hi Hb. pose proof (fun x => range_In' s ms a b p x Hi Hb) as R.
  assert (S : StronglySorted (fun a b => mt_le a b = true) (range s ms a b p)) by (unfold range; apply filter_sorted, filter_sorted, msorted_sorted).
  destruct (last_o (range s ms a b p)) as [x|] eqn:E.
  - assert (G : exists l, range s ms a b p = l ++ [x]).
    { clear -E. revert E. generalize (range s ms a b p) as l. induction l as [|y l IH]; [discriminate|]. destruct l as [|z l]; cbn [last_o] in *; intros H.
      - injection H as ->. exists []. reflexivity.
      - destruct (IH H) as (u & ->). exists (y :: u). reflexivity. }
    destruct G as (l & G). assert (Hx : In x (range s ms a b p)) by (rewrite G; apply in_app_iff; right; left; reflexivity).
    split; [apply R; exact Hx|]. intros y H1 H2 H3 H4. assert (Hy : In y (range s ms a b p)) by (apply R; auto). rewrite G in Hy, S.
    apply in_app_iff in Hy as [Hy|[->|[]]]; [|unfold mt_le; lia].
    clear -S Hy. induction l as [|z l IH]; [destruct Hy|]. inversion S as [|? ? S' F]; subst. destruct Hy as [->|Hy]; [|apply IH; assumption].
    rewrite Forall_forall in F. apply F. apply in_app_iff. right; left; reflexivity.
  - intros y H1 H2 H3. destruct (p y) eqn:Ep; [|reflexivity]. exfalso. assert (Hy : In y (range s ms a b p)) by (apply R; auto).
    destruct (range s ms a b p) as [|z l]; [destruct Hy|]. clear -E. revert z E. induction l as [|u l IH]; intros z E; cbn [last_o] in E; [discriminate|]. apply (IH u). exact E.
Qed.
