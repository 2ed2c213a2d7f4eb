(** Frame property of the heap model. *)
From Verif Require Import Py PyFacts Options Heap.

(** [frame n h h']: the first [n] objects are untouched and no object disappears *)
Definition frame (n : nat) (h h' : heap) : Prop :=
  List.length h <= List.length h' /\ forall l, l < n -> nth_error h' l = nth_error h l.
Lemma frame_refl n h : frame n h h.
Proof. split; auto. Qed.
Lemma frame_trans n h1 h2 h3 : frame n h1 h2 -> frame n h2 h3 -> frame n h1 h3.
Proof. intros [L1 F1] [L2 F2]; split; [lia|]. intros l Hl; rewrite F2, F1 by exact Hl; reflexivity. Qed.
Lemma frame_le n n' h h' : n' <= n -> frame n h h' -> frame n' h h'.
Proof. intros Hn [L F]; split; [exact L|]. intros l Hl; apply F; lia. Qed.

Lemma set_nth_length {A} (l : list A) i x : List.length (set_nth l i x) = List.length l.
Proof. revert i; induction l as [|y l IH]; intros [|i]; simpl; auto. Qed.
Lemma set_nth_ne {A} (l : list A) i j x : i <> j -> nth_error (set_nth l i x) j = nth_error l j.
Proof.
  revert i j; induction l as [|y l IH]; intros [|i] [|j] H; simpl; auto; try congruence.
Qed.
Lemma set_nth_eq {A} (l : list A) i x : i < List.length l -> nth_error (set_nth l i x) i = Some x.
Proof. revert i; induction l as [|y l IH]; intros [|i] H; simpl in *; try lia; auto. apply IH; lia. Qed.

Lemma frame_store n h l c : n <= l -> frame n h (store h l c).
Proof.
  intros Hn; split; [unfold store; rewrite set_nth_length; lia|].
  intros l' Hl'; unfold store; apply set_nth_ne; lia.
Qed.
Lemma frame_alloc n h c h' l : n <= List.length h -> alloc h c = (h', l) -> frame n h h' /\ n <= l /\ l < List.length h'.
Proof.
  unfold alloc; intros Hn H; injection H as <- <-; rewrite app_length; simpl; repeat split; try lia.
  - rewrite app_length; simpl; lia.
  - intros l' Hl'; rewrite nth_error_app1 by lia; reflexivity.
Qed.

(** memo only points to fresh objects *)
Definition fresh_val (n : nat) (v : hval) : Prop := match v with HRef l => n <= l | _ => True end.
Definition fresh_memo (n : nat) (m : memo) : Prop := forall a b, In (a, b) m -> n <= b.
Lemma memo_get_In m l l' : memo_get m l = Some l' -> exists a, In (a, l') m.
Proof.
  induction m as [|[a b] m IH]; simpl; [discriminate|].
  destruct (Nat.eqb a l); [intros H; injection H as ->; exists a; left; reflexivity|].
  intros H; destruct (IH H) as (c & Hc); exists c; right; exact Hc.
Qed.

Definition fresh_cell (n : nat) (c : cell) : Prop :=
  match c with
  | CList xs => Forall (fresh_val n) xs
  | CDict d => Forall (fun kv => fresh_val n (snd kv)) d
  end.
(** every object of [h'] at or after [n0] only refers to objects at or after [n]; used to know
    that what deepcopy returns is entirely new *)
Definition closed_from (n0 n : nat) (h : heap) : Prop :=
  forall l c, n0 <= l -> nth_error h l = Some c -> fresh_cell n c.

Lemma deepcopy_frame fuel : forall n h m v h' m' r,
  n <= List.length h -> fresh_memo n m -> closed_from n n h ->
  deepcopy fuel h m v = (h', m', r) ->
  frame n h h' /\ fresh_memo n m' /\ closed_from n n h' /\ (forall w, r = Ok w -> fresh_val n w).
Proof.
  induction fuel as [|f IH]; intros n h m v h' m' r Hn Hm Hc H; cbn [deepcopy] in H.
  { injection H as <- <- <-; repeat split; auto; congruence. }
  destruct v; try (injection H as <- <- <-; repeat split; auto; intros w Hw; injection Hw as <-; exact I).
  destruct (memo_get m l) as [l'|] eqn:Em.
  { injection H as <- <- <-; repeat split; auto. intros w Hw; injection Hw as <-.
    apply memo_get_In in Em; destruct Em as (a & Ha); exact (Hm a l' Ha). }
  destruct (nth_error h l) as [[xs|d]|] eqn:El.
  3:{ injection H as <- <- <-; repeat split; auto; congruence. }
  - destruct (alloc h (CList [])) as [h1 l'] eqn:Ea.
    destruct (frame_alloc n h _ h1 l' Hn Ea) as (Hf1 & Hl' & _).
    assert (Hm1 : fresh_memo n ((l, l') :: m)) by (intros a b [E|Hin]; [injection E as <- <-; exact Hl'|exact (Hm a b Hin)]).
    assert (Hc1 : closed_from n n h1).
    { unfold alloc in Ea; injection Ea as <- <-. intros l0 c Hl0 Hg.
      destruct (Nat.lt_ge_cases l0 (List.length h)) as [Hlt|Hge].
      - rewrite nth_error_app1 in Hg by exact Hlt; exact (Hc l0 c Hl0 Hg).
      - rewrite nth_error_app2 in Hg by exact Hge.
        destruct (l0 - List.length h) as [|k]; simpl in Hg; [injection Hg as <-; constructor|destruct k; discriminate]. }
    assert (Hd : Forall (fresh_val n) []) by constructor.
    assert (Hn1 : n <= List.length h1) by (destruct Hf1; lia).
    assert (Hgo : forall xs done hh mm, n <= List.length hh -> frame n h hh -> fresh_memo n mm -> closed_from n n hh ->
      Forall (fresh_val n) done ->
      (fix go (xs : list hval) (done : list hval) (h : heap) (m : memo) : heap * memo * res hval :=
                     match xs with
                     | [] => (h, m, Ok (HRef l'))
                     | x :: r =>
                         match deepcopy f h m x with
                         | (h', m', Ok y) => go r (done ++ [y]) (store h' l' (CList (done ++ [y]))) m'
                         | (h', m', Err e) => (h', m', Err e)
                         end
                     end) xs done hh mm = (h', m', r) ->
      frame n h h' /\ fresh_memo n m' /\ closed_from n n h' /\ (forall w, r = Ok w -> fresh_val n w)).
    { clear H Hd Hc1 Hm1 Hf1 El Em Ea Hn1 h1 xs.
      induction xs as [|x xs IHx]; intros done hh mm Hnn Hff Hmm Hcc Hd H.
      - injection H as <- <- <-; repeat split; auto; try apply Hff. intros w Hw; injection Hw as <-; exact Hl'.
      - destruct (deepcopy f hh mm x) as [[h2 m2] r2] eqn:E2.
        destruct (IH n hh mm x h2 m2 r2 Hnn Hmm Hcc E2) as (Hf2 & Hm2 & Hc2 & Hr2).
        assert (Hff2 : frame n h h2) by (eapply frame_trans; eassumption).
        destruct r2 as [y|e].
        + assert (Hd2 : Forall (fresh_val n) (done ++ [y])).
          { apply Forall_app; split; [exact Hd|constructor; [apply Hr2; reflexivity|constructor]]. }
          apply (IHx (done ++ [y]) (store h2 l' (CList (done ++ [y]))) m2); auto.
          * unfold store; rewrite set_nth_length; destruct Hf2; lia.
          * eapply frame_trans; [exact Hff2|apply frame_store; exact Hl'].
          * intros l0 c Hl0 Hg; unfold store in Hg.
            destruct (Nat.eq_dec l' l0) as [->|Hne].
            -- destruct (Nat.lt_ge_cases l0 (List.length h2)) as [Hlt|Hge].
               ++ rewrite set_nth_eq in Hg by exact Hlt; injection Hg as <-; exact Hd2.
               ++ assert (nth_error (set_nth h2 l0 (CList (done ++ [y]))) l0 = None)
                    by (apply nth_error_None; rewrite set_nth_length; exact Hge); congruence.
            -- rewrite set_nth_ne in Hg by exact Hne; exact (Hc2 l0 c Hl0 Hg).
        + injection H as <- <- <-; repeat split; auto; try apply Hff2; congruence. }
    exact (Hgo xs [] h1 _ Hn1 Hf1 Hm1 Hc1 (Forall_nil _) H).
  - destruct (alloc h (CDict [])) as [h1 l'] eqn:Ea.
    destruct (frame_alloc n h _ h1 l' Hn Ea) as (Hf1 & Hl' & _).
    assert (Hm1 : fresh_memo n ((l, l') :: m)) by (intros a b [E|Hin]; [injection E as <- <-; exact Hl'|exact (Hm a b Hin)]).
    assert (Hc1 : closed_from n n h1).
    { unfold alloc in Ea; injection Ea as <- <-. intros l0 c Hl0 Hg.
      destruct (Nat.lt_ge_cases l0 (List.length h)) as [Hlt|Hge].
      - rewrite nth_error_app1 in Hg by exact Hlt; exact (Hc l0 c Hl0 Hg).
      - rewrite nth_error_app2 in Hg by exact Hge.
        destruct (l0 - List.length h) as [|k]; simpl in Hg; [injection Hg as <-; constructor|destruct k; discriminate]. }
    assert (Hn1 : n <= List.length h1) by (destruct Hf1; lia).
    assert (Hgo : forall d done hh mm, n <= List.length hh -> frame n h hh -> fresh_memo n mm -> closed_from n n hh ->
      Forall (fun kv => fresh_val n (snd kv)) done ->
      (fix go (d done : list (key * hval)) (h : heap) (m : memo) : heap * memo * res hval :=
                     match d with
                     | [] => (h, m, Ok (HRef l'))
                     | (k, x) :: r =>
                         match deepcopy f h m x with
                         | (h', m', Ok y) => go r (done ++ [(k, y)]) (store h' l' (CDict (done ++ [(k, y)]))) m'
                         | (h', m', Err e) => (h', m', Err e)
                         end
                     end) d done hh mm = (h', m', r) ->
      frame n h h' /\ fresh_memo n m' /\ closed_from n n h' /\ (forall w, r = Ok w -> fresh_val n w)).
    { clear H Hc1 Hm1 Hf1 El Em Ea Hn1 h1 d.
      induction d as [|[k x] d IHx]; intros done hh mm Hnn Hff Hmm Hcc Hd H.
      - injection H as <- <- <-; repeat split; auto; try apply Hff. intros w Hw; injection Hw as <-; exact Hl'.
      - destruct (deepcopy f hh mm x) as [[h2 m2] r2] eqn:E2.
        destruct (IH n hh mm x h2 m2 r2 Hnn Hmm Hcc E2) as (Hf2 & Hm2 & Hc2 & Hr2).
        assert (Hff2 : frame n h h2) by (eapply frame_trans; eassumption).
        destruct r2 as [y|e].
        + assert (Hd2 : Forall (fun kv => fresh_val n (snd kv)) (done ++ [(k, y)])).
          { apply Forall_app; split; [exact Hd|constructor; [apply Hr2; reflexivity|constructor]]. }
          apply (IHx (done ++ [(k, y)]) (store h2 l' (CDict (done ++ [(k, y)]))) m2); auto.
          * unfold store; rewrite set_nth_length; destruct Hf2; lia.
          * eapply frame_trans; [exact Hff2|apply frame_store; exact Hl'].
          * intros l0 c Hl0 Hg; unfold store in Hg.
            destruct (Nat.eq_dec l' l0) as [->|Hne].
            -- destruct (Nat.lt_ge_cases l0 (List.length h2)) as [Hlt|Hge].
               ++ rewrite set_nth_eq in Hg by exact Hlt; injection Hg as <-; exact Hd2.
               ++ assert (nth_error (set_nth h2 l0 (CDict (done ++ [(k, y)]))) l0 = None)
                    by (apply nth_error_None; rewrite set_nth_length; exact Hge); congruence.
            -- rewrite set_nth_ne in Hg by exact Hne; exact (Hc2 l0 c Hl0 Hg).
        + injection H as <- <- <-; repeat split; auto; try apply Hff2; congruence. }
    exact (Hgo d [] h1 _ Hn1 Hf1 Hm1 Hc1 (Forall_nil _) H).
Qed.

(** invariant of the object [merged]: it is new, and the lists stored in it are new *)
Definition Inv (n : nat) (h : heap) (m : loc) : Prop :=
  n <= m /\ n <= List.length h /\ (exists d, nth_error h m = Some (CDict d)) /\
  forall k l xs, In (k, HRef l) (entries h m) -> l < n -> nth_error h l <> Some (CList xs).

Lemma nth_Some_lt {A} (l : list A) i x : nth_error l i = Some x -> i < List.length l.
Proof. intros H; apply nth_error_Some; congruence. Qed.

(** changing anything but [merged] at or after [n] keeps the invariant *)
Lemma Inv_frame n h h' m :
  Inv n h m -> frame n h h' -> nth_error h' m = nth_error h m -> Inv n h' m.
Proof.
  intros (H1 & H2 & (d & Hd) & H4) [Hlen Hfr] Hm; split; [exact H1|]; split; [lia|]; split.
  - exists d; congruence.
  - intros k l xs Hin Hl; unfold entries in Hin; rewrite Hm in Hin.
    rewrite Hfr by exact Hl. apply (H4 k l xs Hin Hl).
Qed.
Definition ok_entry (n : nat) (h : heap) (v : hval) : Prop :=
  forall l xs, v = HRef l -> l < n -> nth_error h l <> Some (CList xs).
Lemma In_dset {V} (d : list (key * V)) k v k' v' :
  In (k', v') (dset d k v) -> v' = v \/ In (k', v') d.
Proof.
  induction d as [|[k2 v2] d IH]; simpl.
  - intros [E|[]]; injection E as <- <-; left; reflexivity.
  - destruct (key_eqb k k2); simpl; intros [E|Hin]; try (injection E as <- <-; auto; fail); auto.
    destruct (IH Hin); auto.
Qed.
Lemma Inv_set n h m k v :
  Inv n h m -> ok_entry n h v -> Inv n (store h m (CDict (dset (entries h m) k v))) m.
Proof.
  intros (H1 & H2 & (d & Hd) & H4) Hv.
  pose proof (nth_Some_lt _ _ _ Hd) as Hlt.
  split; [exact H1|]; split; [unfold store; rewrite set_nth_length; exact H2|].
  unfold store, entries at 2. rewrite set_nth_eq by exact Hlt. split; [eexists; reflexivity|].
  intros k' l xs Hin Hl; rewrite set_nth_ne by lia.
  apply In_dset in Hin; destruct Hin as [<-|Hin]; [apply (Hv l xs eq_refl Hl)|apply (H4 k' l xs Hin Hl)].
Qed.
Lemma Inv_del n h m k : Inv n h m -> Inv n (store h m (CDict (ddel (entries h m) k))) m.
Proof.
  intros (H1 & H2 & (d & Hd) & H4).
  pose proof (nth_Some_lt _ _ _ Hd) as Hlt.
  split; [exact H1|]; split; [unfold store; rewrite set_nth_length; exact H2|].
  unfold store, entries at 2. rewrite set_nth_eq by exact Hlt. split; [eexists; reflexivity|].
  intros k' l xs Hin Hl; rewrite set_nth_ne by lia.
  apply filter_In in Hin; apply (H4 k' l xs (proj1 Hin) Hl).
Qed.

Lemma h_reset_frame n m l : forall h h' r,
  Inv n h m -> h_reset h m l = (h', r) -> frame n h h' /\ Inv n h' m.
Proof.
  induction l as [|x l IH]; intros h h' r Hi H; simpl in H.
  { injection H as <- <-; split; [apply frame_refl|exact Hi]. }
  assert (Hle : n <= m) by apply Hi.
  destruct x; try (apply (IH h h' r Hi H));
    try (injection H as <- <-; split; [apply frame_refl|exact Hi]);
    match type of H with h_reset (store ?h0 ?m0 (CDict (ddel _ ?k))) _ _ = _ =>
      destruct (IH _ _ _ (Inv_del n h m k Hi) H) as [Hf Hi2] end;
    (split; [eapply frame_trans; [apply frame_store; exact Hle|exact Hf]|exact Hi2]).
Qed.

Lemma h_append_frame fuel n m l vals : forall h xs,
  Inv n h m -> n <= l -> nth_error h l = Some (CList xs) ->
  frame n h (h_append fuel h l vals) /\ Inv n (h_append fuel h l vals) m.
Proof.
  induction vals as [|x vals IH]; intros h xs Hi Hl Hg; simpl.
  { split; [apply frame_refl|exact Hi]. }
  rewrite Hg. destruct (negb _ && negb _).
  - assert (Hlt : l < List.length h) by (apply nth_Some_lt in Hg; exact Hg).
    assert (Hne : l <> m).
    { intros ->; destruct Hi as (_ & _ & (d & Hd) & _); congruence. }
    destruct (IH (store h l (CList (xs ++ [x]))) (xs ++ [x])) as [Hf Hi2]; auto.
    + apply Inv_frame with (h := h); [exact Hi|apply frame_store; exact Hl|].
      unfold store; apply set_nth_ne; exact Hne.
    + unfold store; apply set_nth_eq; exact Hlt.
    + split; [eapply frame_trans; [apply frame_store; exact Hl|exact Hf]|exact Hi2].
  - apply (IH h xs); assumption.
Qed.

Definition rec_ok (rec : heap -> hval -> hval -> heap * res loc) : Prop :=
  forall h a b h' r, rec h a b = (h', r) ->
    frame (List.length h) h h' /\ forall l, r = Ok l -> List.length h <= l.

Lemma h_mov_frame fuel rec n k v h m h' r :
  rec_ok rec -> Inv n h m ->
  h_merge_option_value fuel rec k v h m = (h', r) -> frame n h h' /\ Inv n h' m.
Proof.
  intros Hrec Hi H; unfold h_merge_option_value in H.
  destruct (_ || _); [injection H as <- <-; split; [apply frame_refl|exact Hi]|].
  pose proof Hi as (Hnm & Hnh & (dm & Hdm) & Hent).
  pose proof (nth_Some_lt _ _ _ Hdm) as Hmlt.
  assert (Hset : forall hh w, frame n h hh -> Inv n hh m -> ok_entry n hh w ->
     frame n h (store hh m (CDict (dset (entries hh m) k w))) /\
     Inv n (store hh m (CDict (dset (entries hh m) k w))) m).
  { intros hh w Hf Hii Hw; split; [eapply frame_trans; [exact Hf|apply frame_store; exact Hnm]|].
    apply Inv_set; assumption. }
  assert (Hdefault : forall h' r,
      match v with
      | HRef lv => match nth_error h lv with
          | Some (CList xs) => let (h1, l') := alloc h (CList xs) in
               (store h1 m (CDict (dset (entries h1 m) k (HRef l'))), Ok tt)
          | _ => (store h m (CDict (dset (entries h m) k v)), Ok tt)
          end
      | _ => (store h m (CDict (dset (entries h m) k v)), Ok tt)
      end = (h', r) -> frame n h h' /\ Inv n h' m).
  { clear h' r H; intros h' r H.
    destruct v as [| | | | | |lv];
      try (injection H as <- <-; apply Hset; [apply frame_refl|exact Hi|intros ? ? E; discriminate]).
    destruct (nth_error h lv) as [[xs|d]|] eqn:El.
    - destruct (alloc h (CList xs)) as [h1 l'] eqn:Ea.
      destruct (frame_alloc n h _ h1 l' Hnh Ea) as (Hf1 & Hl' & _). injection H as <- <-.
      apply Hset; [exact Hf1| |intros l ys E Hl; injection E as <-; lia].
      apply Inv_frame with (h := h); auto. unfold alloc in Ea; injection Ea as <- <-.
      rewrite nth_error_app1 by exact Hmlt; reflexivity.
    - injection H as <- <-; apply Hset; [apply frame_refl|exact Hi|].
      intros l ys E Hl; injection E as <-; congruence.
    - injection H as <- <-; apply Hset; [apply frame_refl|exact Hi|].
      intros l ys E Hl; injection E as <-; congruence. }
  destruct (dget (entries h m) k) as [[| | | | | |l]|] eqn:Eg; try (apply (Hdefault h' r H)).
  destruct (nth_error h l) as [[xs|d]|] eqn:El; [| |apply (Hdefault h' r H)].
  - destruct (h_iter h v) as [vals|e]; injection H as <- <-.
    + apply (h_append_frame fuel n m l vals h xs); auto.
      destruct (Nat.lt_ge_cases l n) as [Hlt|Hge]; [|exact Hge].
      exfalso; apply (Hent k l xs); auto. apply dget_In; exact Eg.
    + split; [apply frame_refl|exact Hi].
  - destruct (rec h (HRef l) v) as [h1 r1] eqn:Er.
    destruct (Hrec _ _ _ _ _ Er) as [Hf1 Hr1].
    assert (Hfn : frame n h h1) by (apply frame_le with (n := List.length h); assumption).
    assert (Hi1 : Inv n h1 m) by (apply Inv_frame with (h := h); auto; apply Hf1; exact Hmlt).
    destruct r1 as [lr|e]; injection H as <- <-; [|split; assumption].
    apply Hset; auto. intros l0 ys E Hl0; injection E as <-.
    specialize (Hr1 lr eq_refl); lia.
Qed.

Lemma h_items_frame fuel rec n items : forall h m h' r,
  rec_ok rec -> Inv n h m -> h_items fuel rec items h m = (h', r) -> frame n h h' /\ Inv n h' m.
Proof.
  induction items as [|[k v] items IH]; intros h m h' r Hrec Hi H; simpl in H.
  { injection H as <- <-; split; [apply frame_refl|exact Hi]. }
  destruct (h_merge_option_value fuel rec k v h m) as [h1 [u|e]] eqn:E;
    destruct (h_mov_frame _ _ _ _ _ _ _ _ _ Hrec Hi E) as [Hf1 Hi1].
  - destruct (IH _ _ _ _ Hrec Hi1 H) as [Hf2 Hi2]; split; [eapply frame_trans; eassumption|exact Hi2].
  - injection H as <- <-; split; assumption.
Qed.

Lemma h_layer_frame fuel rec n h m layer h' r :
  rec_ok rec -> Inv n h m -> h_layer fuel rec h m layer = (h', r) ->
  frame n h h' /\ forall m', r = Ok m' -> Inv n h' m'.
Proof.
  intros Hrec Hi H; unfold h_layer in H.
  assert (Hid : frame n h h /\ forall m', Ok m = Ok m' -> Inv n h m').
  { split; [apply frame_refl|intros m' E; injection E as <-; exact Hi]. }
  destruct (h_truthy h layer); [|injection H as <- <-; exact Hid].
  assert (Herr : forall (e : exn), frame n h h /\ forall m', Err e = Ok m' -> Inv n h m').
  { intros e; split; [apply frame_refl|congruence]. }
  destruct layer as [| | | | | |l]; try (injection H as <- <-; apply Herr).
  destruct (nth_error h l) as [[xs|d]|] eqn:El; try (injection H as <- <-; apply Herr).
  match type of H with (match ?st with _ => _ end) = _ => remember st as step eqn:Estep end.
  assert (Hstep : frame n h (fst step) /\ forall m', snd step = Ok m' -> Inv n (fst step) m').
  { assert (Hgen : forall p st, (if h_truthy h p then
                            match h_iter h p with
                            | Ok names => match h_reset h m names with
                                          | (h', Ok _) => (h', Ok m)
                                          | (h', Err e) => (h', Err e)
                                          end
                            | Err e => (h, Err e)
                            end
                          else (h, Ok m)) = st -> frame n h (fst st) /\ forall m', snd st = Ok m' -> Inv n (fst st) m').
    { intros p st Hp; destruct (h_truthy h p); [|subst st; exact Hid].
      destruct (h_iter h p) as [names|e]; [|subst st; apply Herr].
      destruct (h_reset h m names) as [h1 [u|e]] eqn:Ers; subst st; simpl;
        destruct (h_reset_frame n m names h h1 _ Hi Ers) as [Hf1 Hi1]; split; auto; try congruence. }
    destruct (dget d k_pristine) as [p|]; [|subst step; exact Hid].
    destruct p as [|b| | | | |]; [|destruct b| | | | |];
      try (match type of Estep with _ = (if h_truthy h ?p then _ else _) => apply (Hgen p step); symmetry; exact Estep end).
    destruct (alloc h (CDict [])) as [h1 m1] eqn:Ea; subst step; simpl.
    assert (Hnh : n <= List.length h) by apply Hi.
    destruct (frame_alloc n h _ h1 m1 Hnh Ea) as (Hf1 & Hl' & _).
    split; [exact Hf1|]. intros m' E; injection E as <-.
    unfold alloc in Ea; injection Ea as <- <-.
    split; [exact Hl'|]; split; [rewrite app_length; simpl; lia|]; split.
    - exists []; rewrite nth_error_app2 by lia; rewrite Nat.sub_diag; reflexivity.
    - intros k l0 ys Hin; unfold entries in Hin; rewrite nth_error_app2 in Hin by lia.
      rewrite Nat.sub_diag in Hin; destruct Hin. }
  destruct step as [h1 [m1|e]]; simpl in Hstep; destruct Hstep as [Hf1 Hi1].
  2:{ injection H as <- <-; split; [exact Hf1|congruence]. }
  specialize (Hi1 m1 eq_refl).
  destruct (h_items fuel rec d h1 m1) as [h2 [u|e]] eqn:Ei;
    destruct (h_items_frame _ _ _ _ _ _ _ _ Hrec Hi1 Ei) as [Hf2 Hi2];
    injection H as <- <-; (split; [eapply frame_trans; eassumption|]).
  - intros m' E; injection E as <-; exact Hi2.
  - congruence.
Qed.

Lemma h_layers_frame fuel rec n layers : forall h m h' r,
  rec_ok rec -> Inv n h m -> h_layers fuel rec h m layers = (h', r) ->
  frame n h h' /\ forall m', r = Ok m' -> Inv n h' m'.
Proof.
  induction layers as [|l layers IH]; intros h m h' r Hrec Hi H; simpl in H.
  { injection H as <- <-; split; [apply frame_refl|intros m' E; injection E as <-; exact Hi]. }
  destruct (h_layer fuel rec h m l) as [h1 [m1|e]] eqn:E;
    destruct (h_layer_frame _ _ _ _ _ _ _ _ Hrec Hi E) as [Hf1 Hi1].
  - destruct (IH _ _ _ _ Hrec (Hi1 m1 eq_refl) H) as [Hf2 Hi2].
    split; [eapply frame_trans; eassumption|exact Hi2].
  - injection H as <- <-; split; [exact Hf1|congruence].
Qed.

Lemma h_first_frame fuel h first h' r :
  h_first fuel h first = (h', r) ->
  frame (List.length h) h h' /\ forall m, r = Ok m -> Inv (List.length h) h' m.
Proof.
  intros H; unfold h_first in H.
  destruct (alloc h (CDict [])) as [h1 m] eqn:Ea.
  destruct (frame_alloc (List.length h) h _ h1 m (le_n _) Ea) as (Hf1 & Hm & Hmlt).
  assert (Hi1 : Inv (List.length h) h1 m).
  { unfold alloc in Ea; injection Ea as <- <-.
    split; [exact Hm|]; split; [rewrite app_length; simpl; lia|]; split.
    - exists []; rewrite nth_error_app2 by lia; rewrite Nat.sub_diag; reflexivity.
    - intros k l0 ys Hin; unfold entries in Hin; rewrite nth_error_app2 in Hin by lia.
      rewrite Nat.sub_diag in Hin; destruct Hin. }
  destruct (h_truthy h1 first).
  2:{ injection H as <- <-; split; [exact Hf1|intros m' E; injection E as <-; exact Hi1]. }
  destruct (deepcopy fuel h1 [] first) as [[h2 mm] r2] eqn:Ed.
  set (n := List.length h) in *. set (n1 := List.length h1).
  destruct (deepcopy_frame fuel n1 h1 [] first h2 mm r2) as (Hf2 & _ & Hc2 & Hr2); auto.
  { intros a b []. }
  { intros l c Hl Hg. assert (nth_error h1 l = None) by (apply nth_error_None; exact Hl). congruence. }
  assert (Hn1 : n <= n1) by (destruct Hf1; unfold n1; lia).
  assert (Hf2' : frame n h1 h2) by (apply frame_le with (n := n1); assumption).
  assert (Hf12 : frame n h h2) by (eapply frame_trans; eassumption).
  assert (Herr : forall e, frame n h h2 /\ forall m', @Err loc e = Ok m' -> Inv n h2 m')
    by (intros e; split; [exact Hf12|congruence]).
  destruct r2 as [w|e]; [|injection H as <- <-; apply Herr].
  destruct w as [| | | | | |l]; try (injection H as <- <-; apply Herr).
  destruct (nth_error h2 l) as [[xs|d]|] eqn:El; try (injection H as <- <-; apply Herr).
  injection H as <- <-. split; [eapply frame_trans; [exact Hf12|apply frame_store; exact Hm]|].
  intros m' E; injection E as <-.
  assert (Hlt2 : m < List.length h2) by (destruct Hf2; lia).
  split; [exact Hm|]; split; [unfold store; rewrite set_nth_length; destruct Hf2; unfold n1 in Hn1; lia|].
  unfold store, entries; rewrite set_nth_eq by exact Hlt2. split; [eexists; reflexivity|].
  intros k l0 ys Hin Hl0.
  specialize (Hr2 (HRef l) eq_refl); simpl in Hr2.
  pose proof (Hc2 l (CDict d) Hr2 El) as Hfc; simpl in Hfc.
  rewrite Forall_forall in Hfc; specialize (Hfc _ Hin); simpl in Hfc. lia.
Qed.

Lemma h_merge2_ok fuel : rec_ok (h_merge2 fuel).
Proof.
  induction fuel as [|f IH]; intros h a b h' r H; simpl in H.
  { injection H as <- <-; split; [apply frame_refl|congruence]. }
  destruct (h_first (S f) h a) as [h1 [m|e]] eqn:E;
    destruct (h_first_frame _ _ _ _ _ E) as [Hf1 Hi1].
  - specialize (Hi1 m eq_refl).
    assert (Hl : h_layers (S f) (h_merge2 f) h1 m [b] = (h', r)) by exact H.
    destruct (h_layers_frame _ _ _ _ _ _ _ _ IH Hi1 Hl) as [Hf2 Hi2].
    split; [eapply frame_trans; eassumption|]. intros l E2; apply (Hi2 l E2).
  - injection H as <- <-; split; [exact Hf1|congruence].
Qed.

Lemma h_merge_options_frame fuel h layers h' r :
  h_merge_options fuel h layers = (h', r) ->
  frame (List.length h) h h' /\ forall m, r = Ok m -> Inv (List.length h) h' m.
Proof.
  intros H; destruct layers as [|l0 rest]; simpl in H.
  - injection H as <- <-. split.
    + split; [rewrite app_length; simpl; lia|]. intros l Hl; rewrite nth_error_app1 by exact Hl; reflexivity.
    + intros m E; injection E as <-. split; [lia|]; split; [rewrite app_length; simpl; lia|]; split.
      * exists []; rewrite nth_error_app2 by lia; rewrite Nat.sub_diag; reflexivity.
      * intros k l0 ys Hin; unfold entries in Hin; rewrite nth_error_app2 in Hin by lia.
        rewrite Nat.sub_diag in Hin; destruct Hin.
  - destruct (h_first fuel h l0) as [h1 [m|e]] eqn:E;
      destruct (h_first_frame _ _ _ _ _ E) as [Hf1 Hi1].
    + destruct (h_layers_frame _ _ _ _ _ _ _ _ (h_merge2_ok fuel) (Hi1 m eq_refl) H) as [Hf2 Hi2].
      split; [eapply frame_trans; eassumption|exact Hi2].
    + injection H as <- <-; split; [exact Hf1|congruence].
Qed.
