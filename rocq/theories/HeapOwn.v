(** Reading a part of the heap together with the objects met on the way (with repetitions), and how the operations
    of [Heap.v] act on parts that share nothing. *)
From Verif Require Import Py PyFacts Options Heap HeapProofs.

(** [reads_as h v V F]: the object [v] of the heap [h] has the contents [V]; [F] lists every list and dict object met
    while reading it, once for each way of reaching it.  [NoDup F]: no object is shared. *)
Inductive reads_as (h : heap) : hval -> val -> list loc -> Prop :=
| ra_none : reads_as h HNone VNone []
| ra_bool b : reads_as h (HBool b) (VBool b) []
| ra_int z : reads_as h (HInt z) (VInt z) []
| ra_float q : reads_as h (HFloat q) (VFloat q) []
| ra_str s : reads_as h (HStr s) (VStr s) []
| ra_bytes s : reads_as h (HBytes s) (VBytes s) []
| ra_list l xs vs F : nth_error h l = Some (CList xs) -> all_read h xs vs F ->
    reads_as h (HRef l) (VList vs) (l :: F)
| ra_dict l d vd F : nth_error h l = Some (CDict d) -> entries_read h d vd F ->
    reads_as h (HRef l) (VDict vd) (l :: F)
with all_read (h : heap) : list hval -> list val -> list loc -> Prop :=
| al_nil : all_read h [] [] []
| al_cons x xs v vs F1 F2 : reads_as h x v F1 -> all_read h xs vs F2 -> all_read h (x :: xs) (v :: vs) (F1 ++ F2)
with entries_read (h : heap) : list (key * hval) -> list (key * val) -> list loc -> Prop :=
| er_nil : entries_read h [] [] []
| er_cons k x d v vd F1 F2 : reads_as h x v F1 -> entries_read h d vd F2 ->
    entries_read h ((k, x) :: d) ((k, v) :: vd) (F1 ++ F2).

Scheme ra_ind2 := Minimality for reads_as Sort Prop
  with al_ind2 := Minimality for all_read Sort Prop
  with er_ind2 := Minimality for entries_read Sort Prop.
Combined Scheme ra_mut from ra_ind2, al_ind2, er_ind2.

(** how often an object is met *)
Definition cnt (F : list loc) (l : loc) : nat := count_occ Nat.eq_dec F l.
Lemma cnt_app F G l : cnt (F ++ G) l = cnt F l + cnt G l.
Proof. apply count_occ_app. Qed.
Lemma cnt_cons a F l : cnt (a :: F) l = (if Nat.eq_dec a l then 1 else 0) + cnt F l.
Proof. unfold cnt; cbn [count_occ]; destruct (Nat.eq_dec a l); reflexivity. Qed.
Lemma cnt_nil l : cnt [] l = 0.
Proof. reflexivity. Qed.
Lemma cnt_In F l : In l F <-> 0 < cnt F l.
Proof. unfold cnt. apply (count_occ_In Nat.eq_dec). Qed.
Lemma cnt_NoDup F : NoDup F <-> forall l, cnt F l <= 1.
Proof. apply NoDup_count_occ. Qed.

Ltac cnts := repeat rewrite ?cnt_app, ?cnt_cons, ?cnt_nil in *.

Definition agree (h h' : heap) (F : list loc) : Prop := forall l, 0 < cnt F l -> nth_error h' l = nth_error h l.

Lemma reads_frame_all h h' :
  (forall v V F, reads_as h v V F -> agree h h' F -> reads_as h' v V F) /\
  (forall xs vs F, all_read h xs vs F -> agree h h' F -> all_read h' xs vs F) /\
  (forall d vd F, entries_read h d vd F -> agree h h' F -> entries_read h' d vd F).
Proof.
  apply ra_mut; intros; try (constructor; fail).
  - apply ra_list with (xs := xs).
    + rewrite H2; [exact H|]. cnts. destruct (Nat.eq_dec l l); [lia|congruence].
    + apply H1. intros l0 Hl0; apply H2; cnts; lia.
  - apply ra_dict with (d := d).
    + rewrite H2; [exact H|]. cnts. destruct (Nat.eq_dec l l); [lia|congruence].
    + apply H1. intros l0 Hl0; apply H2; cnts; lia.
  - constructor; [apply H0|apply H2]; intros l Hl; apply H3; cnts; lia.
  - constructor; [apply H0|apply H2]; intros l Hl; apply H3; cnts; lia.
Qed.
Definition reads_frame h h' := proj1 (reads_frame_all h h').
Definition all_frame h h' := proj1 (proj2 (reads_frame_all h h')).
Definition entries_frame h h' := proj2 (proj2 (reads_frame_all h h')).

Lemma reads_lt_all h :
  (forall v V F, reads_as h v V F -> forall l, 0 < cnt F l -> l < List.length h) /\
  (forall xs vs F, all_read h xs vs F -> forall l, 0 < cnt F l -> l < List.length h) /\
  (forall d vd F, entries_read h d vd F -> forall l, 0 < cnt F l -> l < List.length h).
Proof.
  apply ra_mut; intros; cnts; try lia.
  - destruct (Nat.eq_dec l l0) as [<- |]; [eapply nth_Some_lt; eassumption|apply H1; lia].
  - destruct (Nat.eq_dec l l0) as [<- |]; [eapply nth_Some_lt; eassumption|apply H1; lia].
  - destruct (cnt F1 l) eqn:E; [apply H2; lia|apply H0; lia].
  - destruct (cnt F1 l) eqn:E; [apply H2; lia|apply H0; lia].
Qed.
Definition reads_lt h := proj1 (reads_lt_all h).
Definition all_lt h := proj1 (proj2 (reads_lt_all h)).
Definition entries_lt h := proj2 (proj2 (reads_lt_all h)).

(** nesting depth *)
Fixpoint vdepth (v : val) : nat :=
  match v with
  | VList l => S (fold_right (fun x n => Nat.max (vdepth x) n) 0 l)
  | VDict d => S (fold_right (fun kv n => Nat.max (vdepth (snd kv)) n) 0 d)
  | _ => 0
  end.
Definition ldepth (l : list val) : nat := fold_right (fun x n => Nat.max (vdepth x) n) 0 l.
Definition ddepth (d : list (key * val)) : nat := fold_right (fun kv n => Nat.max (vdepth (snd kv)) n) 0 d.
Lemma vdepth_list l : vdepth (VList l) = S (ldepth l).
Proof. reflexivity. Qed.
Lemma vdepth_dict d : vdepth (VDict d) = S (ddepth d).
Proof. reflexivity. Qed.
Lemma ldepth_cons x l : ldepth (x :: l) = Nat.max (vdepth x) (ldepth l).
Proof. reflexivity. Qed.
Lemma ddepth_cons k x d : ddepth ((k, x) :: d) = Nat.max (vdepth x) (ddepth d).
Proof. reflexivity. Qed.
Lemma ldepth_app l1 l2 : ldepth (l1 ++ l2) = Nat.max (ldepth l1) (ldepth l2).
Proof. induction l1; cbn [app]; [reflexivity|]. rewrite !ldepth_cons; lia. Qed.

Lemma reads_read : forall fuel h v V F, reads_as h v V F -> vdepth V < fuel -> read fuel h v = Some V.
Proof.
  induction fuel as [|f IH]; intros h v V F H Hd; [lia|].
  destruct H as [|b|z|q|s|s|l xs vs F Hl Hx|l d vd F Hl Hx]; try reflexivity; cbn [read]; rewrite Hl.
  - assert (E : fold_right (fun x acc => match read f h x, acc with
                                             | Some v, Some vs => Some (v :: vs) | _, _ => None end) (Some []) xs = Some vs).
    { rewrite vdepth_list in Hd. clear Hl. induction Hx as [|x xs v vs F1 F2 H1 H2 IHx]; [reflexivity|].
      rewrite ldepth_cons in Hd. cbn [fold_right]. rewrite IHx by lia. rewrite (IH h x v F1 H1) by lia. reflexivity. }
    rewrite E; reflexivity.
  - assert (E : fold_right (fun kv acc => match read f h (snd kv), acc with
                                             | Some v, Some vs => Some ((fst kv, v) :: vs) | _, _ => None end) (Some []) d = Some vd).
    { rewrite vdepth_dict in Hd. clear Hl. induction Hx as [|k x d v vd F1 F2 H1 H2 IHx]; [reflexivity|].
      rewrite ddepth_cons in Hd. cbn [fold_right fst snd]. rewrite IHx by lia. rewrite (IH h x v F1 H1) by lia. reflexivity. }
    rewrite E; reflexivity.
Qed.

Lemma reads_eq fuel h x V F y W G : reads_as h x V F -> reads_as h y W G -> vdepth V < fuel -> vdepth W < fuel ->
  h_eq fuel h x y = py_eq V W.
Proof. intros H1 H2 D1 D2; unfold h_eq. rewrite (reads_read fuel h x V F H1 D1), (reads_read fuel h y W G H2 D2); reflexivity. Qed.

Lemma reads_truthy h v V F : reads_as h v V F -> h_truthy h v = truthy V.
Proof.
  intros H; destruct H as [|b|z|q|s|s|l xs vs F Hl Hx|l d vd F Hl Hx]; try reflexivity; cbn [h_truthy]; rewrite Hl;
    destruct Hx; reflexivity.
Qed.

(** a change of the heap that only touches [M] and new objects, leaving something read through [F'] *)
Definition grows (h h' : heap) (M : list loc) : Prop :=
  List.length h <= List.length h' /\ forall l, l < List.length h -> cnt M l = 0 -> nth_error h' l = nth_error h l.
Definition within (n : nat) (F' F : list loc) : Prop :=
  (forall l, l < n -> cnt F' l <= cnt F l) /\ (forall l, n <= l -> cnt F' l <= 1).

Lemma grows_refl h M : grows h h M.
Proof. split; auto. Qed.
Lemma grows_trans h1 h2 h3 M1 M2 M : grows h1 h2 M1 -> grows h2 h3 M2 ->
  (forall l, l < List.length h1 -> cnt M l = 0 -> cnt M1 l = 0 /\ cnt M2 l = 0) -> grows h1 h3 M.
Proof.
  intros [L1 G1] [L2 G2] HM; split; [lia|]. intros l Hl H0. destruct (HM l Hl H0) as [A B].
  rewrite G2 by (assumption || lia). apply G1; assumption.
Qed.
Lemma grows_agree h h' M F : grows h h' M -> (forall l, 0 < cnt F l -> l < List.length h /\ cnt M l = 0) -> agree h h' F.
Proof. intros [_ G] H l Hl. destruct (H l Hl). apply G; assumption. Qed.

Lemma alloc_grows h c : grows h (h ++ [c]) [].
Proof.
  split; [rewrite app_length; lia|]. intros l Hl _. apply nth_error_app1; exact Hl.
Qed.
Lemma alloc_new h (c : cell) : nth_error (h ++ [c]) (List.length h) = Some c.
Proof. rewrite nth_error_app2 by lia. rewrite Nat.sub_diag; reflexivity. Qed.
Lemma store_grows h l c : grows h (store h l c) [l].
Proof.
  split; [unfold store; rewrite set_nth_length; lia|]. intros l0 Hl0 H0. unfold store; apply set_nth_ne. cnts.
  destruct (Nat.eq_dec l l0); [lia|assumption].
Qed.
Lemma store_at h l c : l < List.length h -> nth_error (store h l c) l = Some c.
Proof. apply set_nth_eq. Qed.

(** copy.deepcopy of something without sharing: the same contents, in new objects only, without sharing *)
Lemma all_app h xs vs F ys ws G : all_read h xs vs F -> all_read h ys ws G -> all_read h (xs ++ ys) (vs ++ ws) (F ++ G).
Proof. induction 1; intros HG; cbn [app]; [exact HG|]. rewrite <- app_assoc; constructor; auto. Qed.
Lemma entries_app h xs vs F ys ws G : entries_read h xs vs F -> entries_read h ys ws G ->
  entries_read h (xs ++ ys) (vs ++ ws) (F ++ G).
Proof. induction 1; intros HG; cbn [app]; [exact HG|]. rewrite <- app_assoc; constructor; auto. Qed.

Definition fresh_copy (h h' : heap) (m m' : memo) (F F' : list loc) : Prop :=
  grows h h' [] /\ (forall l, l < List.length h -> cnt F' l = 0) /\ (forall l, cnt F' l <= 1) /\
  (forall l, memo_get m' l <> None -> memo_get m l <> None \/ 0 < cnt F l).

Lemma deepcopy_reads : forall fuel h m v V F,
  reads_as h v V F -> (forall l, cnt F l <= 1) -> (forall l, 0 < cnt F l -> memo_get m l = None) -> vdepth V < fuel ->
  exists h' m' v' F', deepcopy fuel h m v = (h', m', Ok v') /\ reads_as h' v' V F' /\ fresh_copy h h' m m' F F'.
Proof.
  induction fuel as [|f IH]; intros h m v V F H ND HM Hd; [lia|].
  assert (Sc : forall w, deepcopy (S f) h m v = (h, m, Ok w) -> reads_as h w V [] ->
            exists h' m' v' F', deepcopy (S f) h m v = (h', m', Ok v') /\ reads_as h' v' V F' /\ fresh_copy h h' m m' F F').
  { intros w E Hw. exists h, m, w, []. split; [exact E|]. split; [exact Hw|].
    repeat split; auto; intros; cnts; lia. }
  destruct H as [|b|z|q|s|s|l xs vs F Hl Hx|l d vd F Hl Hx];
    try (eapply Sc; [reflexivity|constructor]).
  - clear Sc. rewrite vdepth_list in Hd. cbn [deepcopy]. rewrite (HM l) by (cnts; destruct (Nat.eq_dec l l); [lia|congruence]).
    rewrite Hl. unfold alloc. set (l' := List.length h).
    (* the loop *)
    assert (Hgo : forall xs vs F2, forall done vdone Fd hh mm,
      all_read h xs vs F2 -> (forall a, cnt F2 a <= 1) -> (forall a, 0 < cnt F2 a -> memo_get mm a = None) -> ldepth vs < f ->
      grows h hh [] -> nth_error hh l' = Some (CList done) -> all_read hh done vdone Fd ->
      (forall a, a <= l' -> cnt Fd a = 0) -> (forall a, cnt Fd a <= 1) ->
      exists h' m' F',
      (fix go (xs : list hval) (done : list hval) (h : heap) (m : memo) : heap * memo * res hval :=
                     match xs with
                     | [] => (h, m, Ok (HRef l'))
                     | x :: r =>
                         match deepcopy f h m x with
                         | (h', m', Ok y) => go r (done ++ [y]) (store h' l' (CList (done ++ [y]))) m'
                         | (h', m', Err e) => (h', m', Err e)
                         end
                     end) xs done hh mm = (h', m', Ok (HRef l')) /\
      reads_as h' (HRef l') (VList (vdone ++ vs)) F' /\ grows h h' [] /\
      (forall a, a < l' -> cnt F' a = 0) /\ (forall a, cnt F' a <= 1) /\
      (forall a, memo_get m' a <> None -> memo_get mm a <> None \/ 0 < cnt F2 a)).
    { clear Hx Hl xs vs Hd ND HM F.
      induction xs as [|x xs IHx]; intros vs F2 done vdone Fd hh mm H2 ND HM Hd Hg Hn Hdone HF0 HF1.
      - inversion H2; subst. exists hh, mm, (l' :: Fd). split; [reflexivity|]. split.
        { rewrite app_nil_r. apply ra_list with (xs := done); assumption. }
        split; [exact Hg|]. split; [|split; [|intros a Ha; left; exact Ha]].
        + intros a Ha. rewrite cnt_cons, HF0 by lia. destruct (Nat.eq_dec l' a); lia.
        + intros a. rewrite cnt_cons. destruct (Nat.eq_dec l' a) as [<- |]; [rewrite HF0 by lia; lia|apply HF1].
      - inversion H2 as [|x0 xs0 v vs0 F1 F3 Hv Hvs]; subst. rewrite ldepth_cons in Hd.
        destruct Hg as [Lg Gg].
        assert (Hv' : reads_as hh x v F1).
        { apply (reads_frame h hh) with (1 := Hv). intros a Ha. apply Gg; [eapply reads_lt; eassumption|reflexivity]. }
        destruct (IH hh mm x v F1 Hv') as (h2 & m2 & y & Fy & E2 & Hy & (Gy & Fy0 & Fy1 & My)); try lia.
        { intros a. specialize (ND a). cnts. lia. }
        { intros a Ha. apply HM. cnts. lia. }
        assert (Lt : l' < List.length hh) by (eapply nth_Some_lt; eassumption).
        destruct (IHx vs0 F3 (done ++ [y]) (vdone ++ [v]) (Fd ++ (Fy ++ [])) (store h2 l' (CList (done ++ [y]))) m2)
          as (h' & m' & F' & E' & R1 & R2 & R3 & R4 & R5); auto; try lia.
        { intros a. specialize (ND a). cnts. lia. }
        { intros a Ha. destruct (memo_get m2 a) eqn:Ea; [|reflexivity].
          destruct (My a) as [Q|Q]; [congruence| |].
          - exfalso; apply Q; apply HM; cnts; lia.
          - specialize (ND a). cnts. lia. }
        { apply grows_trans with (h2 := hh) (M1 := []) (M2 := [l']); [split; assumption| |].
          - apply grows_trans with (h2 := h2) (M1 := []) (M2 := [l']); [exact Gy|apply store_grows|intros; auto].
          - intros a Ha _. split; [reflexivity|]. rewrite cnt_cons, cnt_nil. destruct (Nat.eq_dec l' a); lia. }
        { apply store_at. destruct Gy; lia. }
        { apply all_app.
          - apply (all_frame hh) with (1 := Hdone). intros a Ha. assert (a < List.length hh) by (eapply all_lt; eassumption).
            unfold store. rewrite set_nth_ne; [apply Gy; [assumption|reflexivity]|]. intros <-. rewrite HF0 in Ha; lia.
          - constructor; [|constructor]. apply (reads_frame h2) with (1 := Hy). intros a Ha. unfold store. apply set_nth_ne.
            intros <-. rewrite Fy0 in Ha; lia. }
        { intros a Ha. cnts. rewrite HF0, Fy0 by lia. reflexivity. }
        { intros a. cnts. destruct (Nat.lt_ge_cases a (List.length hh)) as [Q|Q].
          - rewrite (Fy0 a Q). specialize (HF1 a); lia.
          - assert (cnt Fd a = 0); [|specialize (Fy1 a); lia].
            destruct (cnt Fd a) eqn:Ea; [reflexivity|]. exfalso. assert (a < List.length hh); [|lia].
            eapply all_lt; [eassumption|lia]. }
        exists h', m', F'. rewrite E2. split; [exact E'|]. split; [rewrite <- app_assoc in R1; exact R1|].
        split; [exact R2|]. split; [exact R3|]. split; [exact R4|]. intros a Ha.
        destruct (R5 a Ha) as [Q|Q]; [|right; cnts; lia]. destruct (My a Q) as [Q'|Q']; [left; exact Q'|right; cnts; lia]. }
    destruct (Hgo xs vs F [] [] [] (h ++ [CList []]) ((l, l') :: m)) as (h' & m' & F' & E' & R1 & R2 & R3 & R4 & R5); auto.
    + intros a. specialize (ND a). cnts. lia.
    + intros a Ha. cbn [memo_get]. destruct (Nat.eqb l a) eqn:Ela.
      * apply Nat.eqb_eq in Ela; subst a. specialize (ND l). cnts. destruct (Nat.eq_dec l l); [lia|congruence].
      * apply HM. cnts. lia.
    + lia.
    + apply alloc_grows.
    + apply alloc_new.
    + constructor.
    + exists h', m', (HRef l'), F'. split; [exact E'|]. split; [exact R1|]. split; [exact R2|]. split; [exact R3|].
      split; [exact R4|]. intros a Ha. destruct (R5 a Ha) as [Q|Q]; [|right; cnts; lia].
      cbn [memo_get] in Q. destruct (Nat.eqb l a) eqn:Ela; [|left; exact Q].
      apply Nat.eqb_eq in Ela; subst a. right. cnts. destruct (Nat.eq_dec l l); [lia|congruence].
  - clear Sc. rewrite vdepth_dict in Hd. cbn [deepcopy]. rewrite (HM l) by (cnts; destruct (Nat.eq_dec l l); [lia|congruence]).
    rewrite Hl. unfold alloc. set (l' := List.length h).
    assert (Hgo : forall xs vs F2, forall done vdone Fd hh mm,
      entries_read h xs vs F2 -> (forall a, cnt F2 a <= 1) -> (forall a, 0 < cnt F2 a -> memo_get mm a = None) -> ddepth vs < f ->
      grows h hh [] -> nth_error hh l' = Some (CDict done) -> entries_read hh done vdone Fd ->
      (forall a, a <= l' -> cnt Fd a = 0) -> (forall a, cnt Fd a <= 1) ->
      exists h' m' F',
      (fix go (d done : list (key * hval)) (h : heap) (m : memo) : heap * memo * res hval :=
                     match d with
                     | [] => (h, m, Ok (HRef l'))
                     | (k, x) :: r =>
                         match deepcopy f h m x with
                         | (h', m', Ok y) => go r (done ++ [(k, y)]) (store h' l' (CDict (done ++ [(k, y)]))) m'
                         | (h', m', Err e) => (h', m', Err e)
                         end
                     end) xs done hh mm = (h', m', Ok (HRef l')) /\
      reads_as h' (HRef l') (VDict (vdone ++ vs)) F' /\ grows h h' [] /\
      (forall a, a < l' -> cnt F' a = 0) /\ (forall a, cnt F' a <= 1) /\
      (forall a, memo_get m' a <> None -> memo_get mm a <> None \/ 0 < cnt F2 a)).
    { clear Hx Hl d vd Hd ND HM F.
      induction xs as [|[k x] xs IHx]; intros vs F2 done vdone Fd hh mm H2 ND HM Hd Hg Hn Hdone HF0 HF1.
      - inversion H2; subst. exists hh, mm, (l' :: Fd). split; [reflexivity|]. split.
        { rewrite app_nil_r. apply ra_dict with (d := done); assumption. }
        split; [exact Hg|]. split; [|split; [|intros a Ha; left; exact Ha]].
        + intros a Ha. rewrite cnt_cons, HF0 by lia. destruct (Nat.eq_dec l' a); lia.
        + intros a. rewrite cnt_cons. destruct (Nat.eq_dec l' a) as [<- |]; [rewrite HF0 by lia; lia|apply HF1].
      - inversion H2 as [|k0 x0 xs0 v vs0 F1 F3 Hv Hvs]; subst. rewrite ddepth_cons in Hd.
        destruct Hg as [Lg Gg].
        assert (Hv' : reads_as hh x v F1).
        { apply (reads_frame h hh) with (1 := Hv). intros a Ha. apply Gg; [eapply reads_lt; eassumption|reflexivity]. }
        destruct (IH hh mm x v F1 Hv') as (h2 & m2 & y & Fy & E2 & Hy & (Gy & Fy0 & Fy1 & My)); try lia.
        { intros a. specialize (ND a). cnts. lia. }
        { intros a Ha. apply HM. cnts. lia. }
        assert (Lt : l' < List.length hh) by (eapply nth_Some_lt; eassumption).
        destruct (IHx vs0 F3 (done ++ [(k, y)]) (vdone ++ [(k, v)]) (Fd ++ (Fy ++ [])) (store h2 l' (CDict (done ++ [(k, y)]))) m2)
          as (h' & m' & F' & E' & R1 & R2 & R3 & R4 & R5); auto; try lia.
        { intros a. specialize (ND a). cnts. lia. }
        { intros a Ha. destruct (memo_get m2 a) eqn:Ea; [|reflexivity].
          destruct (My a) as [Q|Q]; [congruence| |].
          - exfalso; apply Q; apply HM; cnts; lia.
          - specialize (ND a). cnts. lia. }
        { apply grows_trans with (h2 := hh) (M1 := []) (M2 := [l']); [split; assumption| |].
          - apply grows_trans with (h2 := h2) (M1 := []) (M2 := [l']); [exact Gy|apply store_grows|intros; auto].
          - intros a Ha _. split; [reflexivity|]. rewrite cnt_cons, cnt_nil. destruct (Nat.eq_dec l' a); lia. }
        { apply store_at. destruct Gy; lia. }
        { apply entries_app.
          - apply (entries_frame hh) with (1 := Hdone). intros a Ha. assert (a < List.length hh) by (eapply entries_lt; eassumption).
            unfold store. rewrite set_nth_ne; [apply Gy; [assumption|reflexivity]|]. intros <-. rewrite HF0 in Ha; lia.
          - constructor; [|constructor]. apply (reads_frame h2) with (1 := Hy). intros a Ha. unfold store. apply set_nth_ne.
            intros <-. rewrite Fy0 in Ha; lia. }
        { intros a Ha. cnts. rewrite HF0, Fy0 by lia. reflexivity. }
        { intros a. cnts. destruct (Nat.lt_ge_cases a (List.length hh)) as [Q|Q].
          - rewrite (Fy0 a Q). specialize (HF1 a); lia.
          - assert (cnt Fd a = 0); [|specialize (Fy1 a); lia].
            destruct (cnt Fd a) eqn:Ea; [reflexivity|]. exfalso. assert (a < List.length hh); [|lia].
            eapply entries_lt; [eassumption|lia]. }
        exists h', m', F'. rewrite E2. split; [exact E'|]. split; [rewrite <- app_assoc in R1; exact R1|].
        split; [exact R2|]. split; [exact R3|]. split; [exact R4|]. intros a Ha.
        destruct (R5 a Ha) as [Q|Q]; [|right; cnts; lia]. destruct (My a Q) as [Q'|Q']; [left; exact Q'|right; cnts; lia]. }
    destruct (Hgo d vd F [] [] [] (h ++ [CDict []]) ((l, l') :: m)) as (h' & m' & F' & E' & R1 & R2 & R3 & R4 & R5); auto.
    + intros a. specialize (ND a). cnts. lia.
    + intros a Ha. cbn [memo_get]. destruct (Nat.eqb l a) eqn:Ela.
      * apply Nat.eqb_eq in Ela; subst a. specialize (ND l). cnts. destruct (Nat.eq_dec l l); [lia|congruence].
      * apply HM. cnts. lia.
    + lia.
    + apply alloc_grows.
    + apply alloc_new.
    + constructor.
    + exists h', m', (HRef l'), F'. split; [exact E'|]. split; [exact R1|]. split; [exact R2|]. split; [exact R3|].
      split; [exact R4|]. intros a Ha. destruct (R5 a Ha) as [Q|Q]; [|right; cnts; lia].
      cbn [memo_get] in Q. destruct (Nat.eqb l a) eqn:Ela; [|left; exact Q].
      apply Nat.eqb_eq in Ela; subst a. right. cnts. destruct (Nat.eq_dec l l); [lia|congruence].
Qed.
