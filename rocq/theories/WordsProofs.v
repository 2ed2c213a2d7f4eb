(** Word splitting: proofs *)
From Coq Require Import Sorting.Sorted ZifyBool ZifyNat ZifyN.
From Verif Require Import Py PyFacts Text TextFacts Words.

(** [s[a:b]] is a maximal non-empty run of characters that are not separators *)
Definition is_word_sep (c : char) : Prop := (c < 128)%N /\ In c seps.
Definition maximal_run (sep : char -> Prop) (s : str) (a b : nat) : Prop :=
  a < b <= List.length s /\
  (forall k c, a <= k < b -> nth_error s k = Some c -> ~ sep c) /\
  (a = 0 \/ exists c, nth_error s (a - 1) = Some c /\ sep c) /\
  (b = List.length s \/ exists c, nth_error s b = Some c /\ sep c).

Lemma word_sep_iff c : word_sep c = true <-> is_word_sep c.
Proof. unfold word_sep, is_word_sep. rewrite Bool.andb_true_iff, N.ltb_lt, cmem_In. reflexivity. Qed.
Lemma word_sep_false c : word_sep c = false <-> ~ is_word_sep c.
Proof. rewrite <- word_sep_iff. destruct (word_sep c); split; congruence. Qed.

(** runs found in the prefix [p] of [s], ended by a separator of [p] *)
Definition closed_run (p : str) (a b : nat) : Prop :=
  a < b < List.length p /\
  (forall k c, a <= k < b -> nth_error p k = Some c -> word_sep c = false) /\
  (a = 0 \/ exists c, nth_error p (a - 1) = Some c /\ word_sep c = true) /\
  (exists c, nth_error p b = Some c /\ word_sep c = true).
(** the run reaching the end of [p] starts at [a] *)
Definition open_from (p : str) (a : nat) : Prop :=
  a <= List.length p /\
  (forall k c, a <= k -> nth_error p k = Some c -> word_sep c = false) /\
  (a = 0 \/ exists c, nth_error p (a - 1) = Some c /\ word_sep c = true).

Lemma nth_error_snoc {A} (p : list A) x k y : nth_error (p ++ [x]) k = Some y <->
  (k < List.length p /\ nth_error p k = Some y) \/ (k = List.length p /\ y = x).
Proof.
  split.
  - intros H. destruct (Nat.lt_ge_cases k (List.length p)) as [Hl|Hl].
    + rewrite nth_error_app1 in H by exact Hl. auto.
    + rewrite nth_error_app2 in H by exact Hl. destruct (k - List.length p) as [|n] eqn:E.
      * simpl in H. right; split; [lia|congruence].
      * simpl in H. destruct n; discriminate.
  - intros [[Hl H]|[-> ->]]; [rewrite nth_error_app1 by exact Hl; exact H|].
    rewrite nth_error_app2, Nat.sub_diag by lia. reflexivity.
Qed.
Lemma nth_error_lt {A} (p : list A) k y : nth_error p k = Some y -> k < List.length p.
Proof. intros H; apply nth_error_Some; congruence. Qed.

Lemma closed_run_snoc p x a b : closed_run (p ++ [x]) a b <->
  closed_run p a b \/ (word_sep x = true /\ b = List.length p /\ a < b /\ open_from p a).
Proof.
  unfold closed_run, open_from. rewrite app_length; simpl. split.
  - intros (Hab & Hin & Hst & (c & Hc & Hs)). apply nth_error_snoc in Hc as [[Hl Hc]|[-> ->]].
    + left. split; [lia|]. split; [|split].
      * intros k d Hk Hd. apply (Hin k d Hk). apply nth_error_snoc; left; split; [lia|exact Hd].
      * destruct Hst as [->|(d & Hd & Hs')]; [left; reflexivity|right]. apply nth_error_snoc in Hd as [[_ Hd]|[Hd _]]; [eauto|lia].
      * eauto.
    + right. split; [exact Hs|]. split; [reflexivity|]. split; [lia|]. split; [lia|]. split.
      * intros k d Hk Hd. pose proof (nth_error_lt _ _ _ Hd). apply (Hin k d ltac:(lia)). apply nth_error_snoc; auto.
      * destruct Hst as [->|(d & Hd & Hs')]; [left; reflexivity|right]. apply nth_error_snoc in Hd as [[_ Hd]|[Hd _]]; [eauto|lia].
  - intros [(Hab & Hin & Hst & (c & Hc & Hs))|(Hs & -> & Hab & Hle & Hin & Hst)].
    + split; [lia|]. split; [|split].
      * intros k d Hk Hd. apply nth_error_snoc in Hd as [[_ Hd]|[Hd _]]; [eauto|lia].
      * destruct Hst as [->|(d & Hd & Hs')]; [auto|right]. exists d; split; [|exact Hs']. apply nth_error_snoc; left; split; [eapply nth_error_lt; exact Hd|exact Hd].
      * exists c; split; [|exact Hs]. apply nth_error_snoc; left; split; [lia|exact Hc].
    + split; [lia|]. split; [|split].
      * intros k d Hk Hd. apply nth_error_snoc in Hd as [[_ Hd]|[Hd _]]; [apply (Hin k d); [lia|exact Hd]|lia].
      * destruct Hst as [->|(d & Hd & Hs')]; [auto|right]. exists d; split; [|exact Hs']. apply nth_error_snoc; left; split; [eapply nth_error_lt; exact Hd|exact Hd].
      * exists x; split; [|exact Hs]. apply nth_error_snoc; auto.
Qed.

Definition spanned (s : str) (w : word) : Prop := w_value w = slice (w_start w) (w_end w) s.

Lemma open_from_unique p a b : open_from p a -> open_from p b -> a = b.
Proof.
  intros (Ha & Ia & Sa) (Hb & Ib & Sb). destruct (Nat.lt_trichotomy a b) as [H|[H|H]]; [|exact H|].
  - destruct Sb as [->|(c & Hc & Hs)]; [lia|]. rewrite (Ia (b - 1) c ltac:(lia) Hc) in Hs; discriminate.
  - destruct Sa as [->|(c & Hc & Hs)]; [lia|]. rewrite (Ib (a - 1) c ltac:(lia) Hc) in Hs; discriminate.
Qed.

Lemma the_word_slice s last i : (-1 <= last)%Z -> i <= List.length s -> (last + 1 <= Z.of_nat i)%Z ->
  spanned s (the_word s last i).
Proof.
  intros H1 H2 H3. unfold spanned, the_word, zslice; simpl. f_equal; unfold norm_bound.
  - destruct (Z.ltb_spec (last + 1) 0); [lia|]. lia.
  - destruct (Z.ltb_spec (Z.of_nat i) 0); [lia|]. lia.
Qed.

Lemma loop_inv s p q : s = p ++ q ->
  let st := fold_left (iter_char s) p (mk_ws 0 (-1) false []) in
  ws_i st = List.length p /\ (-1 <= ws_last st)%Z /\ open_from p (Z.to_nat (ws_last st + 1)) /\
  (ws_in st = true <-> (ws_last st + 1 < Z.of_nat (List.length p))%Z) /\
  (forall a b, (exists w, In w (ws_out st) /\ w_start w = a /\ w_end w = b) <-> closed_run p a b) /\
  Forall (spanned s) (ws_out st) /\
  StronglySorted (fun w w' => w_end w < w_start w') (ws_out st) /\
  Forall (fun w => (Z.of_nat (w_end w) <= ws_last st)%Z) (ws_out st).
Proof.
  revert q. induction p as [|x p IH] using rev_ind; intros q Hs.
  - simpl. split; [reflexivity|]. split; [lia|]. split; [|split; [|split]].
    + split; [simpl; lia|]. split; [|left; reflexivity]. intros k c _ H; destruct k; discriminate.
    + split; intros; [discriminate|lia].
    + intros a b; split; [intros (w & [] & _)|intros (H & _); simpl in H; lia].
    + repeat constructor.
  - rewrite fold_left_app. cbn [fold_left]. rewrite <- app_assoc in Hs. specialize (IH _ Hs).
    destruct (fold_left (iter_char s) p (mk_ws 0 (-1) false [])) as [i last inside out]. cbn [ws_i ws_last ws_in ws_out] in *.
    destruct IH as (-> & Hlast & Hopen & Hin & Hout & Hsp & Hsorted & Hends).
    assert (Hlen : List.length p < List.length s) by (rewrite Hs, app_length; simpl; lia).
    assert (Hol : (last + 1 <= Z.of_nat (List.length p))%Z) by (destruct Hopen; lia).
    unfold iter_char; cbn [ws_i ws_last ws_in ws_out]. destruct (word_sep x) eqn:Ex; cbn [ws_i ws_last ws_in ws_out].
    + rewrite app_length; simpl List.length. split; [lia|]. split; [lia|]. split; [|split; [|split; [|split; [|split]]]].
      * replace (Z.to_nat (Z.of_nat (List.length p) + 1)) with (S (List.length p)) by lia.
        split; [rewrite app_length; simpl; lia|]. split.
        -- intros k c Hk Hc. apply nth_error_lt in Hc. rewrite app_length in Hc; simpl in Hc; lia.
        -- right. exists x. split; [|exact Ex]. apply nth_error_snoc. right; split; [lia|reflexivity].
      * split; [discriminate|lia].
      * intros a b. rewrite closed_run_snoc, <- Hout. destruct inside.
        -- assert (Hi : (last + 1 < Z.of_nat (List.length p))%Z) by (apply Hin; reflexivity). split.
           ++ intros (w & Hw & <- & <-). apply in_app_iff in Hw as [Hw|[<-|[]]]; [left; eauto|right]. simpl.
              split; [exact Ex|]. split; [reflexivity|]. split; [lia|exact Hopen].
           ++ intros [(w & Hw & <- & <-)|(_ & -> & Hab & Ho)].
              ** exists w. rewrite in_app_iff; auto.
              ** exists (the_word s last (List.length p)). rewrite in_app_iff; simpl. split; [auto|]. split; [|reflexivity].
                 eapply open_from_unique; [exact Hopen|exact Ho].
        -- split; [auto|]. intros [H|(_ & -> & Hab & Ho)]; [exact H|].
           exfalso. pose proof (open_from_unique p _ _ Hopen Ho). assert (~ (last + 1 < Z.of_nat (List.length p))%Z) by (rewrite <- Hin; discriminate). lia.
      * destruct inside; [|exact Hsp]. apply Forall_app; split; [exact Hsp|]. constructor; [|constructor].
        apply the_word_slice; lia.
      * destruct inside; [|exact Hsorted].
        assert (G : Forall (fun w => w_end w < w_start (the_word s last (List.length p))) out).
        { eapply Forall_impl; [|exact Hends]. simpl; intros w Hw; lia. }
        clear - Hsorted G. induction Hsorted as [|w l Hs IH Hf]; simpl; [repeat constructor|]. inversion G; subst.
        constructor; [apply IH; assumption|]. apply Forall_app; split; [exact Hf|repeat constructor; assumption].
      * assert (G : Forall (fun w => (Z.of_nat (w_end w) <= Z.of_nat (List.length p))%Z) out) by (eapply Forall_impl; [|exact Hends]; simpl; intros; lia).
        destruct inside; [|exact G]. apply Forall_app; split; [exact G|]. constructor; [simpl; lia|constructor].
    + rewrite app_length; simpl List.length. split; [lia|]. split; [lia|]. split; [|split; [|split; [|auto]]].
      * destruct Hopen as (H1 & H2 & H3). split; [rewrite app_length; simpl; lia|]. split.
        -- intros k c Hk Hc. apply nth_error_snoc in Hc as [[_ Hc]|[_ ->]]; [eauto|exact Ex].
        -- destruct H3 as [H3|(c & Hc & Hs')]; [left; exact H3|right]. exists c; split; [|exact Hs'].
           apply nth_error_snoc; left; split; [eapply nth_error_lt; exact Hc|exact Hc].
      * split; [intros _; lia|reflexivity].
      * intros a b. rewrite closed_run_snoc, <- Hout. split; [auto|]. intros [H|(H & _)]; [exact H|congruence].
Qed.

Lemma run_iff s a b : maximal_run is_word_sep s a b <-> closed_run s a b \/ (b = List.length s /\ a < b /\ open_from s a).
Proof.
  unfold maximal_run, closed_run, open_from.
  assert (E1 : forall P : nat -> Prop, (forall k c, P k -> nth_error s k = Some c -> ~ is_word_sep c) <-> (forall k c, P k -> nth_error s k = Some c -> word_sep c = false)).
  { intros P; split; intros H k c Hk Hc; specialize (H k c Hk Hc); apply word_sep_false; exact H. }
  assert (E2 : forall k, (exists c, nth_error s k = Some c /\ is_word_sep c) <-> (exists c, nth_error s k = Some c /\ word_sep c = true)).
  { intros k; split; intros (c & Hc & Hs); exists c; (split; [exact Hc|]); apply word_sep_iff; exact Hs. }
  rewrite (E1 (fun k => a <= k < b)), !E2. split.
  - intros (Hab & Hin & Hst & [->|(c & Hc & Hs)]).
    + right. split; [reflexivity|]. split; [lia|]. split; [lia|]. split; [|exact Hst].
      intros k d Hk Hd. pose proof (nth_error_lt _ _ _ Hd). apply (Hin k d); [lia|exact Hd].
    + left. pose proof (nth_error_lt _ _ _ Hc). repeat split; eauto; lia.
  - intros [(Hab & Hin & Hst & He)|(-> & Hab & Hle & Hin & Hst)].
    + split; [lia|]. auto.
    + split; [lia|]. split; [|auto]. intros k d Hk; apply Hin; lia.
Qed.

Lemma iter_words_spec s :
  Forall (spanned s) (iter_words s) /\
  StronglySorted (fun w w' => w_end w < w_start w') (iter_words s) /\
  forall a b, (exists w, In w (iter_words s) /\ w_start w = a /\ w_end w = b) <-> maximal_run is_word_sep s a b.
Proof.
  unfold iter_words. pose proof (loop_inv s s [] (eq_sym (app_nil_r s))) as H; cbn zeta in H.
  destruct (fold_left (iter_char s) s (mk_ws 0 (-1) false [])) as [i last inside out]. cbn [ws_i ws_last ws_in ws_out] in *.
  destruct H as (-> & Hlast & Hopen & Hin & Hout & Hsp & Hsorted & Hends).
  assert (Hol : (last + 1 <= Z.of_nat (List.length s))%Z) by (destruct Hopen; lia).
  destruct inside.
  - split; [|split].
    + apply Forall_app; split; [exact Hsp|]. constructor; [|constructor]. apply the_word_slice; lia.
    + assert (G : Forall (fun w => w_end w < w_start (the_word s last (List.length s))) out).
      { eapply Forall_impl; [|exact Hends]. simpl; intros w Hw; lia. }
      clear - Hsorted G. induction Hsorted as [|w l Hs IH Hf]; simpl; [repeat constructor|]. inversion G; subst.
      constructor; [apply IH; assumption|]. apply Forall_app; split; [exact Hf|repeat constructor; assumption].
    + assert (Hi : (last + 1 < Z.of_nat (List.length s))%Z) by (apply Hin; reflexivity).
      intros a b. rewrite run_iff, <- Hout. split.
      * intros (w & Hw & <- & <-). apply in_app_iff in Hw as [Hw|[<-|[]]]; [left; eauto|right]. simpl. split; [reflexivity|]. split; [lia|exact Hopen].
      * intros [(w & Hw & <- & <-)|(-> & Hab & Ho)].
        -- exists w. rewrite in_app_iff; auto.
        -- exists (the_word s last (List.length s)). rewrite in_app_iff; simpl. split; [auto|]. split; [|reflexivity].
           eapply open_from_unique; [exact Hopen|exact Ho].
  - split; [exact Hsp|]. split; [exact Hsorted|]. intros a b. rewrite run_iff, <- Hout. split; [auto|].
    intros [H|(-> & Hab & Ho)]; [exact H|]. exfalso. pose proof (open_from_unique s _ _ Hopen Ho).
    assert (~ (last + 1 < Z.of_nat (List.length s))%Z) by (rewrite <- Hin; discriminate). lia.
Qed.

(** every non-separator character lies in a maximal run *)
Lemma run_exists s k c : nth_error s k = Some c -> ~ is_word_sep c -> exists a b, maximal_run is_word_sep s a b /\ a <= k < b.
Proof.
  intros Hk Hc. pose proof (nth_error_lt _ _ _ Hk) as Hlt.
  (* left bound *)
  assert (L : forall n, n <= k -> (forall j d, n <= j <= k -> nth_error s j = Some d -> ~ is_word_sep d) ->
     exists a, a <= k /\ (forall j d, a <= j <= k -> nth_error s j = Some d -> ~ is_word_sep d) /\
       (a = 0 \/ exists d, nth_error s (a - 1) = Some d /\ is_word_sep d)).
  { induction n as [|n IH]; intros Hn Hr; [exists 0; split; [lia|]; split; [exact Hr|left; reflexivity]|].
    destruct (nth_error s n) as [d|] eqn:E; [|apply nth_error_None in E; lia].
    destruct (word_sep d) eqn:Es.
    - exists (S n). split; [exact Hn|]. split; [exact Hr|]. right. exists d. replace (S n - 1) with n by lia. split; [exact E|apply word_sep_iff; exact Es].
    - apply IH; [lia|]. intros j e Hj He. destruct (Nat.eq_dec j n) as [->|Hne]; [|apply (Hr j); [lia|exact He]].
      rewrite E in He; injection He as <-. apply word_sep_false; exact Es. }
  destruct (L k) as (a & Ha & Hin & Hst); [lia| |].
  { intros j d Hj Hd. replace j with k in Hd by lia. rewrite Hk in Hd; injection Hd as <-; exact Hc. }
  (* right bound *)
  assert (R : forall m n, n + m = List.length s -> k < n -> (forall j d, k <= j < n -> nth_error s j = Some d -> ~ is_word_sep d) ->
     exists b, k < b <= List.length s /\ (forall j d, k <= j < b -> nth_error s j = Some d -> ~ is_word_sep d) /\
       (b = List.length s \/ exists d, nth_error s b = Some d /\ is_word_sep d)).
  { induction m as [|m IH]; intros n Hm Hn Hr.
    - exists n. split; [lia|]. split; [exact Hr|left; lia].
    - destruct (nth_error s n) as [d|] eqn:E; [|apply nth_error_None in E; lia].
      destruct (word_sep d) eqn:Es.
      + exists n. split; [lia|]. split; [exact Hr|]. right; exists d; split; [exact E|apply word_sep_iff; exact Es].
      + apply (IH (S n)); [lia|lia|]. intros j e Hj He. destruct (Nat.eq_dec j n) as [->|Hne]; [|apply (Hr j); [lia|exact He]].
        rewrite E in He; injection He as <-. apply word_sep_false; exact Es. }
  destruct (R (List.length s - S k) (S k)) as (b & Hb & Hinb & Hend); [lia|lia| |].
  { intros j d Hj Hd. replace j with k in Hd by lia. rewrite Hk in Hd; injection Hd as <-; exact Hc. }
  exists a, b. split; [|lia]. split; [lia|]. split; [|split; [exact Hst|exact Hend]].
  intros j d Hj Hd. destruct (Nat.le_gt_cases j k); [apply (Hin j)|apply (Hinb j)]; auto; lia.
Qed.
