(** Date search: proofs *)
From Coq Require Import ZifyBool ZifyNat ZifyN.
From Verif Require Import Py PyFacts Text TextFacts WordsProofs Regex CrcProofs Numeral NumeralProofs Date.

(** * what a date looks like *)
Definition number (m n : nat) (u : str) : Prop := Forall (fun c => is_digit c = true) u /\ m <= List.length u <= n.
(** [date_text u t]: [u] is a date as written in a name, [t] its normalised text *)
Inductive date_text : str -> str -> Prop :=
| compact8 u : number 8 8 u -> date_text u u
| compact6 u : number 6 6 u -> date_text u u
| numeric m1 n1 m2 n2 m3 n3 p1 c1 p2 c2 p3 :
    In (m1, n1, (m2, n2), (m3, n3)) [(2, 2, (1, 2), (1, 2)); (1, 2, (1, 2), (2, 2)); (4, 4, (1, 2), (1, 2)); (1, 2, (1, 2), (4, 4))] ->
    number m1 n1 p1 -> number m2 n2 p2 -> number m3 n3 p3 ->
    In c1 (lit "-/ .xX") -> In c2 (lit "-/ .xX") ->
    date_text (p1 ++ [c1] ++ p2 ++ [c2] ++ p3) (p1 ++ lit "-" ++ p2 ++ lit "-" ++ p3)
| monthly d o c1 m c2 y :
    number 1 2 d -> In (lower o) [lit "st"; lit "nd"; lit "rd"; lit "th"; []] -> In c1 (lit "-/ .") ->
    Forall (fun c => is_alpha c = true) m -> 3 <= List.length m <= 10 -> In c2 (lit "-/ .") -> number 4 4 y ->
    date_text (d ++ o ++ [c1] ++ m ++ [c2] ++ y) (d ++ o ++ [c1] ++ m ++ [c2] ++ y).
(** not preceded nor followed by a digit *)
Definition detached (s : str) (a b : nat) : Prop :=
  (forall c, 0 < a -> nth_error s (a - 1) = Some c -> is_digit c = false) /\
  (forall c, nth_error s b = Some c -> is_digit c = false).

(** * inversion of matches *)
Section Inv.
  Context (s : str).
  Lemma M_opt p n : forall i c j d, M s (ropt (RChr p) n) i c j d -> d = c /\ i <= j <= i + n /\ all_in s p i j.
  Proof.
    induction n as [|n IH]; intros i c j d H; cbn [ropt] in H.
    - inversion H; subst. split; [reflexivity|]. split; [lia|]. intros k Hk; lia.
    - inversion H as [| | |a' b' i' c' j' d' H1|a' b' i' c' j' d' H1| | | | | | |]; subst.
      + inversion H1 as [| |a' b' i' c' j1 d1 k' e' H2 H3| | | | | | | | |]; subst.
        inversion H2 as [|p' i' c' x E Ep| | | | | | | | | |]; subst. apply IH in H3 as (-> & H3 & H4).
        split; [reflexivity|]. split; [lia|]. intros k Hk. destruct (Nat.eq_dec k i) as [->|]; [eauto|apply H4; lia].
      + inversion H1; subst. split; [reflexivity|]. split; [lia|]. intros k Hk; lia.
  Qed.
  Lemma M_range p m n i c j d : m <= n -> M s (rrange (RChr p) m n) i c j d -> d = c /\ i + m <= j <= i + n /\ all_in s p i j.
  Proof.
    intros Hmn H. inversion H as [| |a' b' i' c' j1 d1 k' e' H1 H2| | | | | | | | |]; subst.
    apply M_rep in H1 as (-> & -> & H1). apply M_opt in H2 as (-> & H2 & H3). split; [reflexivity|]. split; [lia|].
    intros k Hk. destruct (Nat.lt_ge_cases k (i + m)); [apply H1; lia|apply H3; lia].
  Qed.
  Lemma M_chr_inv p i c j d : M s (RChr p) i c j d -> d = c /\ j = S i /\ exists x, nth_error s i = Some x /\ p x = true.
  Proof. intros H. inversion H as [|p' i' c' x E Ep| | | | | | | | | |]; subst. eauto. Qed.
  Lemma M_seq_inv a b i c k e : M s (RSeq a b) i c k e -> exists j d, M s a i c j d /\ M s b j d k e.
  Proof. intros H. inversion H; subst. eauto. Qed.
  Lemma M_grp_inv n a i c j e : M s (RGrp n a) i c j e -> exists d, e = (n, (i, j)) :: d /\ M s a i c j d.
  Proof. intros H. inversion H; subst. eauto. Qed.
  Lemma M_alt_inv a b i c k e : M s (RAlt a b) i c k e -> M s a i c k e \/ M s b i c k e.
  Proof. intros H. inversion H; subst; auto. Qed.

  Lemma slice_app i j k : i <= j <= k -> slice i k s = slice i j s ++ slice j k s.
  Proof.
    intros H. unfold slice. replace (skipn j s) with (skipn (j - i) (skipn i s)) by (rewrite skipn_skipn'; f_equal; lia).
    rewrite <- (firstn_skipn (j - i) (firstn (k - i) (skipn i s))) at 1. f_equal.
    - rewrite firstn_firstn. f_equal. lia.
    - rewrite skipn_firstn_comm. f_equal. lia.
  Qed.
  Lemma skipn_nth i x : nth_error s i = Some x -> skipn i s = x :: skipn (S i) s.
  Proof. revert s. induction i as [|i IH]; intros [|y t] H; try discriminate; simpl in *; [congruence|]. apply IH, H. Qed.
  Lemma slice_one i x : nth_error s i = Some x -> slice i (S i) s = [x].
  Proof. intros H. unfold slice. rewrite (skipn_nth i x H). replace (S i - i) with 1 by lia. reflexivity. Qed.
  Lemma all_in_slice p i j : i <= j -> all_in s p i j -> Forall (fun c => p c = true) (slice i j s) /\ List.length (slice i j s) = j - i.
  Proof.
    intros Hij. induction (j - i) as [|n IH] eqn:En in i, Hij |- *; intros H.
    - replace j with i by lia. unfold slice. rewrite Nat.sub_diag. split; [constructor|reflexivity].
    - destruct (H i ltac:(lia)) as (x & E & Ep). rewrite (slice_app i (S i) j) by lia. rewrite (slice_one i x E).
      destruct (IH (S i)) as [H1 H2]; [lia|lia|intros k Hk; apply H; lia|].
      split; [apply Forall_app; split; [constructor; [exact Ep|constructor]|exact H1]|]. rewrite app_length, H2. simpl. lia.
  Qed.
  Lemma all_in_number m n i j : i + m <= j <= i + n -> all_in s is_digit i j -> number m n (slice i j s).
  Proof. intros Hij H. apply all_in_slice in H as [H1 H2]; [|lia]. split; [exact H1|]. rewrite H2. lia. Qed.

  Lemma pre_inv i c j d : M s pre i c j d -> d = c /\ (forall x, 0 < j -> nth_error s (j - 1) = Some x -> is_digit x = false).
  Proof.
    intros H. apply M_alt_inv in H as [H|H].
    - inversion H; subst. split; [reflexivity|lia].
    - apply M_chr_inv in H as (-> & -> & x & E & Ep). split; [reflexivity|]. intros y _ Hy. replace (S i - 1) with i in Hy by lia.
      rewrite E in Hy. injection Hy as <-. destruct (is_digit x); [discriminate|reflexivity].
  Qed.
  Lemma post_inv i c j d : M s post i c j d -> d = c /\ (forall x, nth_error s i = Some x -> is_digit x = false).
  Proof.
    intros H. apply M_alt_inv in H as [H|H].
    - inversion H as [| | | | | | | | |i' c' E| |]; subst. split; [reflexivity|]. unfold at_eol in E. intros x Hx. pose proof (nth_error_lt _ _ _ Hx).
      rewrite Hx in E. destruct (Nat.eqb_spec j (List.length s)); [lia|]. simpl in E. apply Bool.andb_true_iff in E as [_ E]. apply N.eqb_eq in E. subst. reflexivity.
    - apply M_chr_inv in H as (-> & -> & x & E & Ep). split; [reflexivity|]. intros y Hy.
      rewrite E in Hy. injection Hy as <-. destruct (is_digit x); [discriminate|reflexivity].
  Qed.
  Lemma dsep_In c : dsep c = true -> In c (lit "-/ .").
  Proof. apply cmem_In. Qed.
  Lemma dsep_bis_In c : dsep_bis c = true -> In c (lit "-/ .xX").
  Proof. unfold dsep_bis, dsep. rewrite Bool.orb_true_iff, !cmem_In. vm_compute. tauto. Qed.
  Lemma dsep_bis_In' c : dsep c = true -> In c (lit "-/ .xX").
  Proof. intros H; apply dsep_bis_In. unfold dsep_bis. rewrite H. reflexivity. Qed.
  Lemma dsep_nodigit c : dsep c = true -> is_digit c = false.
  Proof. intros H. apply dsep_In in H. vm_compute in H. repeat (destruct H as [<-|H]; [reflexivity|]). destruct H. Qed.

  Lemma compact_inv n i c j d : M s (compact_re n) i c j d ->
    exists a b, group 1 d = Some (a, b) /\ map (group_text s d) (seq 2 1) = [slice a b s] /\ a <= b /\ number n n (slice a b s) /\ detached s a b.
  Proof.
    intros H. apply M_seq_inv in H as (j1 & d1 & H1 & H). apply M_seq_inv in H as (j2 & d2 & H2 & H3).
    apply M_chr_inv in H1 as (-> & -> & x & Ex & Hx). apply M_grp_inv in H2 as (d3 & -> & H2). apply M_grp_inv in H2 as (d4 & -> & H2).
    apply M_range in H2 as (-> & H2 & H4); [|lia]. apply M_chr_inv in H3 as (-> & -> & y & Ey & Hy).
    exists (S i), j2. split; [reflexivity|]. split; [reflexivity|]. split; [lia|]. split; [apply all_in_number; assumption|]. split.
    - intros z _ Hz. replace (S i - 1) with i in Hz by lia. rewrite Ex in Hz; injection Hz as <-. apply dsep_nodigit, Hx.
    - intros z Hz. rewrite Ey in Hz; injection Hz as <-. apply dsep_nodigit, Hy.
  Qed.
  Lemma numeric_inv m1 n1 f m2 n2 g m3 n3 i c j d : m1 <= n1 -> m2 <= n2 -> m3 <= n3 ->
    M s (numeric_re m1 n1 f m2 n2 g m3 n3) i c j d ->
    exists a b p1 c1 p2 c2 p3, group 1 d = Some (a, b) /\ map (group_text s d) (seq 2 3) = [p1; p2; p3] /\ a <= b /\
      slice a b s = p1 ++ [c1] ++ p2 ++ [c2] ++ p3 /\ number m1 n1 p1 /\ number m2 n2 p2 /\ number m3 n3 p3 /\
      f c1 = true /\ g c2 = true /\ detached s a b.
  Proof.
    intros L1 L2 L3 H. apply M_seq_inv in H as (i0 & d0 & Hp & H). apply M_seq_inv in H as (j0 & e0 & H & Hq).
    apply pre_inv in Hp as [-> Hp]. apply post_inv in Hq as [-> Hq].
    apply M_grp_inv in H as (e1 & -> & H). apply M_seq_inv in H as (i1 & d1 & H1 & H). apply M_seq_inv in H as (i2 & d2 & H2 & H).
    apply M_seq_inv in H as (i3 & d3 & H3 & H). apply M_seq_inv in H as (i4 & d4 & H4 & H5).
    apply M_grp_inv in H1 as (e2 & -> & H1). apply M_range in H1 as (-> & H1 & H1'); [|exact L1].
    apply M_chr_inv in H2 as (-> & -> & x & Ex & Hx).
    apply M_grp_inv in H3 as (e3 & -> & H3). apply M_range in H3 as (-> & H3 & H3'); [|exact L2].
    apply M_chr_inv in H4 as (-> & -> & y & Ey & Hy).
    apply M_grp_inv in H5 as (e5 & -> & H5). apply M_range in H5 as (-> & H5 & H5'); [|exact L3].
    exists i0, j0, (slice i0 i1 s), x, (slice (S i1) i3 s), y, (slice (S i3) j0 s).
    split; [reflexivity|]. split; [reflexivity|]. split; [lia|]. split; [|].
    { rewrite (slice_app i0 i1 j0) by lia. rewrite (slice_app i1 (S i1) j0) by lia. rewrite (slice_app (S i1) i3 j0) by lia. rewrite (slice_app i3 (S i3) j0) by lia.
      rewrite (slice_one i1 x Ex), (slice_one i3 y Ey). reflexivity. }
    split; [apply all_in_number; assumption|]. split; [apply all_in_number; assumption|]. split; [apply all_in_number; assumption|].
    split; [exact Hx|]. split; [exact Hy|]. split; assumption.
  Qed.
  Lemma rlit_inv w : forall i c j d, M s (rlit w) i c j d -> d = c /\ i <= j /\ lower (slice i j s) = w.
  Proof.
    induction w as [|x w IH]; intros i c j d H; cbn [rlit] in H.
    - inversion H; subst. unfold slice. rewrite Nat.sub_diag. auto.
    - apply M_seq_inv in H as (j1 & d1 & H1 & H2). apply M_chr_inv in H1 as (-> & -> & y & Ey & Hy). apply IH in H2 as (-> & H2 & H3).
      split; [reflexivity|]. split; [lia|]. rewrite (slice_app i (S i) j) by lia. rewrite (slice_one i y Ey). unfold lower in *. rewrite map_app, H3. simpl. apply N.eqb_eq in Hy. congruence.
  Qed.
  Lemma ordinal_inv i c j d : M s ordinal i c j d -> d = c /\ i <= j /\ In (lower (slice i j s)) [lit "st"; lit "nd"; lit "rd"; lit "th"; []].
  Proof.
    intros H. repeat (apply M_alt_inv in H as [H|H]); try (apply rlit_inv in H as (-> & H1 & ->); split; [reflexivity|]; split; [exact H1|]; cbn [In]; tauto).
    inversion H; subst. unfold slice. rewrite Nat.sub_diag. split; [reflexivity|]. split; [lia|]. cbn [In]. tauto.
  Qed.
  Lemma month_inv i c j d : M s month_re i c j d ->
    exists a b, group 1 d = Some (a, b) /\ map (group_text s d) (seq 2 1) = [slice a b s] /\ a <= b /\ date_text (slice a b s) (slice a b s) /\ detached s a b.
  Proof.
    intros H. apply M_seq_inv in H as (i0 & d0 & Hp & H). apply M_seq_inv in H as (j0 & e0 & H & Hq).
    apply pre_inv in Hp as [-> Hp]. apply post_inv in Hq as [-> Hq].
    apply M_grp_inv in H as (e1 & -> & H). apply M_grp_inv in H as (e2 & -> & H).
    apply M_seq_inv in H as (i1 & d1 & H1 & H). apply M_seq_inv in H as (i2 & d2 & H2 & H).
    apply M_seq_inv in H as (i3 & d3 & H3 & H). apply M_seq_inv in H as (i4 & d4 & H4 & H). apply M_seq_inv in H as (i5 & d5 & H5 & H6).
    apply M_range in H1 as (-> & H1 & H1'); [|lia]. apply ordinal_inv in H2 as (-> & H2 & H2').
    apply M_chr_inv in H3 as (-> & -> & x & Ex & Hx). apply M_range in H4 as (-> & H4 & H4'); [|lia].
    apply M_chr_inv in H5 as (-> & -> & y & Ey & Hy). apply M_range in H6 as (-> & H6 & H6'); [|lia].
    exists i0, j0. split; [reflexivity|]. split; [reflexivity|]. split; [lia|]. split; [|split; assumption].
    assert (E : slice i0 j0 s = slice i0 i1 s ++ slice i1 i2 s ++ [x] ++ slice (S i2) i4 s ++ [y] ++ slice (S i4) j0 s).
    { rewrite (slice_app i0 i1 j0) by lia. rewrite (slice_app i1 i2 j0) by lia. rewrite (slice_app i2 (S i2) j0) by lia. rewrite (slice_app (S i2) i4 j0) by lia. rewrite (slice_app i4 (S i4) j0) by lia.
      rewrite (slice_one i2 x Ex), (slice_one i4 y Ey). reflexivity. }
    rewrite E. apply all_in_slice in H4' as [A1 A2]; [|lia].
    constructor; try (apply all_in_number; assumption); try (apply dsep_In; assumption); [exact H2'|exact A1|lia].
  Qed.

  (** whichever expression matches, what it captured is a detached date *)
  Lemma regexp_inv r n i j d : In (r, n) date_regexps -> M s r i [] j d ->
    exists a b, group 1 d = Some (a, b) /\ a <= b /\ date_text (slice a b s) (concat_with (lit "-") (map (group_text s d) (seq 2 n))) /\ detached s a b.
  Proof.
    intros Hin H. unfold date_regexps in Hin. cbn [In] in Hin.
    destruct Hin as [E|[E|[E|[E|[E|[E|[E|[]]]]]]]]; injection E as <- <-.
    - apply compact_inv in H as (a & b & H1 & H2 & H3 & H4 & H5). exists a, b. rewrite H2. split; [exact H1|]. split; [exact H3|]. split; [|exact H5].
      cbn [concat_with flat_map]. rewrite app_nil_r. apply compact8; exact H4.
    - apply compact_inv in H as (a & b & H1 & H2 & H3 & H4 & H5). exists a, b. rewrite H2. split; [exact H1|]. split; [exact H3|]. split; [|exact H5].
      cbn [concat_with flat_map]. rewrite app_nil_r. apply compact6; exact H4.
    - apply numeric_inv in H as (a & b & p1 & c1 & p2 & c2 & p3 & H1 & H2 & H3 & H4 & H5 & H6 & H7 & H8 & H9 & H10); [|lia..].
      exists a, b. rewrite H2, H4. split; [exact H1|]. split; [exact H3|]. split; [|exact H10]. cbn [concat_with flat_map]. rewrite app_nil_r. rewrite <- app_assoc.
      eapply numeric; try eassumption; [cbn [In]; auto 10|apply dsep_bis_In'; assumption|apply dsep_bis_In'; assumption].
    - apply numeric_inv in H as (a & b & p1 & c1 & p2 & c2 & p3 & H1 & H2 & H3 & H4 & H5 & H6 & H7 & H8 & H9 & H10); [|lia..].
      exists a, b. rewrite H2, H4. split; [exact H1|]. split; [exact H3|]. split; [|exact H10]. cbn [concat_with flat_map]. rewrite app_nil_r. rewrite <- app_assoc.
      eapply numeric; try eassumption; [cbn [In]; auto 10|apply dsep_bis_In'; assumption|apply dsep_bis_In'; assumption].
    - apply numeric_inv in H as (a & b & p1 & c1 & p2 & c2 & p3 & H1 & H2 & H3 & H4 & H5 & H6 & H7 & H8 & H9 & H10); [|lia..].
      exists a, b. rewrite H2, H4. split; [exact H1|]. split; [exact H3|]. split; [|exact H10]. cbn [concat_with flat_map]. rewrite app_nil_r. rewrite <- app_assoc.
      eapply numeric; try eassumption; [cbn [In]; auto 10|apply dsep_bis_In; assumption|apply dsep_bis_In'; assumption].
    - apply numeric_inv in H as (a & b & p1 & c1 & p2 & c2 & p3 & H1 & H2 & H3 & H4 & H5 & H6 & H7 & H8 & H9 & H10); [|lia..].
      exists a, b. rewrite H2, H4. split; [exact H1|]. split; [exact H3|]. split; [|exact H10]. cbn [concat_with flat_map]. rewrite app_nil_r. rewrite <- app_assoc.
      eapply numeric; try eassumption; [cbn [In]; auto 10|apply dsep_bis_In'; assumption|apply dsep_bis_In; assumption].
    - apply month_inv in H as (a & b & H1 & H2 & H3 & H4 & H5). exists a, b. rewrite H2. split; [exact H1|]. split; [exact H3|]. split; [|exact H5].
      cbn [concat_with flat_map]. rewrite app_nil_r. exact H4.
  Qed.
End Inv.

Lemma date_text_nonempty u t : date_text u t -> u <> [].
Proof.
  destruct 1 as [u [_ H]|u [_ H]|m1 n1 m2 n2 m3 n3 p1 c1 p2 c2 p3 Hin H1 H2 H3|d o c1 m c2 y [_ H] _ _ _ _ _ _]; intros E.
  - subst. simpl in H. lia.
  - subst. simpl in H. lia.
  - apply app_eq_nil in E as [_ E]. discriminate.
  - apply app_eq_nil in E as [-> _]. simpl in H. lia.
Qed.

Section Loop.
  Context {D : Type} (year : D -> Z) (parse : str -> bool -> bool -> option D).
  Lemma first_plausible_spec text opts d : first_plausible year parse text opts = Some d ->
    exists df yf, In (df, yf) opts /\ parse text df yf = Some d /\ valid_year (year d) = true.
  Proof.
    induction opts as [|[df yf] r IH]; cbn [first_plausible]; [discriminate|].
    destruct (parse text df yf) as [d'|] eqn:E.
    - destruct (valid_year (year d')) eqn:Ev; [intros H; injection H as <-; exists df, yf; simpl; auto|].
      intros H. destruct (IH H) as (df' & yf' & H1 & H2). exists df', yf'. simpl; auto.
    - intros H. destruct (IH H) as (df' & yf' & H1 & H2). exists df', yf'. simpl; auto.
  Qed.
  Lemma date_loop_sound s yf rs : incl rs date_regexps -> forall df df0 a b d,
    (* what is known of the day-first value now, given the one of the caller [df0] *)
    (df0 <> None -> df = df0) -> (df0 = None -> yf = Some true -> df = None \/ df = Some false) ->
    date_loop year parse rs s yf df = Some (a, b, d) ->
    valid_year (year d) = true /\ a < b <= List.length s /\ detached s a b /\
    exists text dayf yearf, date_text (slice a b s) text /\ parse text dayf yearf = Some d /\
      (forall y, yf = Some y -> yearf = y) /\ (forall x, df0 = Some x -> dayf = x) /\
      (df0 = None -> yf = Some true -> dayf = false).
  Proof.
    induction rs as [|[r n] rest IH]; intros Hincl df df0 a b d K1 K2; cbn [date_loop]; [discriminate|].
    assert (Hrest : incl rest date_regexps) by (intros x Hx; apply Hincl; right; exact Hx).
    pose proof (search_spec s r 0) as Hs. destruct (search s r 0) as [[[i j] c]|]; [|apply IH; assumption].
    destruct Hs as (Hs1 & Hs2 & Hs3 & _).
    destruct (regexp_inv s r n i j c (Hincl (r, n) (or_introl eq_refl)) Hs3) as (a0 & b0 & Hg & Hab & Ht & Hd).
    pose proof (group_within s r i j c 1 a0 b0 Hs3 Hg) as Hw. rewrite Hg. clear Hg.
    set (text := concat_with (lit "-") (map (group_text s c) (seq 2 n))) in *.
    set (df1 := match yf, df with Some true, None => Some false | _, _ => df end).
    set (df2 := match df1 with None => guess_day_first (map (group_text s c) (seq 2 n)) | _ => df1 end).
    assert (N1 : df0 <> None -> df2 = df0).
    { intros H. unfold df2, df1. rewrite (K1 H). destruct df0 as [x|]; [|congruence]. destruct yf as [[]|]; reflexivity. }
    assert (N2 : df0 = None -> yf = Some true -> df2 = Some false).
    { intros H1 H2. unfold df2, df1. rewrite H2. destruct (K2 H1 H2) as [-> | ->]; reflexivity. }
    destruct (first_plausible year parse text _) as [d'|] eqn:Ef.
    - intros H; injection H as <- <- <-. apply first_plausible_spec in Ef as (dayf & yearf & Hin & Hp & Hv).
      split; [exact Hv|]. split.
      { pose proof (date_text_nonempty _ _ Ht) as Hne.
        assert (a0 <> b0) by (intros ->; apply Hne; unfold slice; rewrite Nat.sub_diag; reflexivity). lia. }
      split; [exact Hd|]. exists text, dayf, yearf. apply in_prod_iff in Hin as [Hi1 Hi2].
      split; [exact Ht|]. split; [exact Hp|]. split; [|split].
      + intros y ->. destruct Hi2 as [->|[]]. reflexivity.
      + intros x ->. rewrite (N1 ltac:(discriminate)) in Hi1. destruct Hi1 as [->|[]]. reflexivity.
      + intros H1 H2. rewrite (N2 H1 H2) in Hi1. destruct Hi1 as [->|[]]. reflexivity.
    - apply IH; [exact Hrest|exact N1|]. intros H1 H2. right. apply N2; assumption.
  Qed.

  (** all the interpretations tried when day-first is given, in order *)
  Definition interpretations (s : str) (yf : option bool) (df : bool) : list (nat * nat * D) :=
    flat_map (fun rn => match search s (fst rn) 0 with
                        | Some (_, _, c) =>
                            match group 1 c with
                            | Some (a, b) => flat_map (fun y => match parse (concat_with (lit "-") (map (group_text s c) (seq 2 (snd rn)))) df y with
                                                                | Some d => [(a, b, d)]
                                                                | None => [] end)
                                                      (match yf with None => [false; true] | Some y => [y] end)
                            | None => []
                            end
                        | None => []
                        end) date_regexps.
  Lemma find_app {A} (f : A -> bool) l1 l2 : find f (l1 ++ l2) = match find f l1 with Some x => Some x | None => find f l2 end.
  Proof. induction l1 as [|x l1 IH]; simpl; [reflexivity|]. destruct (f x); [reflexivity|exact IH]. Qed.
  Lemma search_date_first s yf df : search_date year parse s yf (Some df) = find (fun x => valid_year (year (snd x))) (interpretations s yf df).
  Proof.
    unfold search_date, interpretations. assert (Hincl : incl date_regexps date_regexps) by (intros x Hx; exact Hx).
    revert Hincl. generalize date_regexps at 1 3 4 as rs.
    induction rs as [|[r n] rest IH]; intros Hincl; cbn [date_loop flat_map fst snd]; [reflexivity|].
    assert (Hrest : incl rest date_regexps) by (intros x Hx; apply Hincl; right; exact Hx). specialize (IH Hrest).
    rewrite find_app, <- IH. clear IH. pose proof (search_spec s r 0) as Hs. destruct (search s r 0) as [[[i j] c]|]; [|reflexivity].
    destruct Hs as (Hs1 & Hs2 & Hs3 & _).
    destruct (regexp_inv s r n i j c (Hincl (r, n) (or_introl eq_refl)) Hs3) as (a0 & b0 & Hg & _). rewrite Hg.
    set (text := concat_with (lit "-") (map (group_text s c) (seq 2 n))).
    destruct yf as [[]|]; cbn [list_prod map app flat_map first_plausible];
      repeat (match goal with |- context [parse text df ?y] => destruct (parse text df y) as [?d|] end; cbn [app find snd]);
      repeat (match goal with |- context [valid_year (year ?d)] => destruct (valid_year (year d)) end); reflexivity.
  Qed.
End Loop.
