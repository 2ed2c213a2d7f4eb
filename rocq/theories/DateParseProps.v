(** C107: numeric dates, as dateutil reads them *)
From Coq Require Import ZArith ZifyBool ZifyNat ZifyN.
From Verif Require Import Py PyFacts Text TextFacts WordsProofs Regex RegexFacts CrcProofs Numeral NumeralProofs Quantity Date DateProofs Rebulk RebulkFacts Patterns PatternsProps DateParse.
Import DateProofs.
Local Open Scope nat_scope.

(** * specification *)
(** [s] has one date, from [a] to [b] *)
Definition only_date (s : str) (a b : nat) : Prop :=
  a < b <= List.length s /\ detached s a b /\
  forall a' b' t, a' < b' <= List.length s -> detached s a' b' -> date_text (slice a' b' s) t -> a' = a /\ b' = b.
(** the calendar *)
Definition leap (y : Z) : Prop := (4 | y)%Z /\ (~ (100 | y) \/ (400 | y))%Z.
Inductive month_has (y : Z) : Z -> Z -> Prop :=
| days31 m : In m [1; 3; 5; 7; 8; 10; 12]%Z -> month_has y m 31
| days30 m : In m [4; 6; 9; 11]%Z -> month_has y m 30
| days28 : ~ leap y -> month_has y 2 28
| days29 : leap y -> month_has y 2 29.
Definition real_date (y m d : Z) : Prop := (1 <= y <= 9999)%Z /\ exists n, month_has y m n /\ (1 <= d <= n)%Z.
Definition plausible (y : Z) : Prop := (1920 <= y <= 2029)%Z.
(** the year of two digits [n], the nearest to [now] *)
Definition nearest (now n y : Z) : Prop := (y mod 100 = n /\ now - 50 <= y < now + 50)%Z.
(** three numbers written from [a] to [b] *)
Definition numbers (s : str) (a b : nat) (seps1 seps2 : str) (p1 p2 p3 : str) : Prop :=
  exists c1 c2, In c1 seps1 /\ In c2 seps2 /\ slice a b s = p1 ++ [c1] ++ p2 ++ [c2] ++ p3.

(** * proofs *)
Lemma leap_iff y : is_leap y = true <-> leap y.
Proof.
  assert (D : forall k, (0 < k)%Z -> (y mod k =? 0)%Z = true <-> (k | y)%Z) by (intros k L; rewrite Z.eqb_eq; apply Z.mod_divide; lia).
  unfold is_leap, leap. rewrite Bool.andb_true_iff, Bool.orb_true_iff, Bool.negb_true_iff, (D 4%Z), (D 400%Z) by lia.
  rewrite <- Bool.not_true_iff_false, (D 100%Z) by lia. reflexivity.
Qed.
Lemma real_iff y m d : check_date y m d = true <-> real_date y m d.
Proof.
  unfold check_date, real_date, days_in_month. rewrite !Bool.andb_true_iff, !Z.leb_le. split.
  - intros (((((H1 & H2) & H3) & H4) & H5) & H6). split; [lia|].
    assert (C : (m = 1 \/ m = 2 \/ m = 3 \/ m = 4 \/ m = 5 \/ m = 6 \/ m = 7 \/ m = 8 \/ m = 9 \/ m = 10 \/ m = 11 \/ m = 12)%Z) by lia.
    repeat (destruct C as [-> |C]); try subst m;
      try (exists 31%Z; split; [apply days31; cbn; tauto|exact (conj H5 H6)]);
      try (exists 30%Z; split; [apply days30; cbn; tauto|exact (conj H5 H6)]).
    all: change ((2 =? 2)%Z && is_leap y) with (is_leap y) in H6. all: destruct (is_leap y) eqn:E.
    + exists 29%Z. split; [apply days29, leap_iff, E|exact (conj H5 H6)].
    + exists 28%Z. split; [apply days28; rewrite <- leap_iff; congruence|exact (conj H5 H6)].
  - intros (L & n & H & Hd).
    destruct H as [m H|m H|H|H].
    1, 2: cbn [In] in H; repeat (destruct H as [<- |H]; [split; [lia|exact (proj2 Hd)]|]); destruct H.
    + destruct (is_leap y) eqn:E; [apply leap_iff in E; contradiction|]. split; [lia|exact (proj2 Hd)].
    + apply leap_iff in H. rewrite H. split; [lia|exact (proj2 Hd)].
Qed.
Lemma real_month y m d : real_date y m d -> (1 <= m <= 12)%Z /\ (1 <= d <= 31)%Z.
Proof.
  intros (_ & n & H & L). destruct H as [m H|m H|H|H]; try lia; cbn [In] in H; lia.
Qed.
Lemma nearest_iff now n y : (0 <= n < 100)%Z -> nearest now n y <-> y = convertyear now n false.
Proof.
  intros L. unfold nearest, convertyear. rewrite (proj2 (Z.ltb_lt n 100)) by lia. cbn [andb negb].
  pose proof (Z.mod_pos_bound now 100 ltac:(lia)). pose proof (Z.div_mod now 100 ltac:(lia)).
  assert (M : ((n + now / 100 * 100) mod 100 = n)%Z) by (rewrite Z.mod_add by lia; apply Z.mod_small; lia).
  split.
  - intros [E W]. pose proof (Z.div_mod y 100 ltac:(lia)). destruct (Z.leb_spec (now + 50) (n + now / 100 * 100)); [lia|].
    destruct (Z.ltb_spec (n + now / 100 * 100) (now - 50)); lia.
  - intros ->. destruct (Z.leb_spec (now + 50) (n + now / 100 * 100)).
    + replace (n + now / 100 * 100 - 100)%Z with (n + (now / 100 - 1) * 100)%Z by lia. rewrite Z.mod_add, Z.mod_small by lia. lia.
    + destruct (Z.ltb_spec (n + now / 100 * 100) (now - 50)); [|rewrite M; lia].
      replace (n + now / 100 * 100 + 100)%Z with (n + (now / 100 + 1) * 100)%Z by lia. rewrite Z.mod_add, Z.mod_small by lia. lia.
Qed.

(** digits *)
Definition digits_only (u : str) : Prop := Forall (fun c => is_digit c = true) u.
Lemma same_run (p q : str) c d (r t : str) : digits_only p -> digits_only q -> is_digit c = false -> is_digit d = false -> p ++ c :: r = q ++ d :: t -> p = q /\ c = d /\ r = t.
Proof.
  intros P. revert q. induction P as [|x p Hx P IH]; intros q Q C D E.
  - destruct Q as [|y q Hy Q]; cbn [app] in E; [injection E as -> ->; auto|]. injection E as -> _. congruence.
  - destruct Q as [|y q Hy Q]; cbn [app] in E; [injection E as -> _; congruence|]. injection E as -> E.
    destruct (IH q Q C D E) as (-> & -> & ->). auto.
Qed.
Lemma bis_nodigit c : In c (lit "-/ .xX") -> is_digit c = false.
Proof. intros H. vm_compute in H. repeat (destruct H as [<-|H]; [reflexivity|]). destruct H. Qed.
Lemma plain_bis c : In c (lit "-/ .") -> In c (lit "-/ .xX").
Proof. intros H. vm_compute in H |- *. tauto. Qed.
Lemma same_numbers p1 c1 p2 c2 p3 q1 d1 q2 d2 q3 :
  digits_only p1 -> digits_only p2 -> digits_only q1 -> digits_only q2 ->
  is_digit c1 = false -> is_digit c2 = false -> is_digit d1 = false -> is_digit d2 = false ->
  p1 ++ [c1] ++ p2 ++ [c2] ++ p3 = q1 ++ [d1] ++ q2 ++ [d2] ++ q3 -> p1 = q1 /\ c1 = d1 /\ p2 = q2 /\ c2 = d2 /\ p3 = q3.
Proof.
  intros P1 P2 Q1 Q2 C1 C2 D1 D2 E. cbn [app] in E. apply same_run in E as (-> & -> & E); try assumption.
  apply same_run in E as (-> & -> & ->); auto.
Qed.

(** what an expression finds when there is only one date *)
Section Only.
  Context (s : str) (a b : nat) (Only : only_date s a b).
  Definition finds (r : re) (n : nat) (gs : list str) : Prop :=
    exists i j c, search s r 0 = Some (i, j, c) /\ group 1 c = Some (a, b) /\ map (group_text s c) (seq 2 n) = gs.
  Lemma only_place r n i j c : In (r, n) date_regexps -> search s r 0 = Some (i, j, c) -> group 1 c = Some (a, b) /\ M s r i [] j c.
  Proof.
    intros Hin E. pose proof (search_spec s r 0) as Hs. rewrite E in Hs. destruct Hs as (_ & Hl & HM & _).
    destruct (regexp_inv s r n i j c Hin HM) as (a0 & b0 & Hg & Hab & Ht & Hd). pose proof (group_within s r i j c 1 a0 b0 HM Hg) as Hw.
    pose proof (date_text_nonempty _ _ Ht) as Hne.
    assert (a0 <> b0) by (intros ->; apply Hne; unfold slice; rewrite Nat.sub_diag; reflexivity).
    destruct Only as (_ & _ & U). destruct (U a0 b0 _ ltac:(lia) Hd Ht) as [-> ->]. auto.
  Qed.
  Lemma only_numeric m1 n1 f m2 n2 g m3 n3 i j c : In (numeric_re m1 n1 f m2 n2 g m3 n3, 3) date_regexps -> m1 <= n1 -> m2 <= n2 -> m3 <= n3 ->
    search s (numeric_re m1 n1 f m2 n2 g m3 n3) 0 = Some (i, j, c) ->
    exists q1 d1 q2 d2 q3, group 1 c = Some (a, b) /\ map (group_text s c) (seq 2 3) = [q1; q2; q3] /\ slice a b s = q1 ++ [d1] ++ q2 ++ [d2] ++ q3 /\
      number m1 n1 q1 /\ number m2 n2 q2 /\ number m3 n3 q3 /\ f d1 = true /\ g d2 = true.
  Proof.
    intros Hin L1 L2 L3 E. destruct (only_place _ _ _ _ _ Hin E) as [Hg HM].
    apply numeric_inv in HM as (a' & b' & q1 & d1 & q2 & d2 & q3 & H1 & H2 & H3 & H4 & H5 & H6 & H7 & H8 & H9 & _); try assumption.
    rewrite Hg in H1. injection H1 as <- <-. exists q1, d1, q2, d2, q3. auto 10.
  Qed.
  Lemma only_compact n i j c : In (compact_re n, 1) date_regexps -> search s (compact_re n) 0 = Some (i, j, c) ->
    group 1 c = Some (a, b) /\ map (group_text s c) (seq 2 1) = [slice a b s] /\ number n n (slice a b s).
  Proof.
    intros Hin E. destruct (only_place _ _ _ _ _ Hin E) as [Hg HM].
    apply compact_inv in HM as (a' & b' & H1 & H2 & H3 & H4 & _). rewrite Hg in H1. injection H1 as <- <-. auto.
  Qed.
  Lemma only_month i j c : search s month_re 0 = Some (i, j, c) -> 3 <= List.length (filter is_alpha (slice a b s)).
  Proof.
    intros E. destruct (only_place month_re 1 i j c ltac:(unfold date_regexps; cbn [In]; auto 10) E) as [Hg H].
    apply M_seq_inv in H as (i0 & d0 & Hp & H). apply M_seq_inv in H as (j0 & e0 & H & Hq).
    apply pre_inv in Hp as [-> Hp]. apply post_inv in Hq as [-> Hq].
    apply M_grp_inv in H as (e1 & -> & H). apply M_grp_inv in H as (e2 & -> & H).
    apply M_seq_inv in H as (i1 & d1 & H1 & H). apply M_seq_inv in H as (i2 & d2 & H2 & H).
    apply M_seq_inv in H as (i3 & d3 & H3 & H). apply M_seq_inv in H as (i4 & d4 & H4 & H). apply M_seq_inv in H as (i5 & d5 & H5 & H6).
    apply M_range in H1 as (-> & H1 & H1'); [|lia]. apply ordinal_inv in H2 as (-> & H2 & H2').
    apply M_chr_inv in H3 as (-> & -> & x & Ex & Hx). apply M_range in H4 as (-> & H4 & H4'); [|lia].
    apply M_chr_inv in H5 as (-> & -> & y & Ey & Hy). apply M_range in H6 as (-> & H6 & H6'); [|lia].
    cbn [group fst Nat.eqb] in Hg. injection Hg as <- <-.
    rewrite (slice_app s i0 (S i2) j0) by lia. rewrite (slice_app s (S i2) i4 j0) by lia. rewrite !filter_app, !app_length.
    apply all_in_slice in H4' as [A1 A2]; [|lia].
    enough (E' : forall l, Forall (fun c => is_alpha c = true) l -> filter is_alpha l = l) by (rewrite (E' _ A1), A2; lia).
    induction 1 as [|z l Hz _ IH]; cbn [filter]; [reflexivity|]. rewrite Hz, IH. reflexivity.
  Qed.
End Only.

Lemma In_regexps4 : forall r n, In (r, n) date_regexps ->
  (exists k, r = compact_re k /\ n = 1 /\ (k = 6 \/ k = 8)) \/ r = month_re /\ n = 1 \/
  n = 3 /\ (r = numeric_re 2 2 dsep 1 2 dsep 1 2 \/ r = numeric_re 1 2 dsep 1 2 dsep 2 2 \/ r = numeric_re 4 4 dsep_bis 1 2 dsep 1 2 \/ r = numeric_re 1 2 dsep 1 2 dsep_bis 4 4).
Proof.
  intros r n H. unfold date_regexps in H. cbn [In] in H.
  destruct H as [E|[E|[E|[E|[E|[E|[E|[]]]]]]]]; injection E as <- <-; eauto 10.
Qed.
Lemma nondigits (p1 : str) c1 p2 c2 p3 : digits_only p1 -> digits_only p2 -> digits_only p3 -> List.length (filter is_alpha (p1 ++ [c1] ++ p2 ++ [c2] ++ p3)) <= 2.
Proof.
  assert (Z0 : forall p, digits_only p -> List.length (filter is_alpha p) = 0).
  { induction 1 as [|x p Hx _ IH]; cbn [filter]; [reflexivity|]. replace (is_alpha x) with false; [exact IH|].
    unfold is_alpha, is_upper, is_lower, is_digit in *. lia. }
  intros H1 H2 H3. rewrite !filter_app, !app_length, (Z0 p1), (Z0 p2), (Z0 p3) by assumption. cbn [filter].
  destruct (is_alpha c1), (is_alpha c2); cbn [List.length]; lia.
Qed.
Lemma dsep_nodigit' c : dsep_bis c = true -> is_digit c = false.
Proof. intros H. apply bis_nodigit, dsep_bis_In, H. Qed.

Section OnlyNumbers.
  Context (s : str) (a b : nat) (Only : only_date s a b) (p1 : str) (c1 : char) (p2 : str) (c2 : char) (p3 : str).
  Context (E : slice a b s = p1 ++ [c1] ++ p2 ++ [c2] ++ p3) (P1 : digits_only p1) (P2 : digits_only p2) (P3 : digits_only p3).
  Context (C1 : In c1 (lit "-/ .xX")) (C2 : In c2 (lit "-/ .xX")).
  (** whatever finds a date finds these three numbers *)
  Lemma numbers_found r n : In (r, n) date_regexps -> search s r 0 = None \/ finds s a b r n [p1; p2; p3].
  Proof.
    intros Hin. pose proof (In_regexps4 r n Hin) as H. destruct (search s r 0) as [[[i j] c]|] eqn:Es; [|left; reflexivity]. right.
    destruct H as [(k & -> & -> & Hk)|[[-> ->]|[-> H]]].
    - exfalso. destruct (only_compact s a b Only k i j c Hin Es) as (_ & _ & N & _). rewrite E in N. apply Forall_app in N as [_ N]. inversion N as [|x l Hx _]; subst.
      rewrite (bis_nodigit c1 C1) in Hx. discriminate.
    - exfalso. pose proof (only_month s a b Only i j c Es) as L. rewrite E in L. pose proof (nondigits p1 c1 p2 c2 p3 P1 P2 P3). lia.
    - assert (G : forall m1 n1 f m2 n2 g m3 n3, m1 <= n1 -> m2 <= n2 -> m3 <= n3 -> (forall x, f x = true -> dsep_bis x = true) -> (forall x, g x = true -> dsep_bis x = true) ->
        r = numeric_re m1 n1 f m2 n2 g m3 n3 -> finds s a b r 3 [p1; p2; p3]).
      { intros m1 n1 f m2 n2 g m3 n3 L1 L2 L3 Hf Hg ->. 
        destruct (only_numeric s a b Only m1 n1 f m2 n2 g m3 n3 i j c Hin L1 L2 L3 Es) as (q1 & d1 & q2 & d2 & q3 & Hgr & Hm & E' & [N1 _] & [N2 _] & [N3 _] & D1 & D2).
        rewrite E in E'. apply same_numbers in E' as (-> & -> & -> & -> & ->); try assumption; try (apply bis_nodigit; assumption); try (apply dsep_nodigit'; auto).
        exists i, j, c. auto. }
      assert (W : forall x, dsep x = true -> dsep_bis x = true) by (intros x Hx; unfold dsep_bis; rewrite Hx; reflexivity).
      destruct H as [H|[H|[H|H]]]; (eapply G; [| | | | |exact H]; [lia|lia|lia|auto|auto]).
  Qed.
  (** and an expression of this shape does find them *)
  Lemma numbers_exist m1 n1 f m2 n2 g m3 n3 : number m1 n1 p1 -> number m2 n2 p2 -> number m3 n3 p3 -> f c1 = true -> g c2 = true ->
    search s (numeric_re m1 n1 f m2 n2 g m3 n3) 0 <> None.
  Proof.
    intros [_ L1] [_ L2] [_ L3] F G En. destruct Only as (Lb & [Da Db] & _).
    pose proof (slice_len s a b ltac:(lia)) as Le. rewrite E in Le. rewrite !app_length in Le. cbn [List.length] in Le.
    remember (a + List.length p1) as i1 eqn:D1. remember (S i1) as i2 eqn:D2. remember (i2 + List.length p2) as i3 eqn:D3. remember (S i3) as i4 eqn:D4.
    assert (Eb : b = i4 + List.length p3) by lia.
    assert (At : forall k, k < b - a -> nth_error s (a + k) = nth_error (slice a b s) k).
    { intros k Hk. rewrite slice_nth. destruct (Nat.ltb_spec k (b - a)); [reflexivity|lia]. }
    assert (A1 : all_in s is_digit a i1).
    { intros k Hk. replace (nth_error s k) with (nth_error s (a + (k - a))) by (f_equal; lia). rewrite At, E by lia. rewrite nth_error_app1 by lia.
      destruct (nth_error p1 (k - a)) as [x|] eqn:Ex; [|apply nth_error_None in Ex; lia]. exists x. split; [reflexivity|].
      unfold digits_only in P1. rewrite Forall_forall in P1. apply P1. eapply nth_error_In; eassumption. }
    assert (X1 : nth_error s i1 = Some c1).
    { rewrite D1, At, E by lia. rewrite nth_error_app2, Nat.sub_diag by lia. reflexivity. }
    assert (A2 : all_in s is_digit i2 i3).
    { intros k Hk. replace (nth_error s k) with (nth_error s (a + (k - a))) by (f_equal; lia). rewrite At, E by lia. rewrite nth_error_app2 by lia. rewrite nth_error_app2 by (cbn; lia). rewrite nth_error_app1 by (cbn; lia).
      cbn [List.length]. destruct (nth_error p2 (k - a - List.length p1 - 1)) as [x|] eqn:Ex; [|apply nth_error_None in Ex; lia]. exists x. split; [reflexivity|].
      unfold digits_only in P2. rewrite Forall_forall in P2. apply P2. eapply nth_error_In; eassumption. }
    assert (X2 : nth_error s i3 = Some c2).
    { replace (nth_error s i3) with (nth_error s (a + (i3 - a))) by (f_equal; lia). rewrite At, E by lia. rewrite nth_error_app2 by lia. rewrite nth_error_app2 by (cbn; lia). rewrite nth_error_app2 by (cbn; lia). cbn [List.length].
      replace (i3 - a - List.length p1 - 1 - List.length p2) with 0 by lia. reflexivity. }
    assert (A3 : all_in s is_digit i4 b).
    { intros k Hk. replace (nth_error s k) with (nth_error s (a + (k - a))) by (f_equal; lia). rewrite At, E by lia. rewrite nth_error_app2 by lia. rewrite nth_error_app2 by (cbn; lia). rewrite nth_error_app2 by (cbn; lia). rewrite nth_error_app2 by (cbn; lia).
      cbn [List.length]. destruct (nth_error p3 (k - a - List.length p1 - 1 - List.length p2 - 1)) as [x|] eqn:Ex; [|apply nth_error_None in Ex; lia]. exists x. split; [reflexivity|].
      unfold digits_only in P3. rewrite Forall_forall in P3. apply P3. eapply nth_error_In; eassumption. }
    assert (Hpost : exists j, forall c, M s post b c j c).
    { destruct (nth_error s b) as [x|] eqn:Ex.
      - exists (S b). intros c. apply M_alt_r. apply M_chr with x; [exact Ex|]. rewrite (Db x eq_refl). reflexivity.
      - exists b. intros c. apply M_alt_l, M_eol. unfold at_eol. apply nth_error_None in Ex. replace (b =? List.length s) with true by lia. reflexivity. }
    destruct Hpost as [j Hpost].
    assert (Hpre : exists i, i <= List.length s /\ M s pre i [] a []).
    { destruct a as [|a'] eqn:Ea; [exists 0; split; [lia|apply M_alt_l, M_bol]|]. exists a'. split; [lia|]. apply M_alt_r.
      destruct (nth_error s a') as [x|] eqn:Ex; [|apply nth_error_None in Ex; lia]. apply M_chr with x; [exact Ex|].
      rewrite (Da x ltac:(lia)); [reflexivity|]. cbn. rewrite Nat.sub_0_r. exact Ex. }
    destruct Hpre as (i & Li & Hpre).
    pose proof (search_spec s (numeric_re m1 n1 f m2 n2 g m3 n3) 0) as Hs. rewrite En in Hs.
    eapply (Hs i j _ ltac:(lia)). unfold numeric_re.
    eapply M_seq; [exact Hpre|]. eapply M_seq; [|apply Hpost]. apply M_grp.
    eapply M_seq; [apply M_grp, M_range_iff; [lia|split; [reflexivity|split; [|exact A1]; lia]]|].
    eapply M_seq; [apply M_chr with c1; [exact X1|exact F]|]. rewrite <- D2.
    eapply M_seq; [apply M_grp, M_range_iff; [lia|split; [reflexivity|split; [|exact A2]; lia]]|].
    eapply M_seq; [apply M_chr with c2; [exact X2|exact G]|]. rewrite <- D4.
    apply M_grp, M_range_iff; [lia|split; [reflexivity|split; [|exact A3]; lia]].
  Qed.
End OnlyNumbers.

(** the preferences in force for the groups [gs] *)
Definition day_first_for (year_first day_first : option bool) (gs : list str) : option bool :=
  let d := match year_first, day_first with Some true, None => Some false | _, _ => day_first end in
  match d with None => guess_day_first gs | _ => d end.
Definition orders (year_first day_first : option bool) : list (bool * bool) :=
  list_prod (match day_first with None => [true; false] | Some d => [d] end) (match year_first with None => [false; true] | Some y => [y] end).
Lemma loop_found D (year : D -> Z) parse s a b gs yf df d rs :
  (forall r n, In (r, n) rs -> search s r 0 = None \/ finds s a b r n gs) -> (exists r n, In (r, n) rs /\ search s r 0 <> None) ->
  first_plausible year parse (concat_with (lit "-") gs) (orders yf (day_first_for yf df gs)) = Some d ->
  date_loop year parse rs s yf df = Some (a, b, d).
Proof.
  induction rs as [|[r n] rest IH]; intros A (r0 & n0 & I0 & Ex) F; [destruct I0|]. cbn [date_loop].
  destruct (A r n (or_introl eq_refl)) as [En|(i & j & c & Es & Eg & Em)].
  - rewrite En. apply IH; [intros r1 n1 H1; apply A; right; exact H1| |exact F].
    destruct I0 as [I0|I0]; [injection I0 as <- <-; contradiction|eauto].
  - rewrite Es, Eg, Em. 
    change (match first_plausible year parse (concat_with (lit "-") gs) (orders yf (day_first_for yf df gs)) with Some d => Some (a, b, d) | None => date_loop year parse rest s yf (day_first_for yf df gs) end = Some (a, b, d)).
    rewrite F. reflexivity.
Qed.

(** numbers joined by dashes *)
Lemma split_run p : digits_only p -> forall r cur, split_dash (p ++ 45%N :: r) cur = (cur ++ p) :: split_dash r [].
Proof.
  induction 1 as [|x p Hx P IH]; intros r cur; cbn [app split_dash]; [rewrite app_nil_r; reflexivity|].
  destruct (N.eqb_spec x 45) as [->|_]; [discriminate Hx|]. rewrite IH, <- app_assoc. reflexivity.
Qed.
Lemma split_last p : digits_only p -> forall cur, split_dash p cur = [cur ++ p].
Proof.
  induction 1 as [|x p Hx P IH]; intros cur; cbn [split_dash]; [rewrite app_nil_r; reflexivity|].
  destruct (N.eqb_spec x 45) as [->|_]; [discriminate Hx|]. rewrite IH, <- app_assoc. reflexivity.
Qed.
Lemma split_numbers p1 p2 p3 : digits_only p1 -> digits_only p2 -> digits_only p3 -> split_dash (concat_with (lit "-") [p1; p2; p3]) [] = [p1; p2; p3].
Proof.
  intros P1 P2 P3. cbn [concat_with flat_map]. rewrite app_nil_r, <- app_assoc. change (lit "-") with [45%N]. cbn [app].
  rewrite split_run, split_run, split_last by assumption. reflexivity.
Qed.
Lemma is_int_digits p : digits_only p -> p <> [] -> is_int p = true.
Proof. intros P H. destruct p as [|x p]; [congruence|]. unfold is_int. apply forallb_forall. unfold digits_only in P. rewrite Forall_forall in P. exact P. Qed.
Lemma number_int m n p : 0 < m -> number m n p -> is_int p = true.
Proof. intros L [P N]. apply is_int_digits; [exact P|]. intros ->. cbn in N. lia. Qed.
Lemma digits_bound p : digits_only p -> (0 <= dec p < 10 ^ Z.of_nat (List.length p))%Z.
Proof.
  intros P. rewrite dec_decimal. induction P as [|x p Hx P IH]; cbn [decimal List.length]; [lia|].
  assert (D : (48 <= x <= 57)%N) by (unfold is_digit in Hx; lia).
  rewrite Nat2Z.inj_succ, Z.pow_succ_r by lia. nia.
Qed.
Lemma two_digits p : number 1 2 p -> (0 <= dec p < 100)%Z.
Proof. intros [P L]. pose proof (digits_bound p P) as B. assert (Datatypes.length p = 1 \/ Datatypes.length p = 2) as [E|E] by lia; rewrite E in B; change (10 ^ Z.of_nat 1)%Z with 10%Z in B; change (10 ^ Z.of_nat 2)%Z with 100%Z in B; lia. Qed.
Lemma ymd_numbers p1 p2 p3 : digits_only p1 -> digits_only p2 -> digits_only p3 -> 1 <= List.length p1 <= 4 -> p2 <> [] -> p3 <> [] ->
  ymd_of (concat_with (lit "-") [p1; p2; p3]) =
  Some (match ymd_append p1 ymd_nil with Some y => match ymd_append p2 y with Some y => ymd_append p3 y | None => None end | None => None end).
Proof.
  intros P1 P2 P3 L N2 N3. unfold ymd_of. rewrite split_numbers by assumption. rewrite !is_int_digits by (assumption || (intros ->; cbn in L; lia)).
  replace (Datatypes.length p1 <? 5) with true by lia. reflexivity.
Qed.
Lemma append_short p y : number 1 2 p -> ymd_append p y = Some (mk_ymd (ymd_values y ++ [dec p]) (ymd_century y) (ymd_year y)).
Proof. intros [_ L]. unfold ymd_append. replace (2 <? Datatypes.length p) with false by lia. reflexivity. Qed.
Lemma append_long p y : number 4 4 p -> ymd_year y = None -> ymd_append p y = Some (mk_ymd (ymd_values y ++ [dec p]) true (Some (List.length (ymd_values y)))).
Proof. intros [_ L] E. unfold ymd_append. replace (2 <? Datatypes.length p) with true by lia. rewrite E. reflexivity. Qed.
Lemma number_facts m n p : 0 < m -> number m n p -> digits_only p /\ m <= List.length p <= n /\ p <> [].
Proof. intros L [P N]. split; [exact P|]. split; [exact N|]. intros ->. cbn in N. lia. Qed.
Ltac facts := repeat match goal with H : number ?m ?n ?p |- _ => lazymatch goal with _ : digits_only p |- _ => fail | _ => destruct (number_facts m n p ltac:(lia) H) as (? & ? & ?) end end.
Lemma ymd_long_first p1 p2 p3 : number 4 4 p1 -> number 1 2 p2 -> number 1 2 p3 ->
  ymd_of (concat_with (lit "-") [p1; p2; p3]) = Some (Some (mk_ymd [dec p1; dec p2; dec p3] true (Some 0))).
Proof.
  intros N1 N2 N3. facts. rewrite ymd_numbers by (assumption || lia). rewrite append_long by (assumption || reflexivity). rewrite !append_short by assumption. reflexivity.
Qed.
Lemma ymd_long_last p1 p2 p3 : number 1 2 p1 -> number 1 2 p2 -> number 4 4 p3 ->
  ymd_of (concat_with (lit "-") [p1; p2; p3]) = Some (Some (mk_ymd [dec p1; dec p2; dec p3] true (Some 2))).
Proof.
  intros N1 N2 N3. facts. rewrite ymd_numbers by (assumption || lia). rewrite !append_short by assumption. rewrite append_long by (assumption || reflexivity). reflexivity.
Qed.
Lemma ymd_short p1 p2 p3 : number 1 2 p1 -> number 1 2 p2 -> number 1 2 p3 ->
  ymd_of (concat_with (lit "-") [p1; p2; p3]) = Some (Some (mk_ymd [dec p1; dec p2; dec p3] false None)).
Proof.
  intros N1 N2 N3. facts. rewrite ymd_numbers by (assumption || lia). rewrite !append_short by assumption. reflexivity.
Qed.
Lemma valid_plausible y : valid_year y = true <-> plausible y.
Proof. unfold valid_year, plausible. lia. Qed.
Lemma century_year now y : convertyear now y true = y.
Proof. unfold convertyear. rewrite Bool.andb_false_r. reflexivity. Qed.

(** the first order tried is kept when it gives a real and plausible date *)
Lemma plausible_first now other text y df yf opts ys ms ds :
  ymd_of text = Some (Some y) -> resolve_ymd y yf df = Some (ys, ms, ds) -> real_date (convertyear now ys (ymd_century y)) ms ds -> plausible (convertyear now ys (ymd_century y)) ->
  first_plausible date_year (dateutil_parse now other) text ((df, yf) :: opts) = Some (convertyear now ys (ymd_century y), ms, ds).
Proof.
  intros E R D P. cbn [first_plausible]. unfold dateutil_parse. rewrite E, R. rewrite (proj2 (real_iff _ _ _) D).
  cbn [date_year fst]. rewrite (proj2 (valid_plausible _) P). reflexivity.
Qed.

Section Found.
  Context (now : Z) (other : str -> bool -> bool -> option (Z * Z * Z)) (s : str) (a b : nat) (Only : only_date s a b).
  Context (p1 p2 p3 : str).
  Lemma numbers_read sp1 sp2 yf df d r m1 n1 f m2 n2 g m3 n3 :
    numbers s a b sp1 sp2 p1 p2 p3 -> (forall c, In c sp1 -> f c = true) -> (forall c, In c sp2 -> g c = true) ->
    (forall c, f c = true -> dsep_bis c = true) -> (forall c, g c = true -> dsep_bis c = true) ->
    0 < m1 -> 0 < m2 -> 0 < m3 ->
    number m1 n1 p1 -> number m2 n2 p2 -> number m3 n3 p3 -> r = numeric_re m1 n1 f m2 n2 g m3 n3 -> In (r, 3) date_regexps ->
    first_plausible date_year (dateutil_parse now other) (concat_with (lit "-") [p1; p2; p3]) (orders yf (day_first_for yf df [p1; p2; p3])) = Some d ->
    find_date now other s yf df = Some (a, b, d).
  Proof.
    intros (c1 & c2 & I1 & I2 & E) F G F' G' Z1 Z2 Z3 N1 N2 N3 -> Hin Hd. unfold find_date, search_date. facts. apply loop_found with (gs := [p1; p2; p3]); [| |exact Hd].
    - intros r n Hr. apply (numbers_found s a b Only p1 c1 p2 c2 p3 E); try assumption; apply dsep_bis_In; auto.
    - exists (numeric_re m1 n1 f m2 n2 g m3 n3), 3. split; [exact Hin|].
      apply (numbers_exist s a b Only p1 c1 p2 c2 p3 E); auto.
  Qed.
End Found.
Lemma dsep_of c : In c (lit "-/ .") -> dsep c = true.
Proof. apply cmem_In. Qed.
Lemma dsep_bis_of c : In c (lit "-/ .xX") -> dsep_bis c = true.
Proof. intros H. unfold dsep_bis, dsep. rewrite Bool.orb_true_iff, !cmem_In. vm_compute in H |- *. tauto. Qed.
Lemma dsep_is_bis c : dsep c = true -> dsep_bis c = true.
Proof. intros H. unfold dsep_bis. rewrite H. reflexivity. Qed.

Lemma orders_told yf d : exists y opts, orders yf (Some d) = (d, y) :: opts /\ (forall z, yf = Some z -> y = z) /\ (yf = None -> y = false).
Proof. destruct yf as [z|]; cbn; repeat eexists; congruence. Qed.
Lemma take_last_all n (p : str) : List.length p <= n -> take_last n p = p.
Proof. intros L. unfold take_last. replace (Datatypes.length p - n) with 0 by lia. reflexivity. Qed.

(** C107: in "2002-04-22" the year comes first and the month second. *)
Theorem C107_year_first : forall now other s a b p1 p2 p3 year_first day_first,
  only_date s a b -> numbers s a b (lit "-/ .xX") (lit "-/ .") p1 p2 p3 -> number 4 4 p1 -> number 1 2 p2 -> number 1 2 p3 ->
  day_first <> Some true -> plausible (decimal p1) -> real_date (decimal p1) (decimal p2) (decimal p3) ->
  find_date now other s year_first day_first = Some (a, b, (decimal p1, decimal p2, decimal p3)).
Proof.
  intros now other s a b p1 p2 p3 yf df Only W N1 N2 N3 Hdf Pl Re.
  eapply (numbers_read now other s a b Only p1 p2 p3 _ _ _ _ _ _ 4 4 dsep_bis 1 2 dsep 1 2);
    [exact W|exact dsep_bis_of|exact dsep_of|auto|exact dsep_is_bis|lia|lia|lia|exact N1|exact N2|exact N3|reflexivity|unfold date_regexps; cbn [In]; auto 10|].
  assert (Ed : day_first_for yf df [p1; p2; p3] = Some false).
  { unfold day_first_for. assert (Eg : guess_day_first [p1; p2; p3] = Some false).
    { unfold guess_day_first. cbn [hd]. rewrite (number_int 4 4 p1 ltac:(lia) N1). unfold int_of. rewrite firstn_all2 by (destruct N1; lia). rewrite dec_decimal, (proj2 (valid_plausible _) Pl). reflexivity. }
    destruct df as [[]|]; [congruence|destruct yf as [[]|]; reflexivity|destruct yf as [[]|]; rewrite ?Eg; reflexivity]. }
  rewrite Ed. destruct (orders_told yf false) as (y & opts & -> & _). rewrite <- !dec_decimal in *.
  erewrite plausible_first with (ys := dec p1) (ms := dec p2) (ds := dec p3); [|apply ymd_long_first; assumption| | |]; cbn [ymd_century]; rewrite ?century_year; try reflexivity; try assumption.
  unfold resolve_ymd. cbn [ymd_values ymd_year]. rewrite Bool.orb_true_r. reflexivity.
Qed.
Print Assumptions C107_year_first.
(** C107: when the caller says that the day comes first, it is the day that is second, if the third number may be a month. *)
Theorem C107_year_day : forall now other s a b p1 p2 p3 year_first,
  only_date s a b -> numbers s a b (lit "-/ .xX") (lit "-/ .") p1 p2 p3 -> number 4 4 p1 -> number 1 2 p2 -> number 1 2 p3 -> plausible (decimal p1) ->
  (real_date (decimal p1) (decimal p3) (decimal p2) -> find_date now other s year_first (Some true) = Some (a, b, (decimal p1, decimal p3, decimal p2))) /\
  ((12 < decimal p3)%Z -> real_date (decimal p1) (decimal p2) (decimal p3) -> find_date now other s year_first (Some true) = Some (a, b, (decimal p1, decimal p2, decimal p3))).
Proof.
  intros now other s a b p1 p2 p3 yf Only W N1 N2 N3 Pl.
  assert (K : forall d, first_plausible date_year (dateutil_parse now other) (concat_with (lit "-") [p1; p2; p3]) (orders yf (Some true)) = Some d -> find_date now other s yf (Some true) = Some (a, b, d)).
  { intros d Hd. eapply (numbers_read now other s a b Only p1 p2 p3 _ _ _ _ _ _ 4 4 dsep_bis 1 2 dsep 1 2);
    [exact W|exact dsep_bis_of|exact dsep_of|auto|exact dsep_is_bis|lia|lia|lia|exact N1|exact N2|exact N3|reflexivity|unfold date_regexps; cbn [In]; auto 10|].
    replace (day_first_for yf (Some true) [p1; p2; p3]) with (Some true) by (destruct yf as [[]|]; reflexivity). exact Hd. }
  rewrite <- !dec_decimal in *.
  split.
  - intros Re. apply K. destruct (orders_told yf true) as (y & opts & -> & _).
    erewrite plausible_first with (ys := dec p1) (ms := dec p3) (ds := dec p2); [|apply ymd_long_first; assumption| | |]; cbn [ymd_century]; rewrite ?century_year; try reflexivity; try assumption.
    unfold resolve_ymd. cbn [ymd_values ymd_year]. rewrite Bool.orb_true_r. pose proof (real_month _ _ _ Re). replace (dec p3 <=? 12)%Z with true by lia. reflexivity.
  - intros L Re. apply K. destruct (orders_told yf true) as (y & opts & -> & _).
    erewrite plausible_first with (ys := dec p1) (ms := dec p2) (ds := dec p3); [|apply ymd_long_first; assumption| | |]; cbn [ymd_century]; rewrite ?century_year; try reflexivity; try assumption.
    unfold resolve_ymd. cbn [ymd_values ymd_year]. rewrite Bool.orb_true_r. replace (dec p3 <=? 12)%Z with false by lia. reflexivity.
Qed.
Print Assumptions C107_year_day.

(** C107: in "17-06-1998" the day comes first, unless the caller says that it does not, or that the year comes first; in every case a number over 12 is not a month. *)
Definition american (year_first day_first : option bool) : Prop := day_first = Some false \/ day_first = None /\ year_first = Some true.
Theorem C107_year_last : forall now other s a b p1 p2 p3 year_first day_first,
  only_date s a b -> numbers s a b (lit "-/ .") (lit "-/ .xX") p1 p2 p3 -> number 1 2 p1 -> number 1 2 p2 -> number 4 4 p3 -> plausible (decimal p3) ->
  (real_date (decimal p3) (decimal p2) (decimal p1) -> (~ american year_first day_first \/ (12 < decimal p1)%Z) ->
     find_date now other s year_first day_first = Some (a, b, (decimal p3, decimal p2, decimal p1))) /\
  (real_date (decimal p3) (decimal p1) (decimal p2) -> (american year_first day_first \/ (12 < decimal p2)%Z) ->
     find_date now other s year_first day_first = Some (a, b, (decimal p3, decimal p1, decimal p2))).
Proof.
  intros now other s a b p1 p2 p3 yf df Only W N1 N2 N3 Pl.
  assert (K : forall d, first_plausible date_year (dateutil_parse now other) (concat_with (lit "-") [p1; p2; p3]) (orders yf (day_first_for yf df [p1; p2; p3])) = Some d -> find_date now other s yf df = Some (a, b, d)).
  { intros d Hd. eapply (numbers_read now other s a b Only p1 p2 p3 _ _ _ _ _ _ 1 2 dsep 1 2 dsep_bis 4 4);
    [exact W|exact dsep_of|exact dsep_bis_of|exact dsep_is_bis|auto|lia|lia|lia|exact N1|exact N2|exact N3|reflexivity|unfold date_regexps; cbn [In]; auto 10|exact Hd]. }
  rewrite <- !dec_decimal in *.
  pose proof (two_digits p1 N1) as B1. pose proof (two_digits p2 N2) as B2.
  assert (Ed : exists d, day_first_for yf df [p1; p2; p3] = Some d /\ (american yf df <-> d = false)).
  { assert (Eg : guess_day_first [p1; p2; p3] = Some true).
    { unfold guess_day_first. cbn [hd last]. rewrite (number_int 1 2 p1 ltac:(lia) N1), (number_int 4 4 p3 ltac:(lia) N3). unfold int_of. rewrite firstn_all2 by (destruct N1; lia). rewrite take_last_all by (destruct N3; lia).
      rewrite (proj2 (valid_plausible _) Pl). replace (valid_year (dec p1)) with false by (unfold valid_year; lia). reflexivity. }
    unfold day_first_for, american. destruct df as [[]|], yf as [[]|]; [exists true|exists true|exists true|exists false|exists false|exists false|exists false|exists true|exists true]; rewrite ?Eg;
      (split; [reflexivity|]); (split; [intros [Q|[Q Q']]; congruence|intros Q; try congruence; auto]). }
  destruct Ed as (d & Ed & Am).
  assert (Y : (31 <? dec p3)%Z = true) by (unfold plausible in Pl; lia).
  split; intros Re Or; apply K; rewrite Ed; destruct (orders_told yf d) as (y & opts & -> & _).
  - erewrite plausible_first with (ys := dec p3) (ms := dec p2) (ds := dec p1); [|apply ymd_long_last; assumption| | |]; cbn [ymd_century]; rewrite ?century_year; try reflexivity; try assumption.
    unfold resolve_ymd. cbn [ymd_values ymd_year]. pose proof (real_month _ _ _ Re). replace (31 <? dec p1)%Z with false by lia. replace (dec p3 <=? 31)%Z with false by (unfold plausible in Pl; lia). rewrite Bool.andb_false_r. cbn [orb].
    replace (dec p2 <=? 12)%Z with true by lia. destruct d; [rewrite Bool.orb_true_r; reflexivity|]. destruct Or as [Or|Or]; [destruct Or; apply Am; reflexivity|]. replace (12 <? dec p1)%Z with true by lia. reflexivity.
  - erewrite plausible_first with (ys := dec p3) (ms := dec p1) (ds := dec p2); [|apply ymd_long_last; assumption| | |]; cbn [ymd_century]; rewrite ?century_year; try reflexivity; try assumption.
    unfold resolve_ymd. cbn [ymd_values ymd_year]. pose proof (real_month _ _ _ Re). replace (31 <? dec p1)%Z with false by lia. replace (dec p3 <=? 31)%Z with false by (unfold plausible in Pl; lia). rewrite Bool.andb_false_r. cbn [orb].
    replace (12 <? dec p1)%Z with false by lia. cbn [orb]. destruct Or as [Or|Or]; [apply Am in Or; subst d; reflexivity|]. replace (dec p2 <=? 12)%Z with false by lia. rewrite Bool.andb_false_r. reflexivity.
Qed.
Print Assumptions C107_year_last.

(** C107: a year of two digits is the nearest one. With year_first, "02.04.22" is in 2002; without it, the day comes first and "17.06.98" is in 1998. *)
Theorem C107_short_year_first : forall now other s a b p1 p2 p3 day_first y,
  only_date s a b -> numbers s a b (lit "-/ .") (lit "-/ .") p1 p2 p3 -> number 2 2 p1 -> number 1 2 p2 -> number 1 2 p3 -> day_first <> Some true ->
  nearest now (decimal p1) y -> plausible y -> real_date y (decimal p2) (decimal p3) ->
  find_date now other s (Some true) day_first = Some (a, b, (y, decimal p2, decimal p3)).
Proof.
  intros now other s a b p1 p2 p3 df y Only W N1 N2 N3 Hdf Ny Pl Re.
  eapply (numbers_read now other s a b Only p1 p2 p3 _ _ _ _ _ _ 2 2 dsep 1 2 dsep 1 2);
    [exact W|exact dsep_of|exact dsep_of|exact dsep_is_bis|exact dsep_is_bis|lia|lia|lia|exact N1|exact N2|exact N3|reflexivity|unfold date_regexps; cbn [In]; auto 10|].
  replace (day_first_for (Some true) df [p1; p2; p3]) with (Some false) by (destruct df as [[]|]; [congruence|reflexivity|reflexivity]).
  change (orders (Some true) (Some false)) with [(false, true)]. rewrite <- !dec_decimal in *.
  assert (N1' : number 1 2 p1) by (destruct N1 as [A B]; split; [exact A|lia]). pose proof (two_digits p1 N1').
  apply nearest_iff in Ny; [|assumption]. subst y.
  erewrite plausible_first with (ys := dec p1) (ms := dec p2) (ds := dec p3); [|apply ymd_short; assumption| | |]; cbn [ymd_century]; try reflexivity; try assumption.
  unfold resolve_ymd. cbn [ymd_values ymd_year]. pose proof (real_month _ _ _ Re). replace (dec p2 <=? 12)%Z with true by lia. replace (dec p3 <=? 31)%Z with true by lia. rewrite Bool.orb_true_r. reflexivity.
Qed.
Print Assumptions C107_short_year_first.
Theorem C107_short_year_last : forall now other s a b p1 p2 p3 year_first day_first y,
  only_date s a b -> numbers s a b (lit "-/ .") (lit "-/ .") p1 p2 p3 -> number 1 2 p1 -> number 1 2 p2 -> number 2 2 p3 -> day_first <> Some false -> year_first <> Some true ->
  nearest now (decimal p3) y -> plausible y -> real_date y (decimal p2) (decimal p1) ->
  find_date now other s year_first day_first = Some (a, b, (y, decimal p2, decimal p1)).
Proof.
  intros now other s a b p1 p2 p3 yf df y Only W N1 N2 N3 Hdf Hyf Ny Pl Re.
  eapply (numbers_read now other s a b Only p1 p2 p3 _ _ _ _ _ _ 1 2 dsep 1 2 dsep 2 2);
    [exact W|exact dsep_of|exact dsep_of|exact dsep_is_bis|exact dsep_is_bis|lia|lia|lia|exact N1|exact N2|exact N3|reflexivity|unfold date_regexps; cbn [In]; auto 10|].
  rewrite <- !dec_decimal in *. assert (N3' : number 1 2 p3) by (destruct N3 as [A B]; split; [exact A|lia]). pose proof (two_digits p3 N3'). pose proof (two_digits p1 N1). pose proof (real_month _ _ _ Re).
  assert (Ed : exists opts, orders yf (day_first_for yf df [p1; p2; p3]) = (true, false) :: opts).
  { assert (Eg : guess_day_first [p1; p2; p3] <> Some false).
    { unfold guess_day_first. cbn [hd last]. rewrite (number_int 1 2 p1 ltac:(lia) N1), (number_int 2 2 p3 ltac:(lia) N3). unfold int_of. rewrite !firstn_all2 by (destruct N1; lia). rewrite !take_last_all by (destruct N3; lia).
      replace (valid_year (dec p1)) with false by (unfold valid_year; lia). replace (valid_year (dec p3)) with false by (unfold valid_year; lia). replace (31 <? dec p1)%Z with false by lia. cbn [andb]. destruct (31 <? dec p3)%Z; congruence. }
    unfold day_first_for, orders. destruct df as [[]|]; [destruct yf as [[]|]; [congruence|eexists; reflexivity..]|congruence|].
    destruct yf as [[]|]; [congruence| |]; destruct (guess_day_first [p1; p2; p3]) as [[]|]; try congruence; eexists; reflexivity. }
  destruct Ed as (opts & ->). apply nearest_iff in Ny; [|assumption]. subst y.
  erewrite plausible_first with (ys := dec p3) (ms := dec p2) (ds := dec p1); [|apply ymd_short; assumption| | |]; cbn [ymd_century]; try reflexivity; try assumption.
  unfold resolve_ymd. cbn [ymd_values ymd_year]. replace (31 <? dec p1)%Z with false by lia. replace (dec p2 <=? 12)%Z with true by lia. cbn [orb andb]. rewrite Bool.orb_true_r. reflexivity.
Qed.
Print Assumptions C107_short_year_last.

(** * runs of digits *)
(** between two separators of a date *)
Definition between (s : str) (a b : nat) : Prop :=
  exists c c', 0 < a /\ nth_error s (a - 1) = Some c /\ In c (lit "-/ .") /\ nth_error s b = Some c' /\ In c' (lit "-/ .").
Section OnlyRun.
  Context (s : str) (a b : nat) (Only : only_date s a b) (u : str) (k : nat).
  Context (E : slice a b s = u) (U : number k k u) (K : k = 6 \/ k = 8).
  Lemma run_found r n : In (r, n) date_regexps -> search s r 0 = None \/ finds s a b r n [u].
  Proof.
    intros Hin. pose proof (In_regexps4 r n Hin) as H. destruct (search s r 0) as [[[i j] c]|] eqn:Es; [|left; reflexivity]. right. destruct U as [P L].
    destruct H as [(k' & -> & -> & Hk)|[[-> ->]|[-> H]]].
    - destruct (only_compact s a b Only k' i j c Hin Es) as (Hg & Hm & _). exists i, j, c. rewrite <- E. auto.
    - exfalso. pose proof (only_month s a b Only i j c Es) as L'. rewrite E in L'.
      replace (filter is_alpha u) with (@nil N) in L'; [cbn in L'; lia|]. clear - P. induction P as [|x p Hx _ IH]; cbn [filter]; [reflexivity|]. replace (is_alpha x) with false; [exact IH|].
      unfold is_alpha, is_upper, is_lower, is_digit in *. lia.
    - exfalso. assert (G : forall m1 n1 f m2 n2 g m3 n3, m1 <= n1 -> m2 <= n2 -> m3 <= n3 -> (forall x, f x = true -> dsep_bis x = true) -> r = numeric_re m1 n1 f m2 n2 g m3 n3 -> False).
      { intros m1 n1 f m2 n2 g m3 n3 L1 L2 L3 Hf ->.
        destruct (only_numeric s a b Only m1 n1 f m2 n2 g m3 n3 i j c Hin L1 L2 L3 Es) as (q1 & d1 & q2 & d2 & q3 & _ & _ & E' & _ & _ & _ & D1 & _).
        rewrite E in E'. subst u. rewrite E' in P. apply Forall_app in P as [_ P]. inversion P as [|x l Hx _]; subst. rewrite (dsep_nodigit' d1 (Hf d1 D1)) in Hx. discriminate. }
      destruct H as [H|[H|[H|H]]]; (eapply G; [| | | |exact H]; [lia|lia|lia|auto using dsep_is_bis]).
  Qed.
  Lemma run_exists : between s a b -> search s (compact_re k) 0 <> None.
  Proof.
    intros (c & c' & La & Xa & Ca & Xb & Cb) En. destruct Only as (Lb & _ & _). destruct U as [P L].
    pose proof (slice_len s a b ltac:(lia)) as Le. rewrite E in Le.
    pose proof (search_spec s (compact_re k) 0) as Hs. rewrite En in Hs. eapply (Hs (a - 1) (S b) _ ltac:(lia)). unfold compact_re.
    eapply M_seq; [apply M_chr with c; [exact Xa|apply dsep_of, Ca]|]. replace (S (a - 1)) with a by lia.
    eapply M_seq; [|apply M_chr with c'; [exact Xb|apply dsep_of, Cb]]. apply M_grp, M_grp, M_range_iff; [lia|]. split; [reflexivity|]. split; [lia|].
    apply all_in_forall; [lia|]. rewrite E. unfold digits_only in P. rewrite Forall_forall in P. exact P.
  Qed.
  Lemma run_read now other yf df d : between s a b ->
    first_plausible date_year (dateutil_parse now other) u (orders yf (day_first_for yf df [u])) = Some d -> find_date now other s yf df = Some (a, b, d).
  Proof.
    intros Bt Hd. unfold find_date, search_date. apply loop_found with (gs := [u]); [exact run_found| |].
    - exists (compact_re k), 1. split; [destruct K; subst k; unfold date_regexps; cbn [In]; auto 10|exact (run_exists Bt)].
    - replace (concat_with (lit "-") [u]) with u by (cbn [concat_with flat_map]; rewrite app_nil_r; reflexivity). exact Hd.
  Qed.
End OnlyRun.
Lemma firstn_run {A} n (p q : list A) : List.length p = n -> firstn n (p ++ q) = p.
Proof. intros <-. rewrite firstn_app, Nat.sub_diag, firstn_all. apply app_nil_r. Qed.
Lemma skipn_run {A} n (p q : list A) : List.length p = n -> skipn n (p ++ q) = q.
Proof. intros <-. rewrite skipn_app, Nat.sub_diag, skipn_all. reflexivity. Qed.
Lemma two_short p : number 2 2 p -> number 1 2 p.
Proof. intros [A B]. split; [exact A|lia]. Qed.
Lemma run8 p1 p2 p3 : number 4 4 p1 -> number 2 2 p2 -> number 2 2 p3 -> number 8 8 (p1 ++ p2 ++ p3) /\
  ymd_of (p1 ++ p2 ++ p3) = Some (Some (mk_ymd [dec p1; dec p2; dec p3] true (Some 0))).
Proof.
  intros N1 N2 N3. pose proof (two_short p2 N2) as S2. pose proof (two_short p3 N3) as S3. destruct N1 as [P1 L1]. destruct N2 as [P2 L2], N3 as [P3 L3].
  assert (D : digits_only (p1 ++ p2 ++ p3)) by (apply Forall_app; split; [exact P1|apply Forall_app; split; assumption]).
  assert (L : List.length (p1 ++ p2 ++ p3) = 8) by (rewrite !app_length; lia).
  split; [split; [exact D|lia]|]. unfold ymd_of. rewrite split_last by exact D. cbn [app]. rewrite is_int_digits by (exact D || (intros X; rewrite X in L; discriminate)). rewrite L. cbn [Nat.eqb andb].
  rewrite firstn_run by lia. rewrite (skipn_run 4) by lia. rewrite firstn_run by lia.
  rewrite app_assoc, (skipn_run 6) by (rewrite app_length; lia). 
  rewrite append_long by (split; assumption || reflexivity). rewrite !append_short by assumption. reflexivity.
Qed.
Lemma run6 p1 p2 p3 : number 2 2 p1 -> number 2 2 p2 -> number 2 2 p3 -> number 6 6 (p1 ++ p2 ++ p3) /\
  ymd_of (p1 ++ p2 ++ p3) = Some (Some (mk_ymd [dec p1; dec p2; dec p3] false None)).
Proof.
  intros N1 N2 N3. pose proof (two_short p1 N1) as S1. pose proof (two_short p2 N2) as S2. pose proof (two_short p3 N3) as S3. destruct N1 as [P1 L1]. destruct N2 as [P2 L2], N3 as [P3 L3].
  assert (D : digits_only (p1 ++ p2 ++ p3)) by (apply Forall_app; split; [exact P1|apply Forall_app; split; assumption]).
  assert (L : List.length (p1 ++ p2 ++ p3) = 6) by (rewrite !app_length; lia).
  split; [split; [exact D|lia]|]. unfold ymd_of. rewrite split_last by exact D. cbn [app]. rewrite is_int_digits by (exact D || (intros X; rewrite X in L; discriminate)). rewrite L. cbn [Nat.eqb andb].
  rewrite firstn_run by lia. rewrite (skipn_run 2) by lia. rewrite firstn_run by lia.
  rewrite app_assoc, (skipn_run 4) by (rewrite app_length; lia).
  rewrite !append_short by assumption. reflexivity.
Qed.

(** C107: eight digits between separators are a year, a month and a day. *)
Theorem C107_eight_digits : forall now other s a b p1 p2 p3 year_first day_first,
  only_date s a b -> slice a b s = p1 ++ p2 ++ p3 -> between s a b -> number 4 4 p1 -> number 2 2 p2 -> number 2 2 p3 -> day_first <> Some true ->
  plausible (decimal p1) -> real_date (decimal p1) (decimal p2) (decimal p3) ->
  find_date now other s year_first day_first = Some (a, b, (decimal p1, decimal p2, decimal p3)).
Proof.
  intros now other s a b p1 p2 p3 yf df Only E Bt N1 N2 N3 Hdf Pl Re. destruct (run8 p1 p2 p3 N1 N2 N3) as [U Y].
  apply (run_read s a b Only (p1 ++ p2 ++ p3) 8 E U (or_intror eq_refl) now other yf df _ Bt).
  assert (Ed : day_first_for yf df [p1 ++ p2 ++ p3] = Some false).
  { assert (Eg : guess_day_first [p1 ++ p2 ++ p3] = Some false).
    { unfold guess_day_first. cbn [hd]. rewrite (number_int 8 8 _ ltac:(lia) U). unfold int_of. rewrite firstn_run by (destruct N1; lia). rewrite dec_decimal, (proj2 (valid_plausible _) Pl). reflexivity. }
    unfold day_first_for. destruct df as [[]|]; [congruence|destruct yf as [[]|]; reflexivity|destruct yf as [[]|]; rewrite ?Eg; reflexivity]. }
  rewrite Ed. destruct (orders_told yf false) as (y & opts & -> & _). rewrite <- !dec_decimal in *.
  erewrite plausible_first with (ys := dec p1) (ms := dec p2) (ds := dec p3); [|exact Y| | |]; cbn [ymd_century]; rewrite ?century_year; try reflexivity; try assumption.
  unfold resolve_ymd. cbn [ymd_values ymd_year]. rewrite Bool.orb_true_r. reflexivity.
Qed.
Print Assumptions C107_eight_digits.
(** C107: six digits between separators are a short year, a month and a day when the year is said to come first, and a day, a month and a short year when the day is. *)
Theorem C107_six_digits : forall now other s a b p1 p2 p3 y,
  only_date s a b -> slice a b s = p1 ++ p2 ++ p3 -> between s a b -> number 2 2 p1 -> number 2 2 p2 -> number 2 2 p3 -> plausible y ->
  (forall day_first, day_first <> Some true -> nearest now (decimal p1) y -> real_date y (decimal p2) (decimal p3) ->
     find_date now other s (Some true) day_first = Some (a, b, (y, decimal p2, decimal p3))) /\
  (forall year_first, year_first <> Some true -> nearest now (decimal p3) y -> real_date y (decimal p2) (decimal p1) ->
     find_date now other s year_first (Some true) = Some (a, b, (y, decimal p2, decimal p1))).
Proof.
  intros now other s a b p1 p2 p3 y Only E Bt N1 N2 N3 Pl. destruct (run6 p1 p2 p3 N1 N2 N3) as [U Y]. rewrite <- !dec_decimal.
  pose proof (two_digits p1 (two_short p1 N1)) as B1. pose proof (two_digits p3 (two_short p3 N3)) as B3.
  split.
  - intros df Hdf Ny Re. apply (run_read s a b Only (p1 ++ p2 ++ p3) 6 E U (or_introl eq_refl) now other _ df _ Bt).
    replace (day_first_for (Some true) df [p1 ++ p2 ++ p3]) with (Some false) by (destruct df as [[]|]; [congruence|reflexivity|reflexivity]).
    change (orders (Some true) (Some false)) with [(false, true)]. apply nearest_iff in Ny; [|assumption]. subst y.
    erewrite plausible_first with (ys := dec p1) (ms := dec p2) (ds := dec p3); [|exact Y| | |]; cbn [ymd_century]; try reflexivity; try assumption.
    unfold resolve_ymd. cbn [ymd_values ymd_year]. pose proof (real_month _ _ _ Re). replace (dec p2 <=? 12)%Z with true by lia. replace (dec p3 <=? 31)%Z with true by lia. rewrite Bool.orb_true_r. reflexivity.
  - intros yf Hyf Ny Re. apply (run_read s a b Only (p1 ++ p2 ++ p3) 6 E U (or_introl eq_refl) now other yf _ _ Bt).
    replace (day_first_for yf (Some true) [p1 ++ p2 ++ p3]) with (Some true) by (destruct yf as [[]|]; reflexivity).
    destruct (orders_told yf true) as (y' & opts & -> & Hy & Hy'). apply nearest_iff in Ny; [|assumption]. subst y.
    assert (y' = false) by (destruct yf as [[]|]; [congruence|auto|auto]). subst y'.
    erewrite plausible_first with (ys := dec p3) (ms := dec p2) (ds := dec p1); [|exact Y| | |]; cbn [ymd_century]; try reflexivity; try assumption.
    unfold resolve_ymd. cbn [ymd_values ymd_year]. pose proof (real_month _ _ _ Re). replace (31 <? dec p1)%Z with false by lia. replace (dec p2 <=? 12)%Z with true by lia. cbn [orb andb]. rewrite Bool.orb_true_r. reflexivity.
Qed.
Print Assumptions C107_six_digits.

(** * the only date *)
Definition nd (u : str) : nat := List.length (filter (fun c => negb (is_digit c)) u).
Lemma nd_app u v : nd (u ++ v) = nd u + nd v.
Proof. unfold nd. rewrite filter_app, app_length. reflexivity. Qed.
Lemma nd_digits u : digits_only u <-> nd u = 0.
Proof.
  unfold nd. split; [induction 1 as [|x u Hx _ IH]; cbn [filter]; [reflexivity|]; rewrite Hx; exact IH|].
  induction u as [|x u IH]; cbn [filter]; intros H; [constructor|]. destruct (is_digit x) eqn:Ex; cbn [negb List.length] in H; [constructor; [exact Ex|apply IH, H]|discriminate].
Qed.
Lemma alpha_nondigit (l : str) : Forall (fun c => is_alpha c = true) l -> nd l = List.length l.
Proof.
  unfold nd. induction 1 as [|x l Hx _ IH]; cbn [filter List.length]; [reflexivity|]. replace (is_digit x) with false; [cbn [negb List.length]; rewrite IH; reflexivity|].
  unfold is_alpha, is_upper, is_lower, is_digit in *. lia.
Qed.
(** a date begins and ends with a digit; its other characters are none, two, or five and more *)
Lemma date_shape u t : date_text u t ->
  (exists x r, u = x :: r /\ is_digit x = true) /\ (exists x r, u = r ++ [x] /\ is_digit x = true) /\ (nd u = 0 /\ 6 <= List.length u \/ nd u = 2 \/ 5 <= nd u).
Proof.
  assert (Hd : forall p q : str, digits_only p -> p <> [] -> exists x r, p ++ q = x :: r /\ is_digit x = true).
  { intros p q P N. destruct P as [|x p Hx P]; [congruence|]. exists x, (p ++ q). auto. }
  assert (Tl : forall q p : str, digits_only p -> p <> [] -> exists x r, q ++ p = r ++ [x] /\ is_digit x = true).
  { intros q p P N. destruct (exists_last N) as (p' & x & ->). apply Forall_app in P as [_ P]. inversion P; subst. exists x, (q ++ p'). rewrite app_assoc. auto. }
  intros H. destruct H as [u [P L]|u [P L]|m1 n1 m2 n2 m3 n3 p1 c1 p2 c2 p3 Hin [P1 L1] [P2 L2] [P3 L3] C1 C2|d o c1 m c2 y [Pd Ld] Ho C1 Hm Lm C2 [Py Ly]].
  - assert (u <> []) by (intros ->; cbn in L; lia). split; [rewrite <- (app_nil_r u); apply Hd; assumption|]. split; [apply (Tl []); assumption|]. left. split; [apply nd_digits, P|lia].
  - assert (u <> []) by (intros ->; cbn in L; lia). split; [rewrite <- (app_nil_r u); apply Hd; assumption|]. split; [apply (Tl []); assumption|]. left. split; [apply nd_digits, P|lia].
  - assert (Z : m1 > 0 /\ m3 > 0) by (cbn [In] in Hin; repeat (destruct Hin as [Hin|Hin]; [injection Hin as <- <- <- <- <- <-; lia|]); destruct Hin).
    assert (p1 <> []) by (intros ->; cbn in L1; lia). assert (p3 <> []) by (intros ->; cbn in L3; lia).
    split; [apply Hd; assumption|]. split; [rewrite !app_assoc; apply Tl; assumption|]. right. left. rewrite !nd_app, (proj1 (nd_digits p1) P1), (proj1 (nd_digits p2) P2), (proj1 (nd_digits p3) P3).
    unfold nd. cbn [filter]. rewrite (bis_nodigit c1 C1), (bis_nodigit c2 C2). reflexivity.
  - assert (d <> []) by (intros ->; cbn in Ld; lia). assert (y <> []) by (intros ->; cbn in Ly; lia).
    split; [apply Hd; assumption|]. split; [rewrite !app_assoc; apply Tl; assumption|]. right. right. rewrite !nd_app, (alpha_nondigit m Hm).
    unfold nd at 3 4. cbn [filter]. rewrite (bis_nodigit c1), (bis_nodigit c2) by (apply plain_bis; assumption). cbn [negb List.length]. lia.
Qed.
(** C107: when a name has no other digit than those of the three numbers, they are its only date; likewise for a run of digits. *)
Definition no_other_digit (s : str) (a b : nat) : Prop := forall k c, nth_error s k = Some c -> is_digit c = true -> a <= k < b.
Lemma inside_digits s a b a' b' : no_other_digit s a b -> a' < b' <= List.length s -> (exists x r, slice a' b' s = x :: r /\ is_digit x = true) -> (exists x r, slice a' b' s = r ++ [x] /\ is_digit x = true) -> a <= a' /\ b' <= b.
Proof.
  intros No L (x & r & E & Hx) (y & q & E' & Hy). pose proof (slice_len s a' b' ltac:(lia)) as Le. split.
  - pose proof (slice_nth a' b' s 0) as H. rewrite E in H. cbn [nth_error] in H. destruct (Nat.ltb_spec 0 (b' - a')); [|lia]. rewrite Nat.add_0_r in H. pose proof (No _ _ (eq_sym H) Hx). lia.
  - pose proof (slice_nth a' b' s (b' - 1 - a')) as H. rewrite E' in H. destruct (Nat.ltb_spec (b' - 1 - a') (b' - a')); [|lia]. replace (a' + (b' - 1 - a')) with (b' - 1) in H by lia.
    rewrite E', app_length in Le. cbn [List.length] in Le. rewrite nth_error_app2 in H by lia. replace (b' - 1 - a' - Datatypes.length q) with 0 in H by lia. pose proof (No _ _ (eq_sym H) Hy). lia.
Qed.
Theorem C107_unique : forall s a b p1 p2 p3,
  a < b <= List.length s -> no_other_digit s a b -> numbers s a b (lit "-/ .xX") (lit "-/ .xX") p1 p2 p3 -> number 1 4 p1 -> number 1 4 p2 -> number 1 4 p3 -> only_date s a b.
Proof.
  intros s a b p1 p2 p3 Lb No (c1 & c2 & C1 & C2 & E) [P1 L1] [P2 L2] [P3 L3].
  assert (De : detached s a b).
  { split; [intros c La Hc|intros c Hc]; destruct (is_digit c) eqn:Ed; try reflexivity; pose proof (No _ _ Hc Ed); lia. }
  split; [exact Lb|]. split; [exact De|]. intros a' b' t L' [Da Db] Ht. destruct (date_shape _ _ Ht) as (Hh & Hl & Hn).
  destruct (inside_digits s a b a' b' No L' Hh Hl) as [La Lb'].
  assert (E2 : slice a b s = slice a a' s ++ slice a' b' s ++ slice b' b s) by (rewrite (slice_app s a a' b), (slice_app s a' b' b) by lia; reflexivity).
  assert (Nd : nd (slice a b s) = 2).
  { rewrite E, !nd_app, (proj1 (nd_digits p1) P1), (proj1 (nd_digits p2) P2), (proj1 (nd_digits p3) P3). unfold nd. cbn [filter]. rewrite (bis_nodigit c1 C1), (bis_nodigit c2 C2). reflexivity. }
  pose proof Nd as Nd'. rewrite E2, !nd_app in Nd'.
  destruct Hn as [[H0 H6]|[H2|H5]]; [exfalso| |lia].
  - pose proof (slice_len s a b ltac:(lia)) as Le. rewrite E in Le. rewrite !app_length in Le. cbn [List.length] in Le. rewrite slice_len in H6 by lia.
    assert (At : forall k, k < b - a -> nth_error s (a + k) = nth_error (slice a b s) k) by (intros k Hk; rewrite slice_nth; destruct (Nat.ltb_spec k (b - a)); [reflexivity|lia]).
    assert (X1 : nth_error s (a + List.length p1) = Some c1) by (rewrite At, E by lia; rewrite nth_error_app2, Nat.sub_diag by lia; reflexivity).
    assert (X2 : nth_error s (a + (List.length p1 + 1 + List.length p2)) = Some c2).
    { rewrite At, E by lia. rewrite nth_error_app2 by lia. rewrite nth_error_app2 by (cbn; lia). rewrite nth_error_app2 by (cbn; lia). cbn [List.length].
      replace (Datatypes.length p1 + 1 + Datatypes.length p2 - Datatypes.length p1 - 1 - Datatypes.length p2) with 0 by lia. reflexivity. }
    apply nd_digits in H0. unfold digits_only in H0. rewrite Forall_forall in H0.
    assert (Out : forall k c, nth_error s k = Some c -> is_digit c = false -> k < a' \/ b' <= k).
    { intros k c Ek Ec. destruct (Nat.lt_ge_cases k a'); [auto|]. destruct (Nat.lt_ge_cases k b'); [|auto]. exfalso.
      rewrite (H0 c) in Ec; [discriminate|]. apply nth_error_In with (k - a'). rewrite slice_nth. destruct (Nat.ltb_spec (k - a') (b' - a')); [|lia]. replace (a' + (k - a')) with k by lia. exact Ek. }
    pose proof (Out _ _ X1 (bis_nodigit c1 C1)). pose proof (Out _ _ X2 (bis_nodigit c2 C2)). lia.
  - assert (A0 : nd (slice a a' s) = 0) by lia. assert (B0 : nd (slice b' b s) = 0) by lia. apply nd_digits in A0, B0. unfold digits_only in A0, B0. rewrite Forall_forall in A0, B0. split.
    + destruct (Nat.eq_dec a' a); [assumption|exfalso]. destruct (nth_error s (a' - 1)) as [c|] eqn:Ec; [|apply nth_error_None in Ec; lia].
      pose proof (Da c ltac:(lia) eq_refl) as F. rewrite (A0 c) in F; [discriminate|]. apply nth_error_In with (a' - 1 - a). rewrite slice_nth. destruct (Nat.ltb_spec (a' - 1 - a) (a' - a)); [|lia]. replace (a + (a' - 1 - a)) with (a' - 1) by lia. exact Ec.
    + destruct (Nat.eq_dec b' b); [assumption|exfalso]. destruct (nth_error s b') as [c|] eqn:Ec; [|apply nth_error_None in Ec; lia].
      pose proof (Db c eq_refl) as F. rewrite (B0 c) in F; [discriminate|]. apply nth_error_In with 0. rewrite slice_nth. destruct (Nat.ltb_spec 0 (b - b')); [|lia]. rewrite Nat.add_0_r. exact Ec.
Qed.
Print Assumptions C107_unique.
Theorem C107_unique_run : forall s a b k, a < b <= List.length s -> no_other_digit s a b -> number k k (slice a b s) -> only_date s a b.
Proof.
  intros s a b k Lb No [P L].
  assert (De : detached s a b).
  { split; [intros c La Hc|intros c Hc]; destruct (is_digit c) eqn:Ed; try reflexivity; pose proof (No _ _ Hc Ed); lia. }
  split; [exact Lb|]. split; [exact De|]. intros a' b' t L' [Da Db] Ht. destruct (date_shape _ _ Ht) as (Hh & Hl & Hn).
  destruct (inside_digits s a b a' b' No L' Hh Hl) as [La Lb'].
  rewrite Forall_forall in P.
  assert (Dg : forall k c, a <= k < b -> nth_error s k = Some c -> is_digit c = true).
  { intros j c Hj Ej. apply P. apply nth_error_In with (j - a). rewrite slice_nth. destruct (Nat.ltb_spec (j - a) (b - a)); [|lia]. replace (a + (j - a)) with j by lia. exact Ej. }
  split.
  - destruct (Nat.eq_dec a' a); [assumption|exfalso]. destruct (nth_error s (a' - 1)) as [c|] eqn:Ec; [|apply nth_error_None in Ec; lia].
    pose proof (Da c ltac:(lia) eq_refl) as F. rewrite (Dg (a' - 1) c ltac:(lia) Ec) in F. discriminate.
  - destruct (Nat.eq_dec b' b); [assumption|exfalso]. destruct (nth_error s b') as [c|] eqn:Ec; [|apply nth_error_None in Ec; lia].
    pose proof (Db c eq_refl) as F. rewrite (Dg b' c ltac:(lia) Ec) in F. discriminate.
Qed.
Print Assumptions C107_unique_run.

(** * what is never returned *)
(** C107: a date returned exists in the calendar, if those written with the name of a month do. *)
Theorem C107_real : forall now other s yf df a b y m d,
  (forall t f g y m d, other t f g = Some (y, m, d) -> real_date y m d) -> find_date now other s yf df = Some (a, b, (y, m, d)) -> real_date y m d /\ plausible y.
Proof.
  intros now other s yf df a b y m d Ho H.
  apply (date_loop_sound date_year (dateutil_parse now other) s yf date_regexps ltac:(intros x Hx; exact Hx) df df) in H as (H1 & _ & _ & t & f & g & _ & Hp & _); [|auto|intros -> _; left; reflexivity].
  split; [|apply valid_plausible in H1; exact H1].
  unfold dateutil_parse in Hp. destruct (ymd_of t) as [[y'|]|]; [|discriminate|eauto]. destruct (resolve_ymd y' g f) as [[[y0 m0] d0]|]; [|discriminate].
  destruct (check_date _ m0 d0) eqn:Ec; [|discriminate]. injection Hp as <- <- <-. apply real_iff, Ec.
Qed.
Print Assumptions C107_real.
(** C107: the year, the month and the day are the three numbers written, each one once; the century is added to a year of two digits only. *)
Theorem C107_written : forall now other s yf df a b y m d p1 p2 p3,
  find_date now other s yf df = Some (a, b, (y, m, d)) -> numbers s a b (lit "-/ .xX") (lit "-/ .xX") p1 p2 p3 -> number 1 4 p1 -> number 1 4 p2 -> number 1 4 p3 ->
  exists n, Permutation.Permutation [n; m; d] [decimal p1; decimal p2; decimal p3] /\ (y = n \/ (0 <= n < 100)%Z /\ nearest now n y).
Proof.
  intros now other s yf df a b y m d p1 p2 p3 H (c1 & c2 & C1 & C2 & E) [P1 L1] [P2 L2] [P3 L3].
  apply (date_loop_sound date_year (dateutil_parse now other) s yf date_regexps ltac:(intros x Hx; exact Hx) df df) in H as (_ & _ & _ & t & f & g & Ht & Hp & _); [|auto|intros -> _; left; reflexivity].
  rewrite E in Ht.
  assert (Nd : nd (p1 ++ [c1] ++ p2 ++ [c2] ++ p3) = 2).
  { rewrite !nd_app, (proj1 (nd_digits p1) P1), (proj1 (nd_digits p2) P2), (proj1 (nd_digits p3) P3). unfold nd. cbn [filter]. rewrite (bis_nodigit c1 C1), (bis_nodigit c2 C2). reflexivity. }
  assert (Et : t = concat_with (lit "-") [p1; p2; p3]).
  { cbn [concat_with flat_map]. rewrite app_nil_r, <- app_assoc. inversion Ht as [u [U _] Eu|u [U _] Eu|m1 n1 m2 n2 m3 n3 q1 d1 q2 d2 q3 Hin [Q1 _] [Q2 _] [Q3 _] D1 D2 Eu|dd o d1 mm d2 yy Hd Ho D1 Hm Lm D2 Hy Eu].
    - apply nd_digits in U. subst u. lia.
    - apply nd_digits in U. subst u. lia.
    - symmetry in Eu. apply same_numbers in Eu as (-> & -> & -> & -> & ->); try assumption; try (apply bis_nodigit; assumption). reflexivity.
    - assert (Nd3 : nd (dd ++ o ++ [d1] ++ mm ++ [d2] ++ yy) = 2) by (cbn [app] in *; rewrite Eu; exact Nd). rewrite !nd_app, (alpha_nondigit mm Hm) in Nd3.
      unfold nd in Nd3 at 3 4. cbn [filter] in Nd3. rewrite (bis_nodigit d1), (bis_nodigit d2) in Nd3 by (apply plain_bis; assumption). cbn [negb List.length] in Nd3. lia. }
  subst t. unfold dateutil_parse in Hp. assert (N2 : p2 <> []) by (intros ->; cbn in L2; lia). assert (N3 : p3 <> []) by (intros ->; cbn in L3; lia). rewrite ymd_numbers in Hp by assumption.
  assert (Ev : forall v, match ymd_append p1 ymd_nil with Some y => match ymd_append p2 y with Some y => ymd_append p3 y | None => None end | None => None end = Some v -> ymd_values v = [dec p1; dec p2; dec p3]).
  { assert (Ap : forall p x v, ymd_append p x = Some v -> ymd_values v = ymd_values x ++ [dec p]).
    { intros p x v. unfold ymd_append. destruct (2 <? Datatypes.length p); [destruct (ymd_year x); [discriminate|]|]; intros Q; injection Q as <-; reflexivity. }
    intros v. destruct (ymd_append p1 ymd_nil) as [v1|] eqn:E1; [|discriminate]. destruct (ymd_append p2 v1) as [v2|] eqn:E2; [|discriminate]. intros E3.
    rewrite (Ap _ _ _ E3), (Ap _ _ _ E2), (Ap _ _ _ E1). reflexivity. }
  destruct (match ymd_append p1 ymd_nil with Some y => _ | None => None end) as [v|]; [|discriminate]. specialize (Ev v eq_refl).
  destruct (resolve_ymd v g f) as [[[y0 m0] d0]|] eqn:Er; [|discriminate]. destruct (check_date _ m0 d0); [|discriminate]. injection Hp as <- <- <-. rewrite <- !dec_decimal.
  exists y0.
  assert (Pe : Permutation.Permutation [y0; m0; d0] [dec p1; dec p2; dec p3]).
  { unfold resolve_ymd in Er. rewrite Ev in Er.
    destruct (_ || _ || _); [destruct (f && _)|destruct (_ || _)]; injection Er as <- <- <-.
    - apply Permutation.perm_skip, Permutation.perm_swap.
    - reflexivity.
    - transitivity [dec p2; dec p3; dec p1]; [apply Permutation.perm_swap|]. symmetry. apply (Permutation.Permutation_cons_append [dec p2; dec p3] (dec p1)).
    - symmetry. apply (Permutation.Permutation_cons_append [dec p1; dec p2] (dec p3)) || (change [dec p1; dec p2; dec p3] with ([dec p1; dec p2] ++ [dec p3]); symmetry; apply Permutation.Permutation_cons_append). }
  split; [exact Pe|]. destruct (ymd_century v) eqn:Ec; [left; apply century_year|]. destruct (Z.ltb_spec y0 100) as [L|L].
  - right. assert (In y0 [dec p1; dec p2; dec p3]) as Iy by (apply (Permutation.Permutation_in _ Pe); left; reflexivity).
    assert (0 <= y0)%Z by (cbn [In] in Iy; pose proof (digits_bound p1 P1); pose proof (digits_bound p2 P2); pose proof (digits_bound p3 P3); intuition lia).
    split; [lia|]. apply nearest_iff; [lia|reflexivity].
  - left. unfold convertyear. replace (y0 <? 100)%Z with false by lia. reflexivity.
Qed.
Print Assumptions C107_written.

(** * the property *)
(** a number written with exactly [n] digits *)
Definition written (n : nat) (z : Z) (t : str) : Prop := number n n t /\ decimal t = z.
Lemma padded_all : forallb (fun z => (List.length (padded 4 z) =? 4) && forallb is_digit (padded 4 z) && (dec (padded 4 z) =? z)%Z) (map Z.of_nat (seq 0 (N.to_nat 10000))) = true /\
  forallb (fun z => (List.length (padded 2 z) =? 2) && forallb is_digit (padded 2 z) && (dec (padded 2 z) =? z)%Z) (map Z.of_nat (seq 0 (N.to_nat 100))) = true.
Proof. split; vm_compute; reflexivity. Qed.
Lemma padded_written n z : n = 4 /\ (0 <= z < 10000)%Z \/ n = 2 /\ (0 <= z < 100)%Z -> written n z (padded n z).
Proof.
  assert (G : (List.length (padded n z) =? n) && forallb is_digit (padded n z) && (dec (padded n z) =? z)%Z = true -> written n z (padded n z)).
  { rewrite !Bool.andb_true_iff, Nat.eqb_eq, Z.eqb_eq, forallb_forall, dec_decimal. intros [[A B] C]. split; [split; [apply Forall_forall; exact B|lia]|exact C]. }
  destruct padded_all as [H4 H2]. rewrite forallb_forall in H4, H2.
  intros [[-> L]|[-> L]]; apply G; [apply H4|apply H2]; apply in_map_iff; exists (Z.to_nat z); (split; [lia|apply in_seq; lia]).
Qed.
(** C107: the date found is shown, and shown alone, if separators surround it; its text is yyyy-mm-dd. *)
Theorem C107_shown : forall now other s yf df m,
  In m (date_matches now other s yf df) <-> exists a b d, find_date now other s yf df = Some (a, b, d) /\ alone s a b /\ m = simple a b (lit "date") (MvObj (isoformat d)) [].
Proof.
  intros now other s yf df m. unfold date_matches. destruct (find_date now other s yf df) as [[[a b] d]|]; [|split; [intros []|intros (? & ? & ? & H & _); discriminate]].
  set (m0 := simple a b (lit "date") (MvObj (isoformat d)) []). pose proof (seps_alone s m0) as Hs. cbn [m0 simple m_start m_end] in Hs. destruct (seps_surround s m0).
  - cbn [In]. split; [intros [<-|[]]; exists a, b, d; split; [reflexivity|]; split; [apply Hs; reflexivity|reflexivity]|]. intros (a' & b' & d' & E & _ & ->). injection E as <- <- <-. left. reflexivity.
  - split; [intros []|]. intros (a' & b' & d' & E & A & _). injection E as <- <- <-. apply Hs in A. discriminate.
Qed.
Print Assumptions C107_shown.
Theorem C107_isoformat : forall y m d, real_date y m d ->
  exists ty tm td, isoformat (y, m, d) = ty ++ lit "-" ++ tm ++ lit "-" ++ td /\ written 4 y ty /\ written 2 m tm /\ written 2 d td.
Proof.
  intros y m d R. pose proof (real_month y m d R). destruct R as [L _]. exists (padded 4 y), (padded 2 m), (padded 2 d). split; [reflexivity|].
  repeat split; apply padded_written; lia.
Qed.
Print Assumptions C107_isoformat.

(** ** concrete cases *)
Definition no_month (t : str) (f g : bool) : option (Z * Z * Z) := None.
Lemma no_other_check s a b : forallb (fun k => match nth_error s k with Some c => negb (is_digit c) || ((a <=? k) && (k <? b)) | None => true end) (seq 0 (List.length s)) = true -> no_other_digit s a b.
Proof.
  rewrite forallb_forall. intros H k c E D. pose proof (nth_error_lt _ _ _ E). specialize (H k ltac:(apply in_seq; lia)). rewrite E, D in H. cbn [negb orb] in H. lia.
Qed.
Ltac digits_here := split; [repeat constructor|cbn; lia].
Definition the_show := lit "A.Show.2002x04.22-GRP".
Lemma the_show_only : only_date the_show 7 17 /\ numbers the_show 7 17 (lit "-/ .xX") (lit "-/ .") (lit "2002") (lit "04") (lit "22").
Proof.
  assert (N : numbers the_show 7 17 (lit "-/ .xX") (lit "-/ .") (lit "2002") (lit "04") (lit "22")) by (exists 120%N, 46%N; split; [vm_compute; tauto|split; [vm_compute; tauto|reflexivity]]).
  split; [|exact N]. apply C107_unique with (lit "2002") (lit "04") (lit "22"); [vm_compute; lia|apply no_other_check; vm_compute; reflexivity| |digits_here|digits_here|digits_here].
  destruct N as (c1 & c2 & I1 & I2 & E). exists c1, c2. split; [exact I1|]. split; [apply plain_bis, I2|exact E].
Qed.
Example C107_year_first_ex : find_date 2026 no_month the_show None None = Some (7, 17, (2002, 4, 22)%Z).
Proof.
  destruct the_show_only as [O N].
  apply (C107_year_first 2026 no_month the_show 7 17 (lit "2002") (lit "04") (lit "22") None None O N); [digits_here|digits_here|digits_here|discriminate|unfold plausible; cbn; lia|].
  split; [cbn; lia|]. exists 30%Z. split; [apply days30; cbn; tauto|cbn; lia].
Qed.
Example C107_day_first_ex : find_date 2026 no_month (lit " And this on 17-06-1998. ") None None = Some (13, 23, (1998, 6, 17)%Z) /\
  find_date 2026 no_month (lit "05.06.1998") None None = Some (0, 10, (1998, 6, 5)%Z) /\ find_date 2026 no_month (lit "05.06.1998") None (Some false) = Some (0, 10, (1998, 5, 6)%Z) /\
  find_date 2026 no_month (lit "05.22.1998") None None = Some (0, 10, (1998, 5, 22)%Z) /\ find_date 2026 no_month (lit "29.02.1999") None None = None /\
  find_date 2026 no_month (lit " 20020422 ") None None = Some (1, 9, (2002, 4, 22)%Z) /\ find_date 2026 no_month (lit "20020422") None None = None /\
  find_date 2026 no_month (lit "02.04.22") (Some true) None = Some (0, 8, (2002, 4, 22)%Z) /\ find_date 2026 no_month (lit "02.04.22") None None = Some (0, 8, (2022, 4, 2)%Z) /\
  find_date 2026 no_month (lit "17.06.98") None None = Some (0, 8, (1998, 6, 17)%Z).
Proof. repeat split; vm_compute; reflexivity. Qed.
Example C107_shown_ex : map (fun m => (m_start m, m_end m, m_value m)) (date_matches 2026 no_month the_show None None) = [(7, 17, MvObj (lit "2002-04-22"))] /\
  date_matches 2026 no_month (lit "A.Show.a2002.04.22") None None = [].
Proof. split; vm_compute; reflexivity. Qed.
(** C107, limit: two numbers of a date and one that follows it are taken for the date when the year is the first of them: "2002.04.22.10bit" is 22 April 2010. *)
Theorem C107_shifted_refuted : find_date 2026 no_month (lit "Show.2002.04.22.10bit") None None = Some (10, 18, (2010, 4, 22)%Z).
Proof. vm_compute. reflexivity. Qed.
Print Assumptions C107_shifted_refuted.
