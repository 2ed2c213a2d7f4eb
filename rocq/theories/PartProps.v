(** C92: which parts are recognised. *)
From Verif Require Import Py PyFacts Text TextFacts WordsProofs Regex CrcProofs DateProofs RegexFacts RegexOuts Numeral NumeralProofs Date Rebulk RebulkFacts Episodes EpisodeRules EpisodeRulesProps IntProps AnimeGroupProps Patterns PatternsProps DiscProps SxxProps NumeralRe NumeralReProofs.
From Coq Require Import Arith ZifyBool ZifyNat ZifyN.
Local Open Scope nat_scope.

(** ** the value of a written number *)
Lemma written_digits t : number t -> parse_numeral t = Ok (value_of t) /\ int_coercable t = true.
Proof.
  intros [Hn Hd]. assert (D : Forall (fun c => is_digit c = true) t) by (apply Forall_forall; intros c Hc; apply is_digit_iff, Hd, Hc). split.
  - destruct (parse_digits t) as (p & ds & q & E & P & Ds & Hds & Q & ->).
    { destruct t as [|c t]; [congruence|]. exists c. inversion D; subst. split; [left; reflexivity|assumption]. }
    rewrite E in D. apply Forall_app in D as [Dp D]. apply Forall_app in D as [_ Dq].
    assert (p = []) as -> by (destruct p as [|c p]; [reflexivity|]; inversion P; inversion Dp; congruence).
    assert (q = []) as -> by (destruct q as [|c q]; [reflexivity|]; inversion Dq; congruence).
    rewrite app_nil_r in E. cbn [app] in E. subst ds. rewrite <- dec_decimal. reflexivity.
  - apply coercable_iff. exists (value_of t). exists [], t, [], t. rewrite app_nil_r. split; [reflexivity|]. split; [reflexivity|]. split; [reflexivity|]. left. split; [|reflexivity]. constructor. split; assumption.
Qed.
(** a text without digits is not an integer *)
Lemma letters_not_int t : (forall c, In c t -> is_digit c = false) -> int_coercable t = false.
Proof.
  intros H. destruct (int_coercable t) eqn:E; [exfalso|reflexivity]. apply coercable_iff in E as (z & before & body & after & d & -> & _ & _ & B).
  assert (G : forall b d, grouped b d -> exists c, In c b /\ is_digit c = true).
  { intros b d0 K. destruct K as [g [G1 G2]|g r d' [G1 G2] K]; (destruct g as [|c g]; [congruence|]); exists c; (split; [left; reflexivity|]); apply is_digit_iff, G2; left; reflexivity. }
  assert (X : exists c, In c body /\ is_digit c = true).
  { destruct B as [[K _]|[[(r & -> & K) _]|[(r & -> & K) _]]]; destruct (G _ _ K) as (c & Hc & Dc); exists c; (split; [|exact Dc]); [exact Hc|right; exact Hc|right; exact Hc]. }
  destruct X as (c & Hc & Dc). rewrite (H c) in Dc; [discriminate|]. apply in_app_iff. right. apply in_app_iff. left. exact Hc.
Qed.
Lemma blank_single t : t <> [] -> (forall c, In c t -> is_space c = false) -> blank_words t [t].
Proof.
  intros Hn H. pose proof (bw_cons [] t [] [] (Forall_nil _)) as B. rewrite app_nil_r in B. cbn [app] in B. apply B; [apply Forall_forall, H|exact Hn|exact I|constructor; constructor].
Qed.
Lemma roman_no_digit t n : (1 <= n <= 4999)%Z -> upper t = roman n -> t <> [] /\ forall c, In c t -> is_digit c = false /\ is_space c = false /\ In (to_lower c) roman_letters.
Proof.
  intros Hn U. pose proof (proj1 (roman_lower t n Hn) U) as Lw. split.
  - intros ->. destruct (upper_roman n Hn) as (_ & _ & NE). apply NE. rewrite <- U. reflexivity.
  - intros c Hc. assert (K : In (to_lower c) roman_letters) by (apply (low_letters n); [exact Hn|rewrite <- Lw; unfold lower; apply in_map, Hc]).
    split; [|split; [|exact K]]; apply roman_letter_lower in K; unfold to_lower in K; destruct (is_upper c) eqn:E; unfold is_digit, is_space, is_upper, is_lower in *; lia.
Qed.
Lemma written_roman t n : (1 <= n <= 4999)%Z -> upper t = roman n -> parse_numeral t = Ok n /\ int_coercable t = false.
Proof.
  intros Hn U. destruct (roman_no_digit t n Hn U) as [NE H]. split; [|apply letters_not_int; intros c Hc; apply H, Hc].
  assert (D : Forall (fun c => is_digit c = false) t) by (apply Forall_forall; intros c Hc; apply H, Hc).
  destruct (parse_no_digits t [t] D) as [K|[K|K]]; [apply blank_single; [exact NE|intros c Hc; apply H, Hc]| | |].
  - destruct K as (a & w & b & m & E & Hm & Um & _ & ->). destruct a as [|x a]; [|destruct a; discriminate]. injection E as <- _. f_equal.
    rewrite U in Um. assert (P : parse_roman (roman n) = Ok m) by (rewrite Um; apply parse_roman_roman, Hm). rewrite parse_roman_roman in P by exact Hn. congruence.
  - destruct K as [K _]. inversion K; subst. destruct (H2 n Hn U).
  - destruct K as [K _]. inversion K; subst. destruct (H2 n Hn U).
Qed.
Lemma listed_number w n : In (w, n) number_words -> w <> [] /\ (forall c, In c w -> is_digit c = false /\ is_space c = false /\ is_upper c = false) /\ parse_numeral w = Ok n /\ (0 <= n <= 20)%Z.
Proof.
  assert (G : forallb (fun p => negb (str_eqb (fst p) []) && forallb (fun c => negb (is_digit c) && negb (is_space c) && negb (is_upper c)) (fst p) &&
     (match parse_numeral (fst p) with Ok m => Z.eqb m (snd p) | Err _ => false end) && (0 <=? snd p)%Z && (snd p <=? 20)%Z) number_words = true) by (vm_compute; reflexivity).
  intros H. rewrite forallb_forall in G. specialize (G _ H). cbn [fst snd] in G. repeat rewrite Bool.andb_true_iff in G. destruct G as ((((G1 & G2) & G3) & G4) & G5).
  split; [intros ->; discriminate|]. split.
  - intros c Hc. rewrite forallb_forall in G2. specialize (G2 c Hc). destruct (is_digit c), (is_space c), (is_upper c); try discriminate. auto.
  - split; [|lia]. destruct (parse_numeral w); [|discriminate]. f_equal. lia.
Qed.
Lemma number_word_lower w n : number_word (lower w) n <-> number_word w n.
Proof.
  assert (E : lower (lower w) = lower w).
  { unfold lower. rewrite map_map. apply map_ext. intros c. unfold to_lower. destruct (is_upper c) eqn:U; [|rewrite U; reflexivity]. destruct (is_upper (c + 32)) eqn:V; [|reflexivity]. unfold is_upper in *. lia. }
  unfold number_word. rewrite E. reflexivity.
Qed.
Lemma lower_char_facts c : is_digit (to_lower c) = false -> is_digit c = false.
Proof. rewrite to_lower_digit. auto. Qed.
Lemma written_word t n : In (lower t, n) number_words -> parse_numeral t = Ok n /\ int_coercable t = false.
Proof.
  intros H. destruct (listed_number _ _ H) as (NE & C & P & _).
  assert (C' : forall c, In c t -> is_digit c = false /\ is_space c = false).
  { intros c Hc. destruct (C (to_lower c)) as (A & B & _); [unfold lower; apply in_map, Hc|]. split; [apply lower_char_facts, A|]. unfold to_lower in B. destruct (is_upper c) eqn:U; [unfold is_space, is_upper in *; lia|exact B]. }
  assert (NE' : t <> []) by (intros ->; apply NE; reflexivity).
  split; [|apply letters_not_int; intros c Hc; apply C', Hc].
  assert (D : Forall (fun c => is_digit c = false) t) by (apply Forall_forall; intros c Hc; apply C', Hc).
  assert (D' : Forall (fun c => is_digit c = false) (lower t)) by (apply Forall_forall; intros c Hc; apply C, Hc).
  pose proof (parse_no_digits t [t] D (blank_single t NE' (fun c Hc => proj2 (C' c Hc)))) as K.
  pose proof (parse_no_digits (lower t) [lower t] D' (blank_single _ NE (fun c Hc => proj1 (proj2 (C c Hc))))) as K'.
  rewrite P in K'. 
  assert (One : forall (x w : str) a b, [x] = a ++ w :: b -> w = x) by (intros x w [|y a] b E; [injection E; auto|destruct a; discriminate]).
  destruct K' as [K'|[K'|K']]; [| |destruct K' as (_ & _ & K'); discriminate].
  - destruct K' as (a & w & b & m & E & Hm & U & _ & Em). injection Em as ->. apply One in E. subst w. rewrite upper_lower in U.
    exact (proj1 (written_roman t m Hm U)).
  - destruct K' as (R & a & w & b & m & E & W & _ & Em). injection Em as ->. apply One in E. subst w. apply (proj1 (number_word_lower t _)) in W.
    destruct K as [K|[K|K]].
    + destruct K as (a' & w' & b' & m' & E' & Hm & U & _ & _). apply One in E'. subst w'. inversion R; subst. rewrite upper_lower in H2. destruct (H2 m' Hm U).
    + destruct K as (_ & a' & w' & b' & m' & E' & W' & _ & ->). apply One in E'. subst w'. f_equal. apply parse_word_iff in W. apply parse_word_iff in W'. rewrite W in W'. injection W' as W'. symmetry. exact W'.
    + destruct K as (_ & K & _). inversion K; subst. destruct (H2 m W).
Qed.
Lemma written_value t n : written_number t n -> parse_numeral t = Ok n.
Proof. intros H. destruct H; [apply written_digits; assumption|apply written_roman; assumption|apply written_word; assumption]. Qed.

(** ** the part pattern *)
(** [pt] or [part] *)
Definition part_prefixes : list str := [lit "pt"; lit "part"].
Lemma part_letters : letters part_prefixes.
Proof. apply letters_dec. vm_compute. reflexivity. Qed.
Lemma outs_lit s w : forall i c, outs s (rlit w) i c = if startswith w (at_ s i) then [(i + List.length w, c)] else [].
Proof.
  induction w as [|x w IH]; intros i c.
  - cbn [rlit outs startswith List.length]. f_equal. f_equal. lia.
  - cbn [rlit outs]. destruct (nth_error s i) as [y|] eqn:E.
    + rewrite (at_cons s i y E). cbn [startswith List.length]. rewrite (N.eqb_sym x). destruct (N.eqb (to_lower y) x); cbn [andb flat_map fst snd]; [|reflexivity].
      rewrite IH, app_nil_r. replace (S i + List.length w) with (i + S (List.length w)) by lia. reflexivity.
    + rewrite (at_nil s i E). reflexivity.
Qed.
(** after [-?] *)
Definition after_dash (s : str) (j : nat) : nat := match nth_error s j with Some x => if cmem x seps_no_fs then S j else j | None => j end.
Lemma after_dash_joined s j x : joined s j x -> (forall y, nth_error s x = Some y -> ~ In y seps) -> x < List.length s -> after_dash s j = x.
Proof.
  intros J N L. destruct (nth_error s x) as [z|] eqn:Ez; [|apply nth_error_None in Ez; lia]. specialize (N z eq_refl). unfold after_dash. destruct J as [->|(-> & y & Ey & Sy)].
  - rewrite Ez. destruct (cmem z seps_no_fs) eqn:C; [|reflexivity]. apply no_fs_iff in C as (C & _). contradiction.
  - rewrite Ey, Sy. reflexivity.
Qed.
Lemma joined_after s j : joined s j (after_dash s j).
Proof. unfold after_dash. destruct (nth_error s j) as [y|] eqn:E; [|left; reflexivity]. destruct (cmem y seps_no_fs) eqn:C; [right|left; reflexivity]. split; [reflexivity|]. eauto. Qed.
Lemma no_numeral_at_sep s hy j y c : nth_error s j = Some y -> In y seps -> outs s (numeral_re hy) j c = [].
Proof.
  intros E H. pose proof (best_numeral s hy j c) as B. rewrite (at_cons s j y E), (sep_lower y H) in B. cbn [numeral_pick] in B. rewrite (sep_nodigit y H) in B.
  assert (R : cmem y roman_letters = false).
  { destruct (cmem y roman_letters) eqn:C; [|reflexivity]. apply cmem_In, roman_letter_lower in C. apply sep_noalpha in H. unfold is_alpha in H. rewrite C, Bool.orb_true_r in H. discriminate. }
  rewrite R in B. destruct (pick_word number_words_listed (y :: at_ s (S j))) as [w|] eqn:P.
  - exfalso. unfold pick_word in P. apply find_some in P as [Hw Sw].
    assert (G : forallb (fun w => match w with x :: _ => negb (cmem x seps) | [] => false end) number_words_listed = true) by (vm_compute; reflexivity).
    rewrite forallb_forall in G. specialize (G w Hw). destruct w as [|x w]; [discriminate|]. cbn [startswith] in Sw. apply Bool.andb_true_iff in Sw as [Sw _]. apply N.eqb_eq in Sw. subst x.
    apply (proj2 (cmem_In _ _)) in H. rewrite H in G. discriminate.
  - cbn [option_map] in B. unfold best in B. destruct (outs s (numeral_re hy) j c); [reflexivity|discriminate].
Qed.
Lemma best_dash_numeral s hy n j c : best s (RSeq dash_opt (RGrp n (numeral_re hy))) j c =
  option_map (fun m => (after_dash s j + m, (n, (after_dash s j, after_dash s j + m)) :: c)) (numeral_pick (at_ s (after_dash s j))).
Proof.
  unfold best. cbn [outs dash_opt ropt dash flat_map app fst snd]. unfold after_dash. destruct (nth_error s j) as [y|] eqn:E.
  - destruct (cmem y seps_no_fs) eqn:C.
    + cbn [flat_map app fst snd]. apply no_fs_iff in C as (C & _). rewrite (no_numeral_at_sep s hy j y c E C). cbn [map app]. rewrite app_nil_r.
      pose proof (best_numeral s hy (S j) c) as B. unfold best in B. destruct (outs s (numeral_re hy) (S j) c) as [|[x e] l]; destruct (numeral_pick (at_ s (S j))); try discriminate; [reflexivity|].
      cbn [hd_error option_map] in *. injection B as -> ->. reflexivity.
    + cbn [flat_map app fst snd]. rewrite app_nil_r. pose proof (best_numeral s hy j c) as B. unfold best in B. destruct (outs s (numeral_re hy) j c) as [|[x e] l]; destruct (numeral_pick (at_ s j)); try discriminate; [reflexivity|].
      cbn [hd_error map option_map fst snd] in *. injection B as -> ->. reflexivity.
  - cbn [flat_map app fst snd]. rewrite app_nil_r. pose proof (best_numeral s hy j c) as B. unfold best in B. destruct (outs s (numeral_re hy) j c) as [|[x e] l]; destruct (numeral_pick (at_ s j)); try discriminate; [reflexivity|].
    cbn [hd_error map option_map fst snd] in *. injection B as -> ->. reflexivity.
Qed.
Definition part_re : re := RSeq (rwords part_prefixes) (RSeq dash_opt (RGrp 1 (numeral_re dash))).
(** the prefix at a position is written in one way *)
Lemma prefix_outs s k j c : k <= List.length s -> word s part_prefixes k j -> outs s (rwords part_prefixes) k c = [(j, c)].
Proof.
  intros L (t & [Lt Et] & Ht). assert (A : at_ s k = lower t ++ at_ s j).
  { rewrite <- (firstn_skipn (j - k) (at_ s k)), at_slice, at_skip. replace (k + (j - k)) with j by lia. rewrite Et. reflexivity. }
  assert (Lj : j = k + List.length (lower t)) by (rewrite lower_length, <- Et, slice_len by lia; lia).
  unfold part_prefixes. cbn [rwords outs]. rewrite !outs_lit, A. rewrite Lj. destruct Ht as [<-|[<-|[]]]; reflexivity.
Qed.
Lemma part_match s k j c : k <= List.length s -> word s part_prefixes k j -> best s part_re k c =
  option_map (fun m => (after_dash s j + m, (1, (after_dash s j, after_dash s j + m)) :: c)) (numeral_pick (at_ s (after_dash s j))).
Proof. intros L W. unfold part_re. rewrite (best_seq_one s _ _ k c j c (prefix_outs s k j c L W)). apply best_dash_numeral. Qed.

(** ** nothing found before reaches over a separator into a prefix *)
Lemma word_lit_M s w : forall i c j d, M s (word_lit dash w) i c j d -> j = i + List.length w /\
  forall n x, nth_error w n = Some x -> exists y, nth_error s (i + n) = Some y /\ (x = 45%N /\ In y seps \/ x <> 45%N /\ to_lower y = x).
Proof.
  induction w as [|x w IH]; intros i c j d H; cbn [word_lit] in H.
  - inversion H; subst. split; [cbn; lia|]. intros [|n] x; discriminate.
  - apply M_sq in H as (k & e & H1 & H2). assert (K : k = S i /\ exists y, nth_error s i = Some y /\ (x = 45%N /\ In y seps \/ x <> 45%N /\ to_lower y = x)).
    { destruct (N.eqb_spec x 45) as [->|Nx]; apply M_chr_inv in H1 as (_ & -> & y & Ey & Py); (split; [reflexivity|]); exists y; (split; [exact Ey|]).
      - left. split; [reflexivity|]. apply no_fs_iff in Py as (Py & _). exact Py.
      - right. split; [exact Nx|]. apply N.eqb_eq, Py. }
    destruct K as (-> & K). apply IH in H2 as [-> H2]. split; [cbn [List.length]; lia|]. intros [|n] z Hz; cbn [nth_error] in Hz.
    + injection Hz as <-. rewrite Nat.add_0_r. exact K.
    + replace (i + S n) with (S i + n) by lia. apply H2, Hz.
Qed.
Lemma alts_M s hy words : forall b i c j d, words <> [] -> M s (word_alts hy b words) i c j d -> exists w, In w words /\ exists c' d', M s (word_lit hy w) i c' j d'.
Proof.
  induction words as [|w words IH]; intros b i c j d Hn H; [congruence|]. cbn [word_alts] in H.
  assert (E : forall r, r = (if b then RSeq (RLook (ratleast (RChr word_char) 1)) (word_lit hy w) else word_lit hy w) -> M s r i c j d -> exists c' d', M s (word_lit hy w) i c' j d').
  { intros r -> K. destruct b; [|eauto]. apply M_sq in K as (k & e & K1 & K2). inversion K1; subst. eauto. }
  destruct words as [|w' words].
  - exists w. split; [left; reflexivity|]. exact (E _ eq_refl H).
  - apply M_alt_inv in H as [H|H].
    + exists w. split; [left; reflexivity|]. exact (E _ eq_refl H).
    + apply IH in H as (v & Hv & K); [|discriminate]. exists v. split; [right; exact Hv|exact K].
Qed.
Definition p_like (c : char) : Prop := to_lower c = 112%N.
Lemma numeral_no_p s i c j d k x : M s (numeral_re dash) i c j d -> i <= k < j -> nth_error s k = Some x -> p_like x -> i < k /\ forall y, nth_error s (k - 1) = Some y -> ~ In y seps.
Proof.
  intros H L E P. unfold numeral_re in H. apply M_alt_inv in H as [H|H]; [|apply M_alt_inv in H as [H|H]].
  - exfalso. destruct (M_only s (fun x => is_digit x = true) digital_re i c j d H) with (k := k) as (y & Ey & Dy); [split; [apply only_rrep|apply only_ropt]; intros z Hz; exact Hz|exact L|].
    rewrite E in Ey. injection Ey as <-. unfold p_like, to_lower in P. destruct (is_upper x) eqn:U; unfold is_digit, is_upper in *; lia.
  - exfalso. destruct (M_only s (fun x => In (to_lower x) roman_letters) roman_re i c j d H) with (k := k) as (y & Ey & Dy); [|exact L|].
    { assert (One : forall u l : str, (forall z, In z u -> In z l) -> only (fun x => In (to_lower x) l) (one_of u)) by (intros u l Hu z Hz; apply Hu, cmem_In, Hz).
      assert (Lit : forall u l : str, (forall z, In z u -> In z l) -> only (fun x => In (to_lower x) l) (rlit u)) by (intros u l Hu; apply only_rlit; intros z Hz; apply Hu, Hz).
      assert (Gr : forall o f t, In o roman_letters -> In f roman_letters -> In t roman_letters -> only (fun x => In (to_lower x) roman_letters) (group_re o f t)).
      { intros o f t Ho Hf Ht. unfold group_re. split; [apply Lit; intros z [<-|[<-|[]]]; assumption|]. split; [apply Lit; intros z [<-|[<-|[]]]; assumption|].
        split; [apply only_ropt, One; intros z [<-|[]]; assumption|apply only_range, One; intros z [<-|[]]; assumption]. }
      unfold roman_re. split; [exact I|]. split; [apply only_range, One; intros z [<-|[]]; vm_compute; tauto|].
      split; [apply Gr; vm_compute; tauto|]. split; apply Gr; vm_compute; tauto. }
    rewrite E in Ey. injection Ey as <-. unfold p_like in P. rewrite P in Dy. vm_compute in Dy. intuition discriminate.
  - apply alts_M in H as (w & Hw & c' & d' & H); [|discriminate]. apply word_lit_M in H as [-> H].
    assert (G : forallb (fun w => match w with x :: _ => negb (N.eqb x 112) | [] => true end && forallb (fun n => negb (N.eqb (nth (S n) w 0%N) 112) || (negb (N.eqb (nth n w 0%N) 45) && negb (cmem (nth n w 0%N) seps))) (seq 0 10)) number_words_listed = true) by (vm_compute; reflexivity).
    rewrite forallb_forall in G. specialize (G w Hw). apply Bool.andb_true_iff in G as [G1 G2]. rewrite forallb_forall in G2.
    assert (Lw : List.length w <= 10).
    { assert (G : forallb (fun w => List.length w <=? 10) number_words_listed = true) by (vm_compute; reflexivity). rewrite forallb_forall in G. specialize (G w Hw). lia. }
    assert (Q : forall n z, nth_error s (i + n) = Some z -> forall v, nth_error w n = Some v -> (v = 45%N /\ In z seps) \/ (v <> 45%N /\ to_lower z = v)).
    { intros n z Ez v Hv. destruct (H n v Hv) as (y & Ey & K). rewrite Ez in Ey. injection Ey as <-. exact K. }
    destruct (nth_error w (k - i)) as [v|] eqn:Ev; [|apply nth_error_None in Ev; lia].
    assert (V : v = 112%N).
    { assert (K := Q (k - i) x). replace (i + (k - i)) with k in K by lia. specialize (K E v Ev). destruct K as [[_ Sx]|[_ K]]; [|unfold p_like in P; congruence].
      unfold p_like in P. rewrite (sep_lower x Sx) in P. subst x. vm_compute in Sx. intuition discriminate. }
    subst v. assert (K0 : k - i <> 0).
    { intros Z. rewrite Z in Ev. destruct w as [|z w]; [discriminate|]. cbn [nth_error] in Ev. injection Ev as ->. discriminate. }
    split; [lia|]. intros y Ey Sy. specialize (G2 (k - i - 1)). assert (Hn : In (k - i - 1) (seq 0 10)) by (apply in_seq; lia). specialize (G2 Hn).
    replace (S (k - i - 1)) with (k - i) in G2 by lia. rewrite (nth_error_nth w (k - i) 0%N Ev) in G2. cbn [N.eqb Pos.eqb negb orb] in G2. apply Bool.andb_true_iff in G2 as [G2 G3].
    destruct (nth_error w (k - i - 1)) as [v|] eqn:Ev'; [|apply nth_error_None in Ev'; lia]. rewrite (nth_error_nth w (k - i - 1) 0%N Ev') in G2, G3.
    assert (K := Q (k - i - 1) y). replace (i + (k - i - 1)) with (k - 1) in K by lia. specialize (K Ey v Ev'). destruct K as [[-> _]|[_ K]]; [discriminate|].
    rewrite (sep_lower y Sy) in K. subst v. apply (proj2 (cmem_In _ _)) in Sy. rewrite Sy in G3. discriminate.
Qed.
Lemma part_isolated s k x : nth_error s k = Some x -> p_like x -> (forall c, 0 < k -> nth_error s (k - 1) = Some c -> In c seps) ->
  forall a b c, a < k -> M s part_re a [] b c -> b <= k.
Proof.
  intros E P B a b c La H. assert (Lk : k < List.length s) by (apply nth_error_lt in E; exact E).
  unfold part_re in H. apply M_sq in H as (j & e & H1 & H). apply (M_word s part_prefixes a [] j e part_letters ltac:(lia)) in H1 as [-> W].
  pose proof (word_alpha s part_prefixes a j part_letters W) as [Lj Aj].
  apply M_sq in H as (z & e & H2 & H). apply M_joined in H2 as [-> J]. apply M_group in H as (e & -> & H).
  destruct (Nat.le_gt_cases b k) as [|G]; [assumption|exfalso].
  destruct (nth_error s (k - 1)) as [y|] eqn:Ey; [|apply nth_error_None in Ey; lia]. specialize (B y ltac:(lia) eq_refl).
  assert (Lz : j <= z <= S j) by (destruct J as [->|(-> & _)]; lia).
  destruct (Nat.le_gt_cases k j) as [K|K].
  { destruct (Aj (k - 1) ltac:(lia)) as (v & Ev & Av). rewrite Ey in Ev. injection Ev as <-. exact (alpha_nosep y Av B). }
  destruct (Nat.le_gt_cases z k) as [K'|K']; [|lia].
  destruct (numeral_no_p s z [] b e k x H ltac:(lia) E P) as [Z N]. exact (N y Ey B).
Qed.

(** ** C92 *)
(** A part is [pt] or [part], at most one separator other than a slash, and a number from 1 to 99 written with at most
    four digits, in Roman numerals, or in words; together they stand alone, and unless the number is in digits it must be
    apart from the prefix. *)
Definition part_written (s : str) (x b : nat) (n : Z) : Prop :=
  exists k p q t, reads s k b (p ++ q ++ t) /\ x = b - List.length t /\ (lower p = lit "pt" \/ lower p = lit "part") /\ maybe_sep q /\
    alone s k b /\ written_number t n /\ (1 <= n <= 99)%Z /\ (number t \/ q <> []).

Lemma number_first t n : written_number t n -> exists c r, t = c :: r /\ ~ In c seps.
Proof.
  intros [u [Hn Hd] _|u m Hm U|u m Hw].
  - destruct u as [|c u]; [congruence|]. exists c, u. split; [reflexivity|]. apply digit_nosep, is_digit_iff, Hd. left. reflexivity.
  - destruct (roman_no_digit u m Hm U) as [NE H]. destruct u as [|c u]; [congruence|]. exists c, u. split; [reflexivity|]. intros S. destruct (H c (or_introl eq_refl)) as (_ & _ & K).
    rewrite (sep_lower c S) in K. apply roman_letter_lower in K. apply sep_noalpha in S. unfold is_alpha in S. rewrite K, Bool.orb_true_r in S. discriminate.
  - assert (G : forallb (fun p => match fst p with x :: _ => negb (cmem x seps) | [] => false end) number_words = true) by (vm_compute; reflexivity).
    rewrite forallb_forall in G. specialize (G _ Hw). cbn [fst] in G. destruct u as [|c u]; [discriminate|]. exists c, u. split; [reflexivity|]. intros S.
    cbn [lower map] in G. change (negb (cmem (to_lower c) seps) = true) in G. rewrite (sep_lower c S) in G. apply (proj2 (cmem_In _ _)) in S. rewrite S in G. discriminate.
Qed.
Lemma number_inv t n : written_number t n -> (number t /\ int_coercable t = true) \/ (~ number t /\ int_coercable t = false).
Proof.
  intros [u Hn _|u m Hm U|u m Hw].
  - left. split; [exact Hn|apply written_digits, Hn].
  - right. pose proof (proj2 (written_roman u m Hm U)) as I. split; [|exact I]. intros Nu. apply written_digits in Nu as [_ Nu]. congruence.
  - right. pose proof (proj2 (written_word u m Hw)) as I. split; [|exact I]. intros Nu. apply written_digits in Nu as [_ Nu]. congruence.
Qed.
Lemma part_consumes s : consumes s part_re.
Proof.
  intros i d j' d' H. destruct (Nat.le_gt_cases i (List.length s)) as [Li|Li].
  - apply M_sq in H as (y & e & H1 & H2). apply (M_word s part_prefixes i d y e part_letters Li) in H1 as [-> W']. apply word_alpha in W'; [|exact part_letters]. apply M_mono in H2 as [H2 _]. lia.
  - exfalso. unfold part_re in H. apply M_sq in H as (y & e & H1 & _). unfold part_prefixes in H1. cbn [rwords] in H1.
    assert (Nn : nth_error s i = None) by (apply nth_error_None; lia).
    apply M_alt_inv in H1 as [H1|H1]; cbn [rlit] in H1; apply M_sq in H1 as (y' & e' & H1 & _); apply M_chr_inv in H1 as (_ & _ & z & Ez & _); congruence.
Qed.
Lemma part_found s k j b x : word s part_prefixes k j -> joined s j x -> x <= b <= List.length s -> (forall c, nth_error s b = Some c -> In c seps) ->
  (forall c, 0 < k -> nth_error s (k - 1) = Some c -> In c seps) -> (exists n, written_number (slice x b s) n) -> In (k, b, [(1, (x, b))]) (finditer s part_re).
Proof.
  intros W J L B B' (n & Wn). pose proof (word_alpha s part_prefixes k j part_letters W) as [Lj Aj].
  destruct (number_first _ _ Wn) as (c & r & Et & Sc).
  assert (Lx : x < b) by (destruct (Nat.eq_dec x b) as [->|]; [unfold slice in Et; rewrite Nat.sub_diag in Et; discriminate|lia]).
  assert (Ex : nth_error s x = Some c).
  { assert (K : reads s x b (c :: r)) by (split; [lia|exact Et]). apply reads_cons in K as [K _]. exact K. }
  assert (Ad : after_dash s j = x) by (apply after_dash_joined; [exact J|intros y Ey; rewrite Ex in Ey; injection Ey as <-; exact Sc|lia]).
  pose proof (part_consumes s) as Hc.
  assert (Pk : exists z, nth_error s k = Some z /\ p_like z).
  { destruct W as (t & R & Ht). destruct t as [|z t]; [destruct Ht as [Ht|[Ht|[]]]; discriminate Ht|]. apply reads_cons in R as [R _]. exists z. split; [exact R|].
    unfold p_like. destruct Ht as [Ht|[Ht|[]]]; cbn [lower map] in Ht; injection Ht as Ht; symmetry; exact Ht. }
  destruct Pk as (z & Ez & Pz).
  apply finditer_exact; [exact Hc|lia|intros a' b' c' La' H'; exact (part_isolated s k z Ez Pz B' a' b' c' La' H')|].
  rewrite best_match, (part_match s k j [] ltac:(lia) W), Ad. rewrite (proj2 (pick_iff s x b L B) (ex_intro _ n Wn)). cbn [option_map]. replace (x + (b - x)) with b by lia. reflexivity.
Qed.
Lemma prefixes_iff p : In (lower p) part_prefixes <-> lower p = lit "pt" \/ lower p = lit "part".
Proof. unfold part_prefixes. cbn [In]. split; [intros [H|[H|[]]]; auto|intros [H|H]; auto]. Qed.
Theorem C92_part s x b v : shows (rx_matches (part_rx part_prefixes) s) x b (lit "part") v <-> exists n, part_written s x b n /\ v = MvInt n.
Proof.
  unfold shows. split.
  - intros (m & Hm & Sx & Sb & Nm & Vm & Pm). apply rx_In in Hm as (k & b' & c & Hf & Hm). cbn [rx_re part_rx] in Hf. fold part_re in Hf.
    apply finditer_sound in Hf as (Lk & Em & HM); [|apply part_consumes].
    assert (Lb : b' <= List.length s) by (apply (proj2 (M_mono s _ _ _ _ _ HM)); lia).
    apply M_sq in HM as (j & e & HW & HR). apply (M_word s part_prefixes k [] j e part_letters ltac:(lia)) in HW as [-> W]. apply M_mono in HR as [HR _].
    pose proof (word_alpha s part_prefixes k j part_letters W) as [Lj _].
    rewrite best_match, (part_match s k j [] ltac:(lia) W) in Em. set (y := after_dash s j) in *. pose proof (joined_after s j) as J. fold y in J.
    destruct (numeral_pick (at_ s y)) as [n|] eqn:P; [|discriminate]. cbn [option_map] in Em. injection Em as Eb <-. 
    assert (E1 : n = b' - y) by lia. rewrite Eb in Hm. clearbody y. subst n.
    destruct (proj1 (one_child (part_rx part_prefixes) s k b' [(1, (y, b'))] 1 (lit "part") y b' m eq_refl eq_refl eq_refl eq_refl) (conj Hm Pm)) as (V & Vc & ->). cbn [group_match m_start m_end m_name m_value] in *. subst y b'.
    specialize (V eq_refl). cbn [rx_valid part_rx] in V. apply seps_alone in V. cbn [rx_parent m_start m_end] in V.
    cbn [rx_child_valid part_rx] in Vc. apply Bool.andb_true_iff in Vc as [Vr Vn].
    assert (Ly : x <= b <= List.length s) by lia.
    apply (pick_iff s x b Ly (proj2 V)) in P as (n & Wn). pose proof (written_value _ _ Wn) as Pn.
    cbn [rx_value part_rx] in Vm, Vn. unfold numeral_of_text in Vm, Vn. rewrite Pn in Vm, Vn. cbn [m_value number_is group_match] in Vn.
    exists n. split; [|symmetry; exact Vm].
    destruct W as (p & Rp & Hp). apply (joined_text s j x ltac:(lia)) in J as (q & Rq & Hq). exists k, p, q, (slice x b s).
    split; [apply reads_app; exists j; split; [exact Rp|]; apply reads_app; exists x; split; [exact Rq|split; [exact Ly|reflexivity]]|].
    split; [rewrite slice_len by exact Ly; lia|]. split; [apply prefixes_iff, Hp|]. split; [exact Hq|]. split; [exact V|]. split; [exact Wn|]. split; [unfold number_is in Vn; cbn [m_value group_match] in Vn; lia|].
    destruct (number_inv _ _ Wn) as [[Nu _]|[_ Ni]]; [left; exact Nu|right]. intros ->. apply reads_nil in Rq as [-> _].
    unfold validate_roman, Title.m_raw in Vr. cbn [m_raw_start m_raw_end group_match] in Vr. rewrite Ni in Vr. change (seps_surround s (group_match k b (rx_name (part_rx part_prefixes)) j b (lit "part") (MvInt n)) = true) in Vr || idtac.
    apply seps_alone in Vr. cbn [group_match m_start m_end] in Vr. destruct Vr as [Vr _].
    assert (In (lower p) part_prefixes) as Hp' by exact Hp. assert (Wp : word s part_prefixes k j) by (exists p; split; assumption).
    destruct (word_alpha s part_prefixes k j part_letters Wp) as [_ Aj]. destruct (Aj (j - 1) ltac:(lia)) as (z & Ez & Az). exact (alpha_nosep z Az (Vr z ltac:(lia) Ez)).
  - intros (n & (k & p & q & t & R & -> & Hp & Hq & A & Wn & Hn & Hs) & ->). apply reads_app in R as (j & Rp & R). apply reads_app in R as (y & Rq & Rt).
    pose proof (reads_len s y b t Rt) as [Eb Lb]. pose proof (reads_len s k j p Rp) as [Ej _]. pose proof (reads_len s j y q Rq) as [Ey _]. replace (b - List.length t) with y by lia.
    assert (Wp : word s part_prefixes k j) by (exists p; split; [exact Rp|apply prefixes_iff, Hp]).
    assert (J : joined s j y) by (apply joined_text; [lia|]; exists q; split; assumption).
    destruct Rt as [Ly Et]. assert (Wn' : written_number (slice y b s) n) by (rewrite Et; exact Wn).
    exists (group_match k b (rx_name (part_rx part_prefixes)) y b (lit "part") (MvInt n)). split; [|repeat (split; [reflexivity|]); reflexivity].
    apply rx_In. exists k, b, [(1, (y, b))]. split; [apply (part_found s k j b y Wp J Ly (proj2 A) (proj1 A) (ex_intro _ n Wn'))|].
    pose proof (written_value _ _ Wn') as Pn.
    refine (proj1 (proj2 (one_child (part_rx part_prefixes) s k b [(1, (y, b))] 1 (lit "part") y b _ eq_refl eq_refl eq_refl eq_refl) _)).
    cbn [rx_value part_rx]. unfold numeral_of_text. rewrite Pn. split; [intros _; apply seps_alone; exact A|]. split; [|reflexivity].
    cbn [rx_child_valid part_rx]. apply Bool.andb_true_iff. split; [|unfold number_is; cbn [m_value group_match]; lia].
    unfold validate_roman, Title.m_raw. cbn [m_raw_start m_raw_end group_match]. destruct (number_inv _ _ Wn') as [[_ I]|[NN I]]; rewrite I; [reflexivity|].
    assert (Hq' : q <> []) by (destruct Hs as [Hs|Hs]; [rewrite Et in NN; contradiction|exact Hs]).
    apply seps_alone. cbn [group_match m_start m_end]. split; [|exact (proj2 A)]. intros c _ Ec.
    destruct Hq as [->|(z & -> & Sz & _)]; [congruence|]. apply reads_one in Rq as [-> Ez]. replace (S j - 1) with j in Ec by lia. congruence.
Qed.
Print Assumptions C92_part.
Example C92_ex : shown (part_rx part_prefixes) (lit "Film Part 2-pt.IV (part_three) part100 part0 partII Part deux Part V part fourteen") =
  [(10, 11, lit "part", MvInt 2); (15, 17, lit "part", MvInt 4); (24, 29, lit "part", MvInt 3); (67, 68, lit "part", MvInt 5)].
Proof. vm_compute. reflexivity. Qed.
(** A limit of the code: a French number that begins like a Roman numeral, and an English one that begins with a shorter
    one, are never read, though [parse_numeral] understands them. *)
Definition unread : list str := map lit ["fourteen"; "sixteen"; "seventeen"; "eighteen"; "nineteen"; "une"; "deux"; "cinq"; "dix"; "douze"; "vingt"; "dix-sept"; "dix-huit"; "dix-neuf"]%string.
Theorem C92_limit s x b v : shows (rx_matches (part_rx part_prefixes) s) x b (lit "part") v -> ~ In (lower (slice x b s)) unread.
Proof.
  intros H K. apply C92_part in H as (n & (k & p & q & t & R & -> & _ & _ & _ & Wn & Hn & _) & _).
  assert (Et : slice (b - List.length t) b s = t).
  { apply reads_app in R as (j & _ & R). apply reads_app in R as (y & _ & Rt). pose proof (reads_len s y b t Rt) as [Eb _]. replace (b - List.length t) with y by lia. apply Rt. }
  rewrite Et in K. destruct Wn as [u [Nu Hd] _|u m Hm U|u m Hw].
  - destruct u as [|c u]; [congruence|]. specialize (Hd c (or_introl eq_refl)). assert (E : lower (c :: u) = c :: lower u) by (cbn [lower map]; f_equal; unfold to_lower; destruct (is_upper c) eqn:X; [unfold is_upper in X; lia|reflexivity]).
    rewrite E in K. assert (G : forallb (fun w => match w with x :: _ => negb (is_digit x) | [] => true end) unread = true) by (vm_compute; reflexivity).
    rewrite forallb_forall in G. specialize (G _ K). apply is_digit_iff in Hd. cbv beta iota in G. rewrite Hd in G. discriminate.
  - apply (roman_lower u m Hm) in U. rewrite U in K. destruct (roman_rom m Hm) as (c & Hc & Nc & Ec).
    assert (G : forallb (fun w => forallb (fun x => if (99 <? NumeralProofs.num x)%Z then true else negb (str_eqb w (lower (rom x)))) combos) unread = true) by (vm_compute; reflexivity).
    rewrite forallb_forall in G. specialize (G _ K). rewrite forallb_forall in G. specialize (G c Hc). rewrite Nc, Ec, str_eqb_refl in G. destruct (Z.ltb_spec 99 m); [lia|discriminate].
  - assert (G : forallb (fun w => negb (existsb (fun p => str_eqb (fst p) w) number_words)) unread = true) by (vm_compute; reflexivity).
    rewrite forallb_forall in G. specialize (G _ K). assert (X : existsb (fun p => str_eqb (fst p) (lower u)) number_words = true) by (apply existsb_exists; exists (lower u, m); split; [exact Hw|apply str_eqb_refl]).
    rewrite X in G. discriminate.
Qed.
Print Assumptions C92_limit.
Example C92_limit_ex : map parse_numeral unread = [Ok 14; Ok 16; Ok 17; Ok 18; Ok 19; Ok 1; Ok 2; Ok 5; Ok 509; Ok 12; Ok 20; Ok 17; Ok 18; Ok 19]%Z.
Proof. vm_compute. reflexivity. Qed.
