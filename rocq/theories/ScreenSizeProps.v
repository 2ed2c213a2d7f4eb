(** C38: screen sizes *)
From Verif Require Import Py PyFacts Text Numeral NumeralProofs Quantity Common Sort Rebulk RebulkFacts RuleSpec ScreenSize.
From Coq Require Import Arith Lia Permutation Sorted ZifyBool QArith.
Local Open Scope nat_scope.

(** ** Specification *)
(** [a / b] strictly between the limits *)
Definition ratio_within (lo hi : Q) (a b : Z) : Prop := (lo < inject_Z a / inject_Z b)%Q /\ (inject_Z a / inject_Z b < hi)%Q.
(** the letter written after the height *)
Definition scan (s : str) (m : mt) (t : str) : Prop :=
  (forall x, captured s m "scan_type" x -> x <> [] -> t = lower x) /\
  ((not_captured m "scan_type" \/ captured s m "scan_type" []) -> t = lit "p").
(** [v] is the standard notation of a screen size *)
Definition notation (s : str) (standard : list str) (lo hi : Q) (m : mt) (v : mval) : Prop :=
  (not_captured m "height" -> v = m_value m) /\
  (forall h, captured s m "height" h -> not_captured m "width" -> exists t, scan s m t /\ v = MvStr (h ++ t)) /\
  (forall h w, captured s m "height" h -> captured s m "width" w ->
     ((In h standard /\ ratio_within lo hi (decimal w) (decimal h)) -> exists t, scan s m t /\ v = MvStr (h ++ t)) /\
     (~ (In h standard /\ ratio_within lo hi (decimal w) (decimal h)) -> v = MvStr (w ++ lit "x" ++ h))).
(** [x] is the aspect ratio of [m]: the closest number of three decimals *)
Definition aspect_of (s : str) (m x : mt) : Prop :=
  m_start x = m_start m /\ m_end x = m_end m /\ m_name x = lit "aspect_ratio" /\ m_parent x = None /\
  exists h w r, captured s m "height" h /\ captured s m "width" w /\ m_value x = MvFloat r /\
    (exists k, (r * 1000 == inject_Z k)%Q) /\
    (r - (1 # 2000) <= inject_Z (decimal w) / inject_Z (decimal h))%Q /\
    (inject_Z (decimal w) / inject_Z (decimal h) <= r + (1 # 2000))%Q.
(** [x] is a frame rate written in [m] *)
Definition rate_of (s : str) (m x : mt) : Prop :=
  m_name x = lit "frame_rate" /\ (exists c, In c (m_children m) /\ c_name c = lit "frame_rate" /\ m_start x = c_start c /\ m_end x = c_end c) /\
  exists n, m_value x = MvQuant n (lit "fps").
(** a screen size whose height is zero *)
Definition zero_height (s : str) (m : mt) : Prop :=
  m_name m = lit "screen_size" /\ exists h w, captured s m "height" h /\ captured s m "width" w /\ decimal h = 0%Z.
Definition unique_groups (ms : list mt) : Prop := forall m, In m ms -> NoDup (map c_name (m_children m)).
(** the numbers of the groups are numbers *)
Definition numeric_groups (s : str) (ms : list mt) : Prop := forall m n t, In m ms -> (n = "height" \/ n = "width")%string -> captured s m n t -> forallb is_digit t = true.
Definition frame_rates_numeric (s : str) (ms : list mt) : Prop := forall m t, In m ms -> captured s m "frame_rate" t ->
  exists c r, t = c :: r /\ is_digit c = true.

(** ** Proofs *)
Lemma decimal_nonneg ds : forallb is_digit ds = true -> (0 <= decimal ds)%Z.
Proof.
  induction ds as [|c r IH]; cbn [decimal forallb]; [lia|]. intros H. apply andb_prop in H as [H1 H2].
  unfold is_digit in H1. specialize (IH H2). assert (48 <= c)%N by lia.
  assert (0 <= 10 ^ Z.of_nat (List.length r))%Z by (apply Z.pow_nonneg; lia). nia.
Qed.
Lemma within_iff lo hi w h : within lo hi w h = true <-> ratio_within lo hi w h.
Proof.
  unfold within, ratio_within. rewrite Bool.andb_true_iff, !Bool.negb_true_iff.
  assert (G : forall a b, Qle_bool a b = false <-> (b < a)%Q).
  { intros a b. split.
    - intros H. apply Qnot_le_lt. intros L. apply Qle_bool_iff in L. congruence.
    - intros H. destruct (Qle_bool a b) eqn:L; [|reflexivity]. apply Qle_bool_iff in L. exfalso. apply (Qlt_not_le _ _ H L). }
  rewrite !G. reflexivity.
Qed.
Lemma round3_spec w h : (0 < h)%Z ->
  (exists k, (round3 w h * 1000 == inject_Z k)%Q) /\
  (round3 w h - (1 # 2000) <= inject_Z w / inject_Z h)%Q /\ (inject_Z w / inject_Z h <= round3 w h + (1 # 2000))%Q.
Proof.
  intros Hh. unfold round3. set (k := ((2000 * w + h) / (2 * h))%Z).
  assert (K : (2 * h * k <= 2000 * w + h < 2 * h * (k + 1))%Z).
  { assert (H : (2000 * w + h = 2 * h * k + (2000 * w + h) mod (2 * h))%Z) by (apply Z.div_mod; lia). assert (H0 : (0 <= (2000 * w + h) mod (2 * h) < 2 * h)%Z) by (apply Z.mod_pos_bound; lia). lia. }
  clearbody k. rewrite !Qred_correct. destruct h as [|p|p]; try lia.
  assert (D : (inject_Z w / inject_Z (Z.pos p) == w # p)%Q) by (unfold Qeq, Qdiv, Qmult, Qinv, inject_Z; simpl; lia).
  rewrite !D. split; [exists k; rewrite Qred_correct; unfold Qeq, Qmult, inject_Z; cbn [Qnum Qden]; rewrite ?Pos2Z.inj_mul; lia|].
  split; unfold Qle, Qminus, Qplus, Qopp; cbn [Qnum Qden]; rewrite ?Pos2Z.inj_mul; lia.
Qed.
Lemma fps s q : fromstring FrameRate s = Ok q -> q_units q = lit "fps".
Proof.
  unfold fromstring. destruct (parser_match s) as [[[a b] c]|]; [|discriminate]. cbn [parse_units bind]. intros E; injection E as <-. reflexivity.
Qed.
Lemma fromstring_digit c r : is_digit c = true -> exists q, fromstring FrameRate (c :: r) = Ok q.
Proof.
  intros H. unfold fromstring, parser_match. cbn [take_while]. rewrite H. cbn [drop_while]. rewrite H.
  match goal with |- context [let '(_, _) := ?x in _] => destruct x as [f r2] end.
  cbn [parse_units bind]. eexists; reflexivity.
Qed.
(** the frame rates of a match *)
Lemma frame_rates_spec context s m off rates : is_disabled context (lit "frame_rate") = Ok off -> frame_rates context s m = Ok rates ->
  (off = true -> rates = []) /\ (forall x, In x rates -> rate_of s m x) /\
  (off = false -> forall c, In c (m_children m) -> c_name c = lit "frame_rate" -> exists x, In x rates /\ m_start x = c_start c /\ m_end x = c_end c /\ rate_of s m x).
Proof.
  intros Ho. unfold frame_rates. rewrite Ho. cbn [bind]. destruct off.
  - intros E; injection E as <-. split; [auto|]. split; [intros x []|discriminate].
  - intros E. apply mapM_Ok in E. split; [discriminate|].
    assert (G : forall c x, In c (m_children m) -> c_name c = lit "frame_rate" -> frame_rate_match s m c = Ok x -> m_start x = c_start c /\ m_end x = c_end c /\ rate_of s m x).
    { intros c x Hc En. unfold frame_rate_match. destruct (fromstring _ _) as [q|] eqn:Eq; cbn [bind]; [|discriminate]. intros Ex; injection Ex as <-.
      cbn. split; [reflexivity|]. split; [reflexivity|]. unfold rate_of; cbn. split; [exact En|]. split; [exists c; auto|].
      rewrite (fps _ _ Eq). eexists; reflexivity. }
    split.
    + intros x Hx. destruct (Forall2_In_r _ _ _ _ E Hx) as (c & Hc & Ec). apply filter_In in Hc as [Hc En]. apply str_eqb_eq in En. apply (G c x); auto.
    + intros _ c Hc En. destruct (Forall2_In_l _ _ _ c E) as (x & Hx & Ex); [apply filter_In; rewrite str_eqb_eq; auto|]. exists x. split; [exact Hx|]. apply (G c x); auto.
Qed.
(** one screen size *)
Definition processed (context : list (key * val)) (s : str) (standard : list str) (lo hi : Q) (fr_off ar_off : bool) (m m' : mt) (new : list mt) : Prop :=
  (exists v, m' = set_value m v /\ notation s standard lo hi m v) /\
  (forall x, In x new -> (fr_off = false /\ rate_of s m x) \/ (ar_off = false /\ aspect_of s m x)) /\
  (fr_off = false -> forall c, In c (m_children m) -> c_name c = lit "frame_rate" -> exists x, In x new /\ m_start x = c_start c /\ m_end x = c_end c /\ rate_of s m x) /\
  (ar_off = false -> forall h w, captured s m "height" h -> captured s m "width" w -> exists x, In x new /\ aspect_of s m x).
Lemma set_value_self m : set_value m (m_value m) = m.
Proof. destruct m; reflexivity. Qed.
Lemma post_one_spec context s standard lo hi m fr_off ar_off m' new :
  NoDup (map c_name (m_children m)) -> (forall n t, (n = "height" \/ n = "width")%string -> captured s m n t -> forallb is_digit t = true) ->
  is_disabled context (lit "frame_rate") = Ok fr_off -> is_disabled context (lit "aspect_ratio") = Ok ar_off ->
  post_one context s standard lo hi m = Ok (m', new) -> processed context s standard lo hi fr_off ar_off m m' new.
Proof.
  intros ND Num Hf Ha. unfold post_one. destruct (frame_rates context s m) as [rates|] eqn:Er; cbn [bind]; [|discriminate].
  destruct (frame_rates_spec context s m fr_off rates Hf Er) as (R1 & R2 & R3).
  assert (RR : forall x, In x rates -> fr_off = false /\ rate_of s m x).
  { intros x Hx. split; [|auto]. destruct fr_off; [|reflexivity]. rewrite (R1 eq_refl) in Hx. destruct Hx. }
  pose proof (child_text_spec s m "height" ND) as CH. pose proof (child_text_spec s m "width" ND) as CW. pose proof (child_text_spec s m "scan_type" ND) as CS.
  set (t := lower _).
  assert (Hscan : scan s m t).
  { subst t. unfold scan. destruct (child_text s m (lit "scan_type")) as [[|c r]|].
    - destruct CS as [C1 C2]. split; [intros x Hx Hne; apply C2 in Hx; congruence|reflexivity].
    - destruct CS as [C1 C2]. split; [intros x Hx _; apply C2 in Hx; subst; reflexivity|]. intros [H|H]; [nb|apply C2 in H; discriminate].
    - split; [intros x Hx; nb|reflexivity]. }
  destruct (child_text s m (lit "height")) as [h|].
  2:{ intros E; injection E as <- <-. split.
      { exists (m_value m). split; [symmetry; apply set_value_self|]. split; [auto|]. split; [intros h Hh; nb|intros h w Hh; nb]. }
      split; [auto|]. split; [auto|]. intros _ h w Hh; nb. }
  destruct CH as [CH1 CH2]. destruct (child_text s m (lit "width")) as [w|].
  2:{ intros E; injection E as <- <-. split.
      { eexists. split; [reflexivity|]. split; [intros H; nb|]. split.
        - intros h' Hh _. apply CH2 in Hh; subst h'. exists t; auto.
        - intros h' w Hh Hw; nb. }
      split; [auto|]. split; [auto|]. intros _ h' w Hh Hw; nb. }
  destruct CW as [CW1 CW2]. destruct (Z.eqb_spec (dec h) 0) as [|Hz]; [discriminate|]. rewrite Ha. cbn [bind].
  set (a := simple _ _ _ _ _).
  assert (Hpos : (0 < decimal h)%Z).
  { rewrite dec_decimal in Hz. pose proof (decimal_nonneg h (Num "height"%string h (or_introl eq_refl) CH1)). lia. }
  assert (Hasp : aspect_of s m a).
  { subst a. unfold aspect_of, simple; cbn [m_start m_end m_name m_parent m_value]. split; [reflexivity|]. split; [reflexivity|]. split; [reflexivity|]. split; [reflexivity|].
    exists h, w. eexists. split; [exact CH1|]. split; [exact CW1|]. split; [reflexivity|]. rewrite !dec_decimal. apply round3_spec; exact Hpos. }
  intros E.
  assert (En : new = if ar_off then rates else rates ++ [a]) by (destruct (_ && _); injection E; congruence).
  split.
  - exists (MvStr (if smem h standard && within lo hi (dec w) (dec h) then h ++ t else w ++ lit "x" ++ h)).
    split; [destruct (_ && _); injection E; congruence|].
    split; [intros H; nb|]. split; [intros h' _ H; nb|].
    intros h' w' Hh Hw. apply CH2 in Hh. apply CW2 in Hw. subst h' w'.
    assert (B : smem h standard && within lo hi (dec w) (dec h) = true <-> In h standard /\ ratio_within lo hi (decimal w) (decimal h)).
    { rewrite Bool.andb_true_iff, smem_In, within_iff, !dec_decimal. reflexivity. }
    destruct (_ && _); split.
    + intros _; exists t; auto.
    + intros N; exfalso; apply N, B; reflexivity.
    + intros N; apply B in N; discriminate.
    + reflexivity.
  - subst new. destruct ar_off.
    + split; [auto|]. split; [auto|discriminate].
    + split; [intros x Hx; apply in_app_iff in Hx as [Hx|[<-|[]]]; auto|]. split.
      * intros Hfr c Hc Ec. destruct (R3 Hfr c Hc Ec) as (x & Hx & H). exists x. split; [apply in_app_iff; auto|exact H].
      * intros _ h' w' _ _. exists a. split; [apply in_app_iff; right; left; reflexivity|exact Hasp].
Qed.
(** the screen sizes get their notation, in place; then come the new matches, each one a frame rate or an aspect ratio of a
    screen size; nothing else, and nothing that is excluded; every expected one is there (or an equal match) *)
Theorem C38_notation context s standard lo hi ms out fr_off ar_off :
  unique_groups ms -> numeric_groups s ms ->
  is_disabled context (lit "frame_rate") = Ok fr_off -> is_disabled context (lit "aspect_ratio") = Ok ar_off ->
  PostProcess context s standard lo hi ms = Ok out ->
  exists ms' new, out = ms' ++ new /\
    Forall2 (fun m m' => (m_name m <> lit "screen_size" -> m' = m) /\
                         (m_name m = lit "screen_size" -> exists v, m' = set_value m v /\ notation s standard lo hi m v)) ms ms' /\
    (forall x, In x new -> exists m, In m ms /\ m_name m = lit "screen_size" /\
       ((fr_off = false /\ rate_of s m x) \/ (ar_off = false /\ aspect_of s m x))) /\
    (ar_off = false -> forall m h w, In m ms -> m_name m = lit "screen_size" -> captured s m "height" h -> captured s m "width" w ->
       exists x y, aspect_of s m x /\ In y out /\ mkey y = mkey x) /\
    (fr_off = false -> forall m c, In m ms -> m_name m = lit "screen_size" -> In c (m_children m) -> c_name c = lit "frame_rate" ->
       exists x y, rate_of s m x /\ m_start x = c_start c /\ m_end x = c_end c /\ In y out /\ mkey y = mkey x).
Proof.
  intros U Num Hf Ha. unfold PostProcess. destruct (mapM _ ms) as [l|] eqn:E; cbn [bind]; [|discriminate]. intros Eo; injection Eo as <-.
  apply mapM_Ok in E. destruct (append_all_app (flat_map snd l) (map fst l)) as (new & Eo & Hnew).
  assert (P : Forall2 (fun m p => In m ms /\ ((m_name m <> lit "screen_size" -> p = (m, [])) /\
     (m_name m = lit "screen_size" -> processed context s standard lo hi fr_off ar_off m (fst p) (snd p)))) ms l).
  { revert E. apply Forall2_impl_In. intros m p Hm E1. split; [exact Hm|]. destruct (has_name (lit "screen_size") m) eqn:En.
    - apply has_name_iff in En. split; [congruence|]. intros _. destruct p as [m' nw]. apply post_one_spec; auto.
      intros n t Hn. apply Num; assumption.
    - injection E1 as <-. split; [reflexivity|]. intros En'. apply has_name_iff in En'. congruence. }
  exists (map fst l), new. split; [exact Eo|]. split.
  { clear - P. induction P as [|m p k l [_ [H1 H2]] P IH]; cbn [map]; constructor; [|exact IH]. split.
    - intros H. rewrite (H1 H). reflexivity.
    - intros H. destruct (H2 H) as (H3 & _). exact H3. }
  split.
  { intros x Hx. apply Hnew in Hx. apply in_flat_map in Hx as (p & Hp & Hx). destruct (Forall2_In_r _ _ _ _ P Hp) as (m & Hm & _ & H1 & H2).
    exists m. split; [exact Hm|]. destruct (has_name (lit "screen_size") m) eqn:En.
    - apply has_name_iff in En. split; [exact En|]. destruct (H2 En) as (_ & H3 & _). auto.
    - assert (m_name m <> lit "screen_size") as N by (intros N; apply has_name_iff in N; congruence). rewrite (H1 N) in Hx. destruct Hx. }
  assert (K : forall p x, In p l -> In x (snd p) -> exists y, In y (append_all (flat_map snd l) (map fst l)) /\ mkey y = mkey x).
  { intros p x Hp Hx. apply append_all_keys. exists x. split; [right; apply in_flat_map; exists p; auto|reflexivity]. }
  split.
  - intros Har m h w Hm En Hh Hw. destruct (Forall2_In_l _ _ _ m P Hm) as (p & Hp & _ & _ & H2). destruct (H2 En) as (_ & _ & _ & H3).
    destruct (H3 Har h w Hh Hw) as (x & Hx & Hasp). destruct (K p x Hp Hx) as (y & Hy & Ey). exists x, y. auto.
  - intros Hfr m c Hm En Hc Ec. destruct (Forall2_In_l _ _ _ m P Hm) as (p & Hp & _ & _ & H2). destruct (H2 En) as (_ & _ & H3 & _).
    destruct (H3 Hfr c Hc Ec) as (x & Hx & H4 & H5 & H6). destruct (K p x Hp Hx) as (y & Hy & Ey). exists x, y. auto.
Qed.
Print Assumptions C38_notation.
(** limit: a screen size of height zero makes the whole guess fail; it is the only way to fail *)
Theorem C38_zero_height context s standard lo hi ms fr_off ar_off :
  unique_groups ms -> frame_rates_numeric s ms ->
  is_disabled context (lit "frame_rate") = Ok fr_off -> is_disabled context (lit "aspect_ratio") = Ok ar_off ->
  ((exists m, In m ms /\ zero_height s m) -> exists e, PostProcess context s standard lo hi ms = Err e) /\
  (~ (exists m, In m ms /\ zero_height s m) -> exists out, PostProcess context s standard lo hi ms = Ok out).
Proof.
  intros U Fn Hf Ha.
  assert (Fr : forall m, In m ms -> exists rates, frame_rates context s m = Ok rates).
  { intros m Hm. unfold frame_rates. rewrite Hf. cbn [bind]. destruct fr_off; [eexists; reflexivity|]. apply mapM_total.
    intros c Hc. apply filter_In in Hc as [Hc Ec]. apply str_eqb_eq in Ec. destruct (Fn m (slice (c_start c) (c_end c) s) Hm) as (d & r & E & D); [exists c; auto|].
    unfold frame_rate_match. rewrite E. destruct (fromstring_digit d r D) as (q & ->). cbn [bind]. eexists; reflexivity. }
  split.
  - intros (m & Hm & En & h & w & Hh & Hw & Ez). unfold PostProcess.
    assert (F : exists e, (if has_name (lit "screen_size") m then post_one context s standard lo hi m else Ok (m, [])) = Err e).
    { rewrite (proj2 (has_name_iff _ _) En). unfold post_one. destruct (Fr m Hm) as (rates & ->). cbn [bind].
      pose proof (child_text_spec s m "height" (U m Hm)) as CH. pose proof (child_text_spec s m "width" (U m Hm)) as CW.
      destruct (child_text s m (lit "height")) as [h'|]; [|nb]. apply CH in Hh. subst h'.
      destruct (child_text s m (lit "width")) as [w'|]; [|nb].
      rewrite dec_decimal, Ez. eexists; reflexivity. }
    destruct F as (e & F). destruct (mapM_fails (fun m => if has_name (lit "screen_size") m then post_one context s standard lo hi m else Ok (m, [])) ms m e Hm F) as (e' & ->). cbn [bind]. eexists; reflexivity.
  - intros N. unfold PostProcess. destruct (mapM_total (fun m => if has_name (lit "screen_size") m then post_one context s standard lo hi m else Ok (m, [])) ms) as (l & ->).
    2:{ cbn [bind]. eexists; reflexivity. }
    intros m Hm. destruct (has_name (lit "screen_size") m) eqn:En; [|eexists; reflexivity]. apply has_name_iff in En.
    unfold post_one. destruct (Fr m Hm) as (rates & ->). cbn [bind].
    pose proof (child_text_spec s m "height" (U m Hm)) as CH. pose proof (child_text_spec s m "width" (U m Hm)) as CW.
    destruct (child_text s m (lit "height")) as [h|]; [|eexists; reflexivity]. destruct (child_text s m (lit "width")) as [w|]; [|eexists; reflexivity].
    destruct (Z.eqb_spec (dec h) 0) as [Ez|Ez].
    + exfalso. apply N. exists m. split; [exact Hm|]. split; [exact En|]. exists h, w. rewrite <- dec_decimal. tauto.
    + rewrite Ha. cbn [bind]. destruct (_ && _); eexists; reflexivity.
Qed.
Print Assumptions C38_zero_height.
Definition size_s : str := lit "1920x1080p24 640x352 720p 100x000".
Definition size_m (a b : nat) (cs : list child) : mt := mk_mt a b (lit "screen_size") (MvStr (slice a b size_s)) [] false a b None cs.
Definition size_c (a b : nat) (n : string) : child := mk_c a b (lit n) (MvStr (slice a b size_s)).
Definition size_1 : mt := size_m 0 12 [size_c 0 4 "width"; size_c 5 9 "height"; size_c 9 10 "scan_type"; size_c 10 12 "frame_rate"].
Definition size_2 : mt := size_m 13 20 [size_c 13 16 "width"; size_c 17 20 "height"].
Definition size_3 : mt := size_m 21 25 [size_c 21 24 "height"; size_c 24 25 "scan_type"].
Definition size_4 : mt := size_m 26 33 [size_c 26 29 "width"; size_c 30 33 "height"].
Definition std : list str := [lit "360"; lit "720"; lit "1080"].
Example C38_example :
  res_map (map (fun m => (m_name m, m_value m))) (PostProcess [] size_s std (1333 # 1000) (1898 # 1000) [size_1; size_2; size_3]) =
  Ok [(lit "screen_size", MvStr (lit "1080p")); (lit "screen_size", MvStr (lit "640x352")); (lit "screen_size", MvStr (lit "720p"));
      (lit "frame_rate", MvQuant 24 (lit "fps")); (lit "aspect_ratio", MvFloat (889 # 500)); (lit "aspect_ratio", MvFloat (909 # 500))] /\
  PostProcess [] size_s std (1333 # 1000) (1898 # 1000) [size_4] = Err ZeroDivisionError.
Proof. split; reflexivity. Qed.
Example C38_example_hyps : unique_groups [size_1; size_4] /\ zero_height size_s size_4 /\ captured size_s size_1 "height" (lit "1080").
Proof.
  split; [intros m [<-|[<-|[]]]; repeat (constructor; [cbn; intuition discriminate|]); constructor|]. split.
  - split; [reflexivity|]. exists (lit "000"), (lit "100"). split; [exists (size_c 30 33 "height")|split; [exists (size_c 26 29 "width")|reflexivity]]; cbn; auto.
  - exists (size_c 5 9 "height"); cbn; auto.
Qed.

(** ** One value in each path part *)
(** [y] is a screen size in the part [k] *)
Definition size_in (ms : list mt) (k y : mt) : Prop :=
  In y ms /\ m_name y = lit "screen_size" /\ m_start y < m_end k /\ m_start k < m_end y.
Definition later (y z : mt) : Prop := m_start y < m_start z \/ (m_start y = m_start z /\ m_end y < m_end z).
Lemma mval_eqb_neq a b : negb (mval_eqb a b) = true <-> a <> b.
Proof. rewrite Bool.negb_true_iff, <- Bool.not_true_iff_false, mval_eqb_eq. reflexivity. Qed.
Lemma several_spec l : several_values l = true <-> exists a b, In a l /\ In b l /\ m_value a <> m_value b.
Proof.
  destruct l as [|x r]; cbn [several_values]; [split; [discriminate|intros (a & _ & [] & _)]|]. rewrite existsb_exists. split.
  - intros (y & Hy & H). apply mval_eqb_neq in H. exists x, y. cbn; auto.
  - intros (a & b & Ha & Hb & N). destruct (mval_eq_dec (m_value x) (m_value a)) as [E|E].
    + exists b. rewrite mval_eqb_neq. destruct Hb as [->|Hb]; [congruence|]. split; [exact Hb|congruence].
    + exists a. rewrite mval_eqb_neq. destruct Ha as [->|Ha]; [congruence|]. auto.
Qed.
Theorem C38_only_one s markers ms : inside s ms -> inside s markers -> distinct ms ->
  (forall a b, In a ms -> In b ms -> m_name a = lit "screen_size" -> m_name b = lit "screen_size" -> m_start a = m_start b -> m_end a = m_end b -> a = b) ->
  exists keep, OnlyOne s markers ms = filter keep ms /\
    forall y, In y ms -> (keep y = false <->
      exists k, In k markers /\ m_name k = lit "path" /\ size_in ms k y /\
        (exists a b, size_in ms k a /\ size_in ms k b /\ m_value a <> m_value b) /\ (exists z, size_in ms k z /\ later y z)).
Proof.
  intros Hi Hk Hd Sp.
  assert (R : forall k y, In k markers -> In y (range s ms (m_start k) (m_end k) (has_name (lit "screen_size"))) <-> size_in ms k y).
  { intros k y Hin. rewrite range_In'; [|exact Hi|apply Hk; exact Hin]. rewrite has_name_iff. unfold size_in. tauto. }
  assert (X : forall k y, In k markers -> In y (extra_sizes s ms k) <->
     size_in ms k y /\ (exists a b, size_in ms k a /\ size_in ms k b /\ m_value a <> m_value b) /\ (exists z, size_in ms k z /\ later y z)).
  { intros k y Hin. unfold extra_sizes. specialize (R k). 
    assert (S : StronglySorted (fun a b => mt_le a b = true) (range s ms (m_start k) (m_end k) (has_name (lit "screen_size")))) by (unfold range; apply filter_sorted, filter_sorted, msorted_sorted).
    assert (ND : NoDup (range s ms (m_start k) (m_end k) (has_name (lit "screen_size")))) by (unfold range; apply NoDup_filter, NoDup_filter, distinct_NoDup, distinct_msorted; exact Hd).
    set (l := range _ _ _ _ _) in *.
    assert (V : several_values (rev l) = true <-> exists a b, size_in ms k a /\ size_in ms k b /\ m_value a <> m_value b).
    { rewrite several_spec. split; intros (a & b & Ha & Hb & N); exists a, b; rewrite <- ?in_rev, ?R in *; auto. }
    assert (Len : several_values (rev l) = true -> 1 < List.length (rev l)).
    { destruct (rev l) as [|a [|b r]]; cbn; try discriminate; lia. }
    destruct (several_values (rev l)) eqn:Es.
    2:{ rewrite Bool.andb_false_r. split; [intros []|]. intros (_ & H & _). apply V in H. discriminate. }
    specialize (Len eq_refl). rewrite (proj2 (Nat.ltb_lt _ _) Len). cbn [andb].
    assert (exists l0 z, l = l0 ++ [z]) as (l0 & z & El).
    { destruct (rev l) as [|z r] eqn:Er; [cbn in Len; lia|]. exists (rev r), z. rewrite <- (rev_involutive l), Er. reflexivity. }
    assert (T : forall x, In x (tl (rev l)) <-> In x l0) by (intros x; rewrite El, rev_app_distr; cbn [rev app tl]; symmetry; apply in_rev).
    assert (Z : forall x, In x l0 -> mt_le x z = true).
    { clear - S El. rewrite El in S. clear El. induction l0 as [|a r IH]; [intros x []|]. cbn [app] in S. inversion S as [|? ? S' F]; subst. rewrite Forall_forall in F.
      intros x [->|Hx]; [apply F, in_app_iff; right; left; reflexivity|apply IH; auto]. }
    rewrite T. split.
    - intros Hy. assert (Hyl : In y l) by (rewrite El; apply in_app_iff; auto). split; [apply R; auto|]. split; [apply V; reflexivity|].
      exists z. assert (Hz : In z l) by (rewrite El; apply in_app_iff; right; left; reflexivity). split; [apply R; auto|].
      specialize (Z y Hy). unfold mt_le in Z. assert (y <> z).
      { intros ->. rewrite El in ND. apply NoDup_remove_2 in ND. apply ND. rewrite app_nil_r. exact Hy. }
      unfold later. apply R in Hyl, Hz; auto. destruct (Nat.eq_dec (m_start y) (m_start z)) as [E1|], (Nat.eq_dec (m_end y) (m_end z)) as [E2|]; try lia.
      exfalso. apply H. apply Sp; try (apply Hyl || apply Hz); auto.
    - intros (Hy & _ & (z' & Hz' & L)). apply R in Hy, Hz'; auto. rewrite El in Hy, Hz'. apply in_app_iff in Hy as [Hy|[<-|[]]]; [exact Hy|].
      exfalso. apply in_app_iff in Hz' as [Hz'|[<-|[]]]; [|unfold later in L; lia]. specialize (Z z' Hz'). unfold mt_le in Z. unfold later in L. lia. }
  unfold OnlyOne. destruct (remove_keep (flat_map (extra_sizes s ms) (named (lit "path") markers)) ms Hd) as (keep & E & Hkeep).
  { intros m Hm. apply in_flat_map in Hm as (k & Hin & H). apply named_In in Hin as [Hin _]. apply X in H; [|exact Hin]. apply H. }
  exists keep. split; [exact E|]. intros y Hy. rewrite (Hkeep y Hy), in_flat_map. split.
  - intros (k & Hin & H). apply named_In in Hin as [Hin En]. apply X in H; [|exact Hin]. exists k. tauto.
  - intros (k & Hin & En & H). exists k. split; [apply named_In; auto|]. apply X; auto.
Qed.
Print Assumptions C38_only_one.
Example C38_only_one_example :
  OnlyOne (lit "1080p/720p 1080p") [simple 0 5 (lit "path") (MvStr []) []; simple 6 16 (lit "path") (MvStr []) []]
    [simple 0 5 (lit "screen_size") (MvStr (lit "1080p")) []; simple 6 10 (lit "screen_size") (MvStr (lit "720p")) []; simple 11 16 (lit "screen_size") (MvStr (lit "1080p")) []]
  = [simple 0 5 (lit "screen_size") (MvStr (lit "1080p")) []; simple 11 16 (lit "screen_size") (MvStr (lit "1080p")) []].
Proof. reflexivity. Qed.

(** ** Conflicts with seasons and episodes *)
Definition numbering (m : mt) : Prop := m_name m = lit "season" \/ m_name m = lit "episode".
(** the first screen size of the part *)
Definition first_size (ms : list mt) (k z : mt) : Prop := size_in ms k z /\ forall y, size_in ms k y -> ~ later y z.
(** a video profile comes next in the part, or a date, source, other or streaming service comes just before *)
Definition good_neighbour (s : str) (ms : list mt) (k z : mt) : Prop :=
  (exists p, (In p ms /\ m_name p = lit "video_profile" /\ m_start p < m_end k /\ m_end z < m_end p) /\
     (forall y, In y ms -> m_name y = lit "video_profile" -> m_start y < m_end k -> m_end z < m_end y -> m_start p <= m_start y) /\
     adjacent s ms (m_end z) (m_start p)) \/
  (exists p, just_before ms z p /\ In (m_name p) [lit "date"; lit "source"; lit "other"; lit "streaming_service"] /\ adjacent s ms (m_end p) (m_start z)).
Theorem C38_conflicts s markers ms : nonempty ms -> inside s ms -> inside s markers -> distinct ms ->
  (forall a b, In a ms -> In b ms -> m_name a = lit "screen_size" -> m_name b = lit "screen_size" -> m_start a = m_start b -> m_end a = m_end b -> a = b) ->
  exists keep, ResolveConflicts s markers ms = filter keep ms /\
    forall y, In y ms -> (keep y = false <->
      exists k z, In k markers /\ m_name k = lit "path" /\ first_size ms k z /\
        (exists c, In c ms /\ numbering c /\ overlapping z c) /\
        ((good_neighbour s ms k z /\ numbering y /\ overlapping z y) \/ (~ good_neighbour s ms k z /\ y = z))).
Proof.
  intros Hn Hi Hk Hd Sp.
  assert (Ho : forall y, In y ms -> m_start y <= m_end y) by (intros y Hy; apply Hn in Hy; lia).
  assert (Tr : forall x, In x ms -> m_truthy x = true) by (intros x Hx; apply Hn in Hx; unfold m_truthy; lia).
  assert (Nb : forall x, season_or_episode x = true <-> numbering x) by (intros x; unfold season_or_episode, numbering; rewrite smem_In; cbn; intuition).
  assert (X : forall k y, In k markers -> In y (size_conflicts s ms k) <->
     exists z, first_size ms k z /\ (exists c, In c ms /\ numbering c /\ overlapping z c) /\
        ((good_neighbour s ms k z /\ In y ms /\ numbering y /\ overlapping z y) \/ (~ good_neighbour s ms k z /\ y = z))).
  { intros k y Hin. unfold size_conflicts.
    pose proof (range_first s ms (m_start k) (m_end k) (has_name (lit "screen_size")) Hi (proj2 (Hk k Hin))) as F.
    destruct (first _) as [z|].
    2:{ split; [intros []|]. intros (z & ((Hz & En & H1 & H2) & _) & _). specialize (F z Hz H1 H2). apply has_name_iff in En. congruence. }
    destruct F as [(Hz & H1 & H2 & En) Hfirst]. apply has_name_iff in En. rewrite (Tr z Hz). cbn [negb].
    assert (Fz : first_size ms k z).
    { split; [unfold size_in; auto|]. intros w (Hw & Ew & Hw1 & Hw2) L. apply has_name_iff in Ew. specialize (Hfirst w Hw Hw1 Hw2 Ew). unfold mt_le in Hfirst. unfold later in L. lia. }
    assert (Uz : forall z', first_size ms k z' -> z' = z).
    { intros z' [Hz' L]. pose proof (L z (proj1 Fz)). pose proof (proj2 Fz z' Hz'). destruct Hz' as (A1 & A2 & _). apply Sp; auto; unfold later in *; lia. }
    assert (C : forall x, In x (conflicting z ms season_or_episode) <-> In x ms /\ season_or_episode x = true /\ overlapping z x).
    { intros x. apply conflicting_In; auto. destruct (season_or_episode z) eqn:E; [|reflexivity]. apply Nb in E. unfold numbering in E. rewrite En in E. destruct E; discriminate. }
    match goal with |- context [if ?p then conflicting _ _ _ else []] => idtac | _ => idtac end.
    set (profile := match first (range s ms (m_end z) (m_end k) (has_name (lit "video_profile"))) with Some p => _ | None => false end).
    set (before := match first (previous z ms good_before) with Some p => _ | None => false end).
    assert (G : profile || before = true <-> good_neighbour s ms k z).
    { rewrite Bool.orb_true_iff. unfold good_neighbour.
      assert (P1 : profile = true <-> (exists p, (In p ms /\ m_name p = lit "video_profile" /\ m_start p < m_end k /\ m_end z < m_end p) /\
        (forall y, In y ms -> m_name y = lit "video_profile" -> m_start y < m_end k -> m_end z < m_end y -> m_start p <= m_start y) /\ adjacent s ms (m_end z) (m_start p))).
      { subst profile. pose proof (range_first s ms (m_end z) (m_end k) (has_name (lit "video_profile")) Hi (proj2 (Hk k Hin))) as F. destruct (first (range s ms (m_end z) (m_end k) (has_name (lit "video_profile")))) as [p|].
        - destruct F as [(P1 & P2 & P3 & P4) P5]. apply has_name_iff in P4. rewrite (Tr p P1). cbn [andb].
          rewrite not_text by (auto; pose proof (Hi p P1); lia).
          assert (Pm : forall y, In y ms -> m_name y = lit "video_profile" -> m_start y < m_end k -> m_end z < m_end y -> m_start p <= m_start y).
          { intros w W1 W2 W3 W4. apply has_name_iff in W2. specialize (P5 w W1 W3 W4 W2). unfold mt_le in P5. lia. }
          split.
          + intros A. exists p. auto.
          + intros (q & (Q1 & Q2 & Q3 & Q4) & Q5 & A). replace (m_start p) with (m_start q); [exact A|]. specialize (Q5 p P1 P4 P2 P3). specialize (Pm q Q1 Q2 Q3 Q4). lia.
        - split; [discriminate|]. intros (p & (P1 & P2 & P3 & P4) & _). specialize (F p P1 P3 P4). apply has_name_iff in P2. congruence. }
      assert (P2 : before = true <-> (exists p, just_before ms z p /\ In (m_name p) [lit "date"; lit "source"; lit "other"; lit "streaming_service"] /\ adjacent s ms (m_end p) (m_start z))).
      { subst before. pose proof (first_spec (previous z ms good_before)) as F. destruct (first (previous z ms good_before)) as [p|].
        - apply previous_In in F as (F0 & F1 & F2 & F3). unfold good_before in F0. apply smem_In in F0. rewrite (Tr p F1). cbn [andb].
          rewrite not_text by (auto; pose proof (Hi z Hz); lia). split.
          + intros A. exists p. unfold just_before. auto.
          + intros (q & (J1 & J2 & J3) & _ & A). replace (m_end p) with (m_end q); [exact A|]. specialize (F3 q J1 J2). specialize (J3 p F1 F2). lia.
        - split; [discriminate|]. intros (p & (J1 & J2 & J3) & V & _). assert (In p []) as []. rewrite <- F. apply previous_In. unfold good_before. rewrite smem_In. auto. }
      rewrite P1, P2. reflexivity. }
    destruct (conflicting z ms season_or_episode) as [|c0 cs].
    { split; [intros []|]. intros (z' & Fz' & (c & Hc & Nc & O) & _). rewrite (Uz z' Fz') in O. apply (proj2 (C c)). rewrite Nb. auto. }
    assert (Cl : exists c, In c ms /\ numbering c /\ overlapping z c) by (exists c0; rewrite <- Nb; apply C; left; reflexivity).
    assert (M : In y ((if profile then c0 :: cs else []) ++ (if before then c0 :: cs else []) ++ (if profile || before then [] else [z])) <->
       (profile || before = true /\ In y (c0 :: cs)) \/ (profile || before = false /\ y = z)).
    { rewrite !in_app_iff. destruct profile, before; cbn [orb]; cbn; intuition congruence. }
    rewrite M, C, Nb, G. split.
    - intros [H|[H ->]]; exists z; (split; [exact Fz|]); (split; [exact Cl|]); [left; tauto|right]. split; [|reflexivity]. rewrite <- G. congruence.
    - intros (z' & Fz' & _ & H). rewrite (Uz z' Fz') in H. destruct H as [H|[H ->]]; [left; tauto|right]. split; [|reflexivity]. apply Bool.not_true_iff_false. rewrite G. exact H. }
  unfold ResolveConflicts. destruct (remove_keep (flat_map (size_conflicts s ms) (named (lit "path") markers)) ms Hd) as (keep & E & Hkeep).
  { intros m Hm. apply in_flat_map in Hm as (k & Hin & H). apply named_In in Hin as [Hin _]. apply X in H; [|exact Hin].
    destruct H as (z & ((Hz & _) & _) & _ & [H|[_ ->]]); [tauto|exact Hz]. }
  exists keep. split; [exact E|]. intros y Hy. rewrite (Hkeep y Hy), in_flat_map. split.
  - intros (k & Hin & H). apply named_In in Hin as [Hin En]. apply X in H; [|exact Hin]. destruct H as (z & H1 & H2 & H3). exists k, z. tauto.
  - intros (k & z & Hin & En & H1 & H2 & H3). exists k. split; [apply named_In; auto|]. apply X; [exact Hin|]. exists z. tauto.
Qed.
Print Assumptions C38_conflicts.
Definition cf_s : str := lit "a 720 Hi10P/WEB 720/b 720".
Definition cf_ms : list mt :=
  [simple 2 5 (lit "screen_size") (MvStr (lit "720p")) []; simple 2 3 (lit "season") (MvInt 7) []; simple 3 5 (lit "episode") (MvInt 20) [];
   simple 6 11 (lit "video_profile") (MvStr (lit "High 10")) []; simple 12 15 (lit "source") (MvStr (lit "Web")) [];
   simple 16 19 (lit "screen_size") (MvStr (lit "720p")) []; simple 17 19 (lit "episode") (MvInt 20) [];
   simple 22 25 (lit "screen_size") (MvStr (lit "720p")) []; simple 23 25 (lit "episode") (MvInt 20) []].
Example C38_conflicts_example :
  map (fun m => (m_start m, m_name m)) (ResolveConflicts cf_s [simple 0 11 (lit "path") (MvStr []) []; simple 12 19 (lit "path") (MvStr []) []; simple 20 25 (lit "path") (MvStr []) []] cf_ms)
  = [(2, lit "screen_size"); (6, lit "video_profile"); (12, lit "source"); (16, lit "screen_size"); (23, lit "episode")].
Proof. reflexivity. Qed.
