(** C91: what is found of the screen sizes written in a name. *)
From Verif Require Import Py PyFacts Text TextFacts WordsProofs Regex CrcProofs DateProofs RegexFacts Quantity Episodes Rebulk Patterns PatternsProps Keyword KeywordProofs KeywordProps KeywordTable ScreenPatterns ScreenPatternsProps.
From Coq Require Import Arith Permutation ZifyBool ZifyNat ZifyN.
Local Open Scope nat_scope.

(** ** Specification *)
Definition piece (s : str) (name : string) (x y : nat) : child := mk_c x y (lit name) (MvStr (slice x y s)).
(** three or four digits and a cross, or nothing *)
Definition width_part (s : str) (a m : nat) (kids : list child) : Prop :=
  (m = a /\ kids = []) \/
  exists q c, number (slice a q s) /\ a + 3 <= q <= a + 4 /\ q <= List.length s /\ nth_error s q = Some c /\ In c (lit "xX*") /\ m = S q /\ kids = [piece s "width" a q].
Definition height_part (heights : list string) (s : str) (m e : nat) (kids : list child) : Prop :=
  In (slice m e s) (map lit heights) /\ m <= e <= List.length s /\ kids = [piece s "height" m e].
Definition scan_part (letters : string) (s : str) (e f : nat) (kids : list child) : Prop :=
  exists c, nth_error s e = Some c /\ In c (lit letters) /\ f = S e /\ kids = [piece s "scan_type" e f].
Definition nothing (e f : nat) (kids : list child) : Prop := f = e /\ kids = [].
Definition rate_texts : list str :=
  [lit "23.976"; lit "29.970"] ++
  flat_map (fun n => [n; n ++ lit ".0"; n ++ lit ".00"; n ++ lit ".000"]) (map lit ["24"; "25"; "30"; "48"; "50"; "60"; "120"]%string).
Definition rate_part (s : str) (f b : nat) (kids : list child) : Prop :=
  In (slice f b s) rate_texts /\ f <= b <= List.length s /\ kids = [piece s "frame_rate" f b].
(** a word, in any case *)
Definition word_part (w : string) (s : str) (e b : nat) : Prop := e <= b <= List.length s /\ lower (slice e b s) = lit w.
Definition interlaced_heights : list string := ["360"; "480"; "540"; "576"; "900"; "1080"]%string.
Definition progressive_heights : list string := interlaced_heights ++ ["368"; "720"; "1440"; "2160"; "4320"]%string.
(** a screen size from [a] to [b], and the parts of it *)
Inductive size (s : str) (a b : nat) : list child -> Prop :=
| size_i m e f k1 k2 k3 k4 : width_part s a m k1 -> height_part interlaced_heights s m e k2 -> scan_part "iI" s e f k3 ->
    rate_part s f b k4 \/ nothing f b k4 -> size s a b (k1 ++ k2 ++ k3 ++ k4)
| size_p m e f k1 k2 k3 k4 : width_part s a m k1 -> height_part progressive_heights s m e k2 -> scan_part "pP" s e f k3 ->
    rate_part s f b k4 \/ nothing f b k4 -> size s a b (k1 ++ k2 ++ k3 ++ k4)
| size_hd m e f k1 k2 k3 : width_part s a m k1 -> height_part progressive_heights s m e k2 -> scan_part "pP" s e f k3 \/ nothing e f k3 ->
    word_part "hd" s f b -> size s a b (k1 ++ k2 ++ k3)
| size_x m e f k1 k2 k3 : width_part s a m k1 -> height_part progressive_heights s m e k2 -> scan_part "pP" s e f k3 \/ nothing e f k3 ->
    word_part "x" s f b \/ b = f -> size s a b (k1 ++ k2 ++ k3).
(** nothing goes on across the separators around: not a cross, nor the decimals of a frame rate *)
Definition decimals (t : str) : Prop := exists r, t = lit "97" ++ r \/ t = lit "0" ++ r.
Definition clear_before (s : str) (a : nat) : Prop := forall c, 0 < a -> nth_error s (a - 1) = Some c -> c <> 42%N /\ (c = 46%N -> ~ decimals (skipn a s)).
Definition clear_after (s : str) (b : nat) : Prop := forall c, nth_error s b = Some c -> c <> 42%N /\ (c = 46%N -> ~ decimals (skipn (S b) s)).
(** the match of a screen size, before its value is computed *)
Definition size_match (s : str) (a b : nat) (kids : list child) : mt := mk_mt a b (lit "screen_size") (MvStr (slice a b s)) [] false a b None kids.

(** ** an unambiguous expression finds exactly what is written *)
Definition same_caps (x y : caps) : bool := if list_eq_dec (prod_eq_dec Nat.eq_dec (prod_eq_dec Nat.eq_dec Nat.eq_dec)) x y then true else false.
Definition clear_b (l : list alt) (y : alt) : bool :=
  forallb (fun x => if Nat.eqb (List.length (al_items x)) (List.length (al_items y)) then if overlap (al_items x) (al_items y) then same_caps (al_grps x) (al_grps y) else true else true) l.
Definition unambiguous (k : kre) : bool := let l := alts k in forallb (clear_b l) l.
Lemma unambiguous_true k x y : unambiguous k = true -> In x (alts k) -> In y (alts k) -> List.length (al_items x) = List.length (al_items y) -> overlap (al_items x) (al_items y) = true -> al_grps x = al_grps y.
Proof.
  unfold unambiguous. rewrite forallb_forall. intros H Hx Hy L O. specialize (H y Hy). unfold clear_b in H. rewrite forallb_forall in H. specialize (H x Hx). cbv beta in H. rewrite L, Nat.eqb_refl, O in H.
  unfold same_caps in H. destruct (list_eq_dec _ _ _); [assumption|discriminate].
Qed.
Lemma kre_exact s k a b c : solid k = true -> greedy k = true -> unambiguous k = true -> a <= List.length s -> M s (kre_re k) a [] b c ->
  (forall a' b' e, a' < a -> M s (kre_re k) a' [] b' e -> b' <= a) -> (forall b' e, M s (kre_re k) a [] b' e -> b' <= b) -> In (a, b, c) (finditer s (kre_re k)).
Proof.
  intros Hs G U La HM F1 F2. destruct (kre_longest s k Hs a b c G La HM F1 F2) as [c' Hf]. pose proof Hf as Hf'. apply finditer_sound in Hf' as (_ & _ & HM'); [|exact (kre_consumes s k Hs)].
  destruct (M_alt_caps s k a b c HM La) as (x & Hx & Ox & Ex & ->), (M_alt_caps s k a b c' HM' La) as (y & Hy & Oy & Ey & ->).
  replace (al_grps x) with (al_grps y); [exact Hf|]. apply (unambiguous_true k y x U Hy Hx); [lia|]. unfold alt_ok in Ox, Oy. apply Bool.andb_true_iff in Ox as [Ox _], Oy as [Oy _]. exact (overlap_true s a _ _ Oy Ox).
Qed.

(** ** the separators inside *)
Fixpoint gaps (f : item -> list item -> bool) (l : list item) : bool := match l with [] => true | i :: r => (if sepish i then f i r else true) && gaps f r end.
Definition quiet (f : item -> list item -> bool) (k : kre) : bool := forallb (fun x => gaps f (al_items x)) (alts k).
Lemma gaps_at f s i l p c : gaps f l = true -> items_ok s i l = true -> i <= p < i + List.length l -> nth_error s p = Some c -> In c seps ->
  exists it r, accepts it c = true /\ f it r = true /\ items_ok s (S p) r = true /\ List.length r = i + List.length l - S p.
Proof.
  revert i. induction l as [|it l IH]; intros i; cbn [gaps items_ok List.length]; [lia|]. rewrite Bool.andb_true_iff. intros [G1 G2] O L E H.
  destruct (nth_error s i) as [d|] eqn:Ed; [|discriminate]. apply Bool.andb_true_iff in O as [A O]. destruct (Nat.eq_dec p i) as [->|N].
  - rewrite Ed in E. injection E as ->. rewrite (sepish_true it c H A) in G1. exists it, l. repeat split; auto. lia.
  - destruct (IH (S i) G2 O ltac:(lia) E H) as (it' & r & A' & F & O' & L'). exists it', r. repeat split; auto. lia.
Qed.
Lemma quiet_in f k x : quiet f k = true -> In x (alts k) -> gaps f (al_items x) = true.
Proof. unfold quiet. rewrite forallb_forall. intros H Hx. exact (H x Hx). Qed.
(** the separators of the screen sizes: the cross, and the point of a frame rate *)
Definition screen_gap (i : item) (r : list item) : bool :=
  match i with
  | IChr c => N.eqb c 42 || (N.eqb c 46 && match r with IChr d :: r' => N.eqb d 48 || (N.eqb d 57 && match r' with IChr e :: _ => N.eqb e 55 | _ => false end) | _ => false end)
  | _ => false
  end.
Lemma to_lower_other c d : to_lower c = d -> (d < 97)%N -> c = d.
Proof. unfold to_lower, is_upper. destruct ((65 <=? c)%N && (c <=? 90)%N) eqn:E; lia. Qed.
Lemma screen_gap_text s p c i r : accepts i c = true -> screen_gap i r = true -> items_ok s (S p) r = true -> c = 42%N \/ (c = 46%N /\ decimals (skipn (S p) s)).
Proof.
  destruct i as [d| | | | | | |]; cbn [screen_gap]; try discriminate. cbn [accepts]. rewrite N.eqb_eq, Bool.orb_true_iff, Bool.andb_true_iff, !N.eqb_eq. intros A [->|[-> H]] O.
  - left. apply (to_lower_other c 42%N A). lia.
  - right. split; [apply (to_lower_other c 46%N A); lia|]. destruct r as [|[d| | | | | | |] r]; try discriminate. cbn [items_ok] in O. destruct (nth_error s (S p)) as [x|] eqn:Ex; [|discriminate]. apply Bool.andb_true_iff in O as [O1 O2]. cbn [accepts] in O1. apply N.eqb_eq in O1.
    rewrite (skipn_nth s _ _ Ex). apply Bool.orb_true_iff in H as [H|H].
    + apply N.eqb_eq in H as ->. apply (to_lower_other x 48%N) in O1; [|lia]. subst x. eexists. right. reflexivity.
    + apply Bool.andb_true_iff in H as [H1 H2]. apply N.eqb_eq in H1 as ->. apply (to_lower_other x 57%N) in O1; [|lia]. subst x. destruct r as [|[e| | | | | | |] r]; try discriminate. apply N.eqb_eq in H2 as ->.
      cbn [items_ok] in O2. destruct (nth_error s (S (S p))) as [y|] eqn:Ey; [|discriminate]. apply Bool.andb_true_iff in O2 as [O2 _]. cbn [accepts] in O2. apply N.eqb_eq in O2. apply (to_lower_other y 55%N) in O2; [|lia]. subst y.
      rewrite (skipn_nth s _ _ Ey). eexists. left. reflexivity.
Qed.
Lemma screen_exact s k a b c : solid k = true -> greedy k = true -> unambiguous k = true -> quiet screen_gap k = true -> a <= List.length s -> M s (kre_re k) a [] b c ->
  alone s a b -> clear_before s a -> clear_after s b -> In (a, b, c) (finditer s (kre_re k)).
Proof.
  intros Hs G U Q La HM [A B] C1 C2. apply kre_exact; try assumption.
  - intros a' b' e L' HM'. destruct (M_alt s k a' b' e HM' ltac:(lia)) as (x & Hx & Ox & ->). unfold alt_ok in Ox. apply Bool.andb_true_iff in Ox as [Ox _].
    destruct (Nat.le_gt_cases (a' + List.length (al_items x)) a) as [|L]; [assumption|exfalso]. destruct (nth_error s (a - 1)) as [d|] eqn:Ed; [|apply nth_error_None in Ed; lia].
    destruct (gaps_at screen_gap s a' _ (a - 1) d (quiet_in _ k x Q Hx) Ox ltac:(lia) Ed (A d ltac:(lia) eq_refl)) as (it & r & Ai & F & O & _).
    replace (S (a - 1)) with a in O by lia. destruct (C1 d ltac:(lia) Ed) as [N1 N2]. destruct (screen_gap_text s (a - 1) d it r Ai F) as [|[e1 e2]]; [replace (S (a - 1)) with a by lia; exact O|contradiction|]. apply (N2 e1). replace a with (S (a - 1)) by lia. exact e2.
  - intros b' e HM'. destruct (M_alt s k a b' e HM' La) as (x & Hx & Ox & ->). unfold alt_ok in Ox. apply Bool.andb_true_iff in Ox as [Ox _].
    destruct (Nat.le_gt_cases (a + List.length (al_items x)) b) as [|L]; [assumption|exfalso]. assert (Lab : a <= b) by (apply M_mono in HM; apply HM).
    assert (Lb : a + List.length (al_items x) <= List.length s) by (destruct (al_items x) as [|z l] eqn:El; [cbn [List.length] in *; lia|apply (items_len s a (z :: l) Ox); discriminate]).
    destruct (nth_error s b) as [d|] eqn:Ed; [|apply nth_error_None in Ed; lia].
    destruct (gaps_at screen_gap s a _ b d (quiet_in _ k x Q Hx) Ox ltac:(lia) Ed (B d eq_refl)) as (it & r & Ai & F & O & _).
    destruct (C2 d Ed) as [N1 N2]. destruct (screen_gap_text s b d it r Ai F O) as [|[e1 e2]]; [contradiction|exact (N2 e1 e2)].
Qed.

(** ** what the parts of the expressions read *)
Section Parts.
  Context (s : str).
  Lemma M_plain k i c j d : kre_groups k = [] -> i <= List.length s -> M s (kre_re k) i c j d <-> d = c /\ i <= j <= List.length s /\ spells k (slice i j s) (skipn j s).
  Proof.
    intros G L.
    assert (Q : forall k i c j d, kre_groups k = [] -> M s (kre_re k) i c j d -> d = c).
    { clear. induction k as [|it|a IHa b IHb|a IHa b IHb|a IHa|n nm a IHa| |it|a IHa]; intros i c j d G H; cbn [kre_re kre_groups] in *; try (inversion H; subst; reflexivity); try discriminate.
      - apply app_eq_nil in G as [G1 G2]. apply M_seq_inv in H as (m & e & H1 & H2). apply IHa in H1; [|exact G1]. apply IHb in H2; [|exact G2]. congruence.
      - apply app_eq_nil in G as [G1 G2]. apply M_alt_inv in H as [H|H]; eauto.
      - apply M_alt_inv in H as [H|H]; [eauto|inversion H; reflexivity]. }
    rewrite <- (M_spells s k i c j L). split; [intros H; split; [exact (Q k i c j d G H)|eauto]|]. intros [-> [e H]]. pose proof (Q k i c j e G H) as ->. exact H.
  Qed.
  Lemma M_group n nm k i c j d : kre_groups k = [] -> i <= List.length s ->
    M s (kre_re (KGrp n nm k)) i c j d <-> d = (n, (i, j)) :: c /\ i <= j <= List.length s /\ spells k (slice i j s) (skipn j s).
  Proof.
    intros G L. cbn [kre_re]. split.
    - intros H. apply M_grp_inv in H as (e & -> & H). apply (M_plain k i c j e G L) in H as [-> H]. auto.
    - intros [-> H]. constructor. apply (M_plain k i c j c G L). auto.
  Qed.
  Lemma M_seq_iff a b i c j d : M s (kre_re (KSeq a b)) i c j d <-> exists m e, M s (kre_re a) i c m e /\ M s (kre_re b) m e j d.
  Proof. cbn [kre_re]. split; [intros H; apply M_seq_inv in H as (m & e & H1 & H2); eauto|]. intros (m & e & H1 & H2). econstructor; eassumption. Qed.
  Lemma M_opt_iff a i c j d : M s (kre_re (KOpt a)) i c j d <-> M s (kre_re a) i c j d \/ (j = i /\ d = c).
  Proof.
    cbn [kre_re]. split; [intros H; apply M_alt_inv in H as [H|H]; [auto|inversion H; auto]|]. intros [H|[-> ->]]; [apply M_alt_l, H|apply M_alt_r; constructor].
  Qed.
End Parts.
(** expressions made of characters that have no case *)
Definition chr_of (i : item) : option N := match i with IChr c => if (c <? 65)%N then Some c else None | _ => None end.
Fixpoint chrs_of (l : list item) : option str := match l with [] => Some [] | i :: r => match chr_of i, chrs_of r with Some c, Some t => Some (c :: t) | _, _ => None end end.
Fixpoint texts_of (l : list alt) : option (list str) :=
  match l with [] => Some [] | x :: r => match al_conds x, chrs_of (al_items x), texts_of r with [], Some t, Some ts => Some (t :: ts) | _, _, _ => None end end.
Lemma chrs_items s i l t : chrs_of l = Some t -> items_ok s i l = true <-> reads s i (i + List.length l) t \/ (l = [] /\ t = []).
Proof.
  revert i t. induction l as [|it l IH]; intros i t; cbn [chrs_of items_ok List.length].
  - intros H; injection H as <-. split; [right; auto|reflexivity].
  - destruct (chr_of it) as [c|] eqn:Ec; [|discriminate]. destruct (chrs_of l) as [u|] eqn:Eu; [|discriminate]. intros H; injection H as <-.
    destruct it as [d| | | | | | |]; cbn [chr_of] in Ec; try discriminate. destruct (d <? 65)%N eqn:Ld; [|discriminate]. injection Ec as ->. specialize (IH (S i) u eq_refl).
    replace (i + S (List.length l)) with (S i + List.length l) by lia. rewrite reads_cons. destruct (nth_error s i) as [x|] eqn:Ex.
    + rewrite Bool.andb_true_iff, IH. cbn [accepts]. rewrite N.eqb_eq. assert (El : to_lower c = c) by (unfold to_lower, is_upper; destruct ((65 <=? c)%N && (c <=? 90)%N) eqn:E; lia). rewrite El.
      split.
      * intros [H1 H2]. left. apply to_lower_other in H1; [|lia]. subst x. split; [reflexivity|]. destruct H2 as [H2|[-> ->]]; [exact H2|]. cbn [List.length]. rewrite Nat.add_0_r. split; [apply nth_error_lt in Ex; lia|]. unfold slice. rewrite Nat.sub_diag. reflexivity.
      * intros [(H1 & H2)|[H1 _]]; [|discriminate]. injection H1 as ->. split; [exact El|]. left; exact H2.
    + split; [discriminate|]. intros [(H1 & _)|[H1 _]]; discriminate.
Qed.
Lemma texts_alt l ts t : texts_of l = Some ts -> In t ts <-> exists x, In x l /\ al_conds x = [] /\ chrs_of (al_items x) = Some t.
Proof.
  revert ts. induction l as [|x l IH]; intros ts; cbn [texts_of]; [intros H; injection H as <-; split; [intros []|intros (x & [] & _)]|].
  destruct (al_conds x) as [|] eqn:Ec; [|discriminate]. destruct (chrs_of (al_items x)) as [u|] eqn:Eu; [|discriminate]. destruct (texts_of l) as [us|] eqn:El; [|discriminate]. intros H; injection H as <-. specialize (IH us eq_refl). split.
  - intros [->|H]; [exists x; repeat split; auto; left; reflexivity|]. apply IH in H as (y & Hy & H1 & H2). exists y. repeat split; auto. right; exact Hy.
  - intros (y & [->|Hy] & H1 & H2); [left; congruence|]. right. apply IH. eauto.
Qed.
Lemma chrs_length l t : chrs_of l = Some t -> List.length t = List.length l.
Proof.
  revert t. induction l as [|i l IH]; intros t; cbn [chrs_of]; [intros H; injection H as <-; reflexivity|]. destruct (chr_of i); [|discriminate]. destruct (chrs_of l) as [u|]; [|discriminate]. intros H; injection H as <-. cbn [List.length]. f_equal. apply IH. reflexivity.
Qed.
Lemma texts_spells k ts t after : texts_of (alts k) = Some ts -> spells k t after <-> In t ts.
Proof.
  intros E. rewrite (texts_alt _ ts t E).
  assert (Sl : slice 0 (List.length t) (t ++ after) = t) by (unfold slice; rewrite Nat.sub_0_r; cbn [skipn]; rewrite firstn_app, firstn_all, Nat.sub_diag; cbn [firstn]; apply app_nil_r).
  assert (Sk : skipn (List.length t) (t ++ after) = after) by (rewrite skipn_app, skipn_all, Nat.sub_diag; reflexivity).
  assert (W : spells k t after <-> exists d, M (t ++ after) (kre_re k) 0 [] (List.length t) d).
  { rewrite (M_spells (t ++ after) k 0 [] (List.length t)) by lia. rewrite Sl, Sk, app_length. split; [intros H; split; [lia|exact H]|intros [_ H]; exact H]. }
  rewrite W. clear W. split.
  - intros [d H]. apply M_alt in H as (x & Hx & Ox & Lx); [|lia]. unfold alt_ok in Ox. apply Bool.andb_true_iff in Ox as [Ox _].
    assert (R : exists u, al_conds x = [] /\ chrs_of (al_items x) = Some u).
    { clear - E Hx. revert ts E. induction (alts k) as [|y l IH]; intros ts E; [destruct Hx|]. cbn [texts_of] in E. destruct (al_conds y) eqn:Ec; [|discriminate]. destruct (chrs_of (al_items y)) as [u|] eqn:Eu; [|discriminate]. destruct (texts_of l) as [us|]; [|discriminate].
      destruct Hx as [<-|Hx]; [eauto|exact (IH Hx us eq_refl)]. }
    destruct R as (u & Ec & Eu). exists x. split; [exact Hx|]. split; [exact Ec|]. rewrite Eu. f_equal. apply (chrs_items _ _ _ _ Eu) in Ox as [[L1 R]|[R ->]].
    + cbn [Nat.add] in *. rewrite <- Lx in R. rewrite <- R. exact Sl.
    + rewrite R in Lx. destruct t; [reflexivity|discriminate].
  - intros (x & Hx & Ec & Eu). pose proof (chrs_length _ _ Eu) as Lt.
    assert (Ox : alt_ok (t ++ after) 0 x = true).
    { unfold alt_ok. rewrite Ec. cbn [forallb]. rewrite Bool.andb_true_r. apply (chrs_items _ _ _ _ Eu). left. split; [rewrite app_length; lia|]. cbn [Nat.add]. rewrite <- Lt. exact Sl. }
    destruct (first_some_In (taken (t ++ after) 0 [] (fun j e => if Nat.eqb j (List.length t) then Some (j, e) else None)) (alts k) x (List.length t, shift 0 (al_grps x) ++ []) Hx) as [[z w] F].
    + unfold taken. rewrite Ox, <- Lt, Nat.eqb_refl. reflexivity.
    + rewrite <- mtch_alts in F. apply mtch_sound in F as (j & e & HM & F). destruct (Nat.eqb_spec j (List.length t)) as [->|]; [eauto|discriminate].
Qed.
Definition same_texts (a b : list str) : bool := forallb (fun t => smem t b) a && forallb (fun t => smem t a) b.
Lemma same_texts_in a b t : same_texts a b = true -> In t a <-> In t b.
Proof. unfold same_texts. rewrite Bool.andb_true_iff, !forallb_forall. intros [H1 H2]. split; intros H; apply smem_In; auto. Qed.
Lemma heights_spell (h : list kre) (hs : list string) t after : match texts_of (alts (or_kre h)) with Some ts => same_texts ts (map lit hs) = true | None => False end -> spells (or_kre h) t after <-> In t (map lit hs).
Proof. destruct (texts_of (alts (or_kre h))) as [ts|] eqn:E; [|intros []]. intros H. rewrite (texts_spells _ ts t after E). apply same_texts_in, H. Qed.
Lemma interlaced_spell t after : spells (or_kre default_interlaced) t after <-> In t (map lit interlaced_heights).
Proof. apply heights_spell. vm_compute. reflexivity. Qed.
Lemma progressive_spell t after : spells (or_kre default_progressive) t after <-> In t (map lit progressive_heights).
Proof. apply heights_spell. vm_compute. reflexivity. Qed.
Lemma rates_spell t after : spells (or_kre default_rates) t after <-> In t rate_texts.
Proof.
  assert (E : exists ts, texts_of (alts (or_kre default_rates)) = Some ts /\ same_texts ts rate_texts = true) by (eexists; split; vm_compute; reflexivity).
  destruct E as (ts & E1 & E2). rewrite (texts_spells _ ts t after E1). apply same_texts_in, E2.
Qed.

(** ** the expressions and the specification *)
Section Whole.
  Context (s : str).
  Definition g_kids (names : list (nat * string)) (c : caps) : list child := flat_map (fun g => match group (fst g) c with Some (x, y) => [piece s (snd g) x y] | None => [] end) names.
  Lemma width_digits_spells t after : spells width_digits t after <-> number t /\ 3 <= List.length t <= 4.
  Proof.
    unfold width_digits, krange. cbn [spells kopts krep]. unfold number. split.
    - intros H. repeat match goal with
        | H : exists _, _ |- _ => destruct H
        | H : _ /\ _ |- _ => destruct H
        | H : _ \/ _ |- _ => destruct H
        end; subst; cbn [app List.length accepts] in *; unfold is_digit in *;
        (split; [split; [discriminate|]; intros y Hy; cbn [In app] in Hy; intuition (subst; lia)|lia]).
    - intros [[_ D] L].
      assert (Q : forall c r, (forall y, In y (c :: r) -> (48 <= y <= 57)%N) -> accepts IDig c = true /\ (forall y, In y r -> (48 <= y <= 57)%N)).
      { intros c r H. split; [cbn [accepts]; specialize (H c (or_introl eq_refl)); unfold is_digit; lia|intros y Hy; apply H; right; exact Hy]. }
      destruct t as [|x1 [|x2 [|x3 t]]]; cbn [List.length] in L; try lia. apply Q in D as [D1 D]. apply Q in D as [D2 D]. apply Q in D as [D3 D].
      exists [x1], (x2 :: x3 :: t). split; [reflexivity|]. split; [eauto|]. exists [x2], (x3 :: t). split; [reflexivity|]. split; [eauto|]. exists [x3], t. split; [reflexivity|]. split; [eauto|].
      destruct t as [|x4 [|x5 t]]; cbn [List.length] in L; try lia; [right; reflexivity|]. left. apply Q in D as [D4 D]. exists [x4], []. repeat split; eauto.
  Qed.
  Lemma times_spells t after : spells times_kre t after <-> exists c, t = [c] /\ In c (lit "xX*").
  Proof.
    unfold times_kre. cbn [spells]. unfold word_kre. rewrite !text_spells. change (lower (lit "x")) with [120%N]. change (lower (lit "*")) with [42%N]. change (lit "xX*") with [120%N; 88%N; 42%N]. split.
    - intros [H|H]; destruct t as [|c [|]]; try discriminate; cbn [lower map] in H; injection H as H; exists c; (split; [reflexivity|]); unfold to_lower, is_upper in H; destruct ((65 <=? c)%N && (c <=? 90)%N) eqn:E; cbn [In]; lia.
    - intros (c & -> & [<-|[<-|[<-|[]]]]); [left|left|right]; reflexivity.
  Qed.
  Lemma M_width a m e : a <= List.length s -> M s (kre_re width_kre) a [] m e <->
    (m = a /\ e = []) \/ exists q c, number (slice a q s) /\ a + 3 <= q <= a + 4 /\ q <= List.length s /\ nth_error s q = Some c /\ In c (lit "xX*") /\ m = S q /\ e = [(1, (a, q))].
  Proof.
    intros L. unfold width_kre. rewrite M_opt_iff, M_seq_iff. unfold group_kre. split; intros [H|H]; [right|left; exact H|right; exact H|left].
    - destruct H as (q & e' & H1 & H2). apply M_group in H1 as (-> & L1 & H1); [|reflexivity|exact L]. apply width_digits_spells in H1 as [H1 L1']. rewrite slice_len in L1' by lia.
      apply M_plain in H2 as (-> & L2 & H2); [|reflexivity|lia]. apply times_spells in H2 as (c & H2 & Hc). assert (R : reads s q m [c]) by (split; [lia|exact H2]). apply reads_one in R as [-> R]. exists q, c. split; [exact H1|]. split; [lia|]. split; [lia|]. auto.
    - destruct H as (q & c & H1 & L1 & L2 & Hc & Hi & -> & ->). pose proof (nth_error_lt _ _ _ Hc). exists q, [(1, (a, q))]. split.
      + apply M_group; [reflexivity|exact L|]. split; [reflexivity|]. split; [lia|]. apply width_digits_spells. rewrite slice_len by lia. split; [exact H1|lia].
      + apply M_plain; [reflexivity|lia|]. split; [reflexivity|]. split; [lia|]. apply times_spells. exists c. split; [|exact Hi]. apply (proj2 (reads_one s q (S q) c) (conj eq_refl Hc)).
  Qed.
  Lemma M_height h hs m c e d : (forall t after, spells (or_kre h) t after <-> In t (map lit hs)) -> kre_groups (or_kre h) = [] -> m <= List.length s ->
    M s (kre_re (height_kre h)) m c e d <-> In (slice m e s) (map lit hs) /\ m <= e <= List.length s /\ d = (2, (m, e)) :: c.
  Proof. intros H G L. unfold height_kre, group_kre. rewrite M_group by assumption. rewrite H. tauto. Qed.
  Lemma M_rate f c b d : f <= List.length s -> M s (kre_re (group_kre 4 "frame_rate" (or_kre default_rates))) f c b d <-> In (slice f b s) rate_texts /\ f <= b <= List.length s /\ d = (4, (f, b)) :: c.
  Proof. intros L. unfold group_kre. rewrite M_group by (exact L || vm_compute; reflexivity). rewrite rates_spell. tauto. Qed.
  Lemma M_scan (l : string) (ls : string) e c f d : (forall t after, spells (word_kre l) t after <-> exists x, t = [x] /\ In x (lit ls)) -> kre_groups (word_kre l) = [] -> e <= List.length s ->
    M s (kre_re (group_kre 3 "scan_type" (word_kre l))) e c f d <-> exists x, nth_error s e = Some x /\ In x (lit ls) /\ f = S e /\ d = (3, (e, f)) :: c.
  Proof.
    intros H G L. unfold group_kre. rewrite M_group by assumption. rewrite H. split.
    - intros (-> & L1 & x & E & Hx). assert (R : reads s e f [x]) by (split; assumption). apply reads_one in R as [-> R]. exists x. auto.
    - intros (x & E & Hx & -> & ->). split; [reflexivity|]. pose proof (nth_error_lt _ _ _ E). split; [lia|]. exists x. split; [|exact Hx]. apply (proj2 (reads_one s e (S e) x) (conj eq_refl E)).
  Qed.
  Lemma letter_spells (l : string) (x X : N) t after : lower (lit l) = [x] -> (97 <= x <= 122)%N -> X = (x - 32)%N -> spells (word_kre l) t after <-> exists y, t = [y] /\ In y [x; X].
  Proof.
    intros E L ->. unfold word_kre. rewrite text_spells, E. split.
    - intros H. destruct t as [|y [|]]; try discriminate. cbn [lower map] in H. injection H as H. exists y. split; [reflexivity|]. unfold to_lower, is_upper in H. destruct ((65 <=? y)%N && (y <=? 90)%N) eqn:Ey; cbn [In]; lia.
    - intros (y & -> & [<-|[<-|[]]]); cbn [lower map]; unfold to_lower, is_upper; f_equal; [destruct ((65 <=? x)%N && (x <=? 90)%N) eqn:Ey; lia|]. destruct ((65 <=? x - 32)%N && (x - 32 <=? 90)%N) eqn:Ey; lia.
  Qed.
  Lemma p_spells t after : spells (word_kre "p") t after <-> exists x, t = [x] /\ In x (lit "pP").
  Proof. apply (letter_spells "p" 112%N 80%N); [reflexivity|lia|reflexivity]. Qed.
  Lemma i_spells t after : spells (word_kre "i") t after <-> exists x, t = [x] /\ In x (lit "iI").
  Proof. apply (letter_spells "i" 105%N 73%N); [reflexivity|lia|reflexivity]. Qed.
  Lemma M_word (w : string) e c b d : lower (lit w) = lit w -> e <= List.length s -> M s (kre_re (word_kre w)) e c b d <-> word_part w s e b /\ d = c.
  Proof.
    intros Hw L. unfold word_kre. rewrite M_plain; [|generalize (lit w); intros t; induction t as [|x t IH]; [reflexivity|exact IH]|exact L].
    rewrite text_spells, Hw. unfold word_part. tauto.
  Qed.
  (** the parts of a match *)
  Definition screen_names : list (nat * string) := [(1, "width"); (2, "height"); (3, "scan_type"); (4, "frame_rate")]%string.
  Definition caps_of (w : option (nat * nat)) (h : nat * nat) (sc fr : option (nat * nat)) : caps :=
    match fr with Some x => [(4, x)] | None => [] end ++ match sc with Some x => [(3, x)] | None => [] end ++ [(2, h)] ++ match w with Some x => [(1, x)] | None => [] end.
  Definition opt_kid (n : string) (x : option (nat * nat)) : list child := match x with Some (a, b) => [piece s n a b] | None => [] end.
  Lemma g_kids_caps w h sc fr : g_kids screen_names (caps_of w h sc fr) = opt_kid "width" w ++ [piece s "height" (fst h) (snd h)] ++ opt_kid "scan_type" sc ++ opt_kid "frame_rate" fr.
  Proof. destruct w as [[? ?]|], h as [? ?], sc as [[? ?]|], fr as [[? ?]|]; reflexivity. Qed.
  Lemma rated_iff h hs l ls a b d : (forall t after, spells (or_kre h) t after <-> In t (map lit hs)) -> kre_groups (or_kre h) = [] ->
    (forall t after, spells (word_kre l) t after <-> exists x, t = [x] /\ In x (lit ls)) -> kre_groups (word_kre l) = [] -> a <= List.length s ->
    M s (kre_re (rated_kre h default_rates l)) a [] b d <->
    exists m e f k1 k2 k3 k4, width_part s a m k1 /\ height_part hs s m e k2 /\ scan_part ls s e f k3 /\ (rate_part s f b k4 \/ nothing f b k4) /\
      exists w sc fr, d = caps_of w (m, e) sc fr /\ k1 = opt_kid "width" w /\ k3 = opt_kid "scan_type" sc /\ k4 = opt_kid "frame_rate" fr.
  Proof.
    intros Hh Gh Hl Gl L. unfold rated_kre. rewrite M_seq_iff. split.
    - intros (m & e1 & H1 & H2). assert (Lm : m <= List.length s) by (apply M_mono in H1; apply H1, L). apply M_width in H1; [|exact L]. apply M_seq_iff in H2 as (e & e2 & H2 & H3). apply (M_height h hs) in H2 as (H2 & Le & ->); [|assumption..].
      apply M_seq_iff in H3 as (f & e3 & H3 & H4). apply (M_scan l ls) in H3 as (x & E3 & Hx & -> & ->); [|assumption|assumption|lia]. pose proof (nth_error_lt _ _ _ E3).
      apply M_opt_iff in H4. rewrite M_rate in H4 by lia.
      destruct H1 as [[-> ->]|(q & c & N1 & L1 & L2 & Hc & Hi & -> & ->)]; destruct H4 as [(H4 & L4 & ->)|[-> ->]].
      + exists a, e, (S e), [], [piece s "height" a e], [piece s "scan_type" e (S e)], [piece s "frame_rate" (S e) b]. split; [left; auto|]. split; [split; auto|]. split; [exists x; auto|]. split; [left; split; auto|]. exists None, (Some (e, S e)), (Some (S e, b)). repeat split.
      + exists a, e, (S e), [], [piece s "height" a e], [piece s "scan_type" e (S e)], []. split; [left; auto|]. split; [split; auto|]. split; [exists x; auto|]. split; [right; split; auto|]. exists None, (Some (e, S e)), None. repeat split.
      + exists (S q), e, (S e), [piece s "width" a q], [piece s "height" (S q) e], [piece s "scan_type" e (S e)], [piece s "frame_rate" (S e) b]. split; [right; exists q, c; auto 10|]. split; [split; auto|]. split; [exists x; auto|]. split; [left; split; auto|]. exists (Some (a, q)), (Some (e, S e)), (Some (S e, b)). repeat split.
      + exists (S q), e, (S e), [piece s "width" a q], [piece s "height" (S q) e], [piece s "scan_type" e (S e)], []. split; [right; exists q, c; auto 10|]. split; [split; auto|]. split; [exists x; auto|]. split; [right; split; auto|]. exists (Some (a, q)), (Some (e, S e)), None. repeat split.
    - intros (m & e & f & k1 & k2 & k3 & k4 & W & (H1 & L1 & K2) & (x & E3 & Hx & -> & K3) & R & w & sc & fr & -> & K1 & K3' & K4). subst k1 k3 k4.
      assert (Ew : (m = a /\ w = None) \/ exists q c, number (slice a q s) /\ a + 3 <= q <= a + 4 /\ q <= List.length s /\ nth_error s q = Some c /\ In c (lit "xX*") /\ m = S q /\ w = Some (a, q)).
      { destruct W as [[-> Ew]|(q & c & N1 & W1 & W2 & W3 & W4 & W5 & W6)]; destruct w as [[u v]|]; try discriminate; [left; auto|]. right. exists q, c. injection W6 as -> -> _. auto 10. }
      assert (Es : sc = Some (e, S e)) by (destruct sc as [[u v]|]; [|discriminate]; injection K3' as -> -> _; reflexivity). subst sc. pose proof (nth_error_lt _ _ _ E3).
      assert (Ef : (In (slice (S e) b s) rate_texts /\ S e <= b <= List.length s /\ fr = Some (S e, b)) \/ (b = S e /\ fr = None)).
      { destruct R as [(R1 & R2 & R3)|[-> R3]]; destruct fr as [[u v]|]; try discriminate; [left; injection R3 as -> -> _; auto|right; auto]. }
      exists m, (match w with Some x => [(1, x)] | None => [] end). split.
      { apply M_width; [exact L|]. destruct Ew as [[-> ->]|(q & c & Q)]; [left; auto|right; exists q, c; destruct Q as (Q1 & Q2 & Q3 & Q4 & Q5 & -> & ->); auto 10]. }
      apply M_seq_iff. exists e, ((2, (m, e)) :: match w with Some x => [(1, x)] | None => [] end). split; [apply (M_height h hs); [assumption|assumption|lia|auto]|].
      apply M_seq_iff. exists (S e), ((3, (e, S e)) :: (2, (m, e)) :: match w with Some x => [(1, x)] | None => [] end). split; [apply (M_scan l ls); [assumption|assumption|lia|exists x; auto]|].
      apply M_opt_iff. destruct Ef as [(R1 & R2 & ->)|[-> ->]]; [left|right; auto]. apply M_rate; [lia|]. auto.
  Qed.
  Lemma short_iff h hs T P a b d : (forall t after, spells (or_kre h) t after <-> In t (map lit hs)) -> kre_groups (or_kre h) = [] ->
    (forall f c b d, f <= List.length s -> M s (kre_re T) f c b d <-> P f b /\ d = c) -> a <= List.length s ->
    M s (kre_re (KSeq width_kre (KSeq (height_kre h) (KSeq (KOpt (group_kre 3 "scan_type" (word_kre "p"))) T)))) a [] b d <->
    exists m e f k1 k2 k3, width_part s a m k1 /\ height_part hs s m e k2 /\ (scan_part "pP" s e f k3 \/ nothing e f k3) /\ P f b /\
      exists w sc, d = caps_of w (m, e) sc None /\ k1 = opt_kid "width" w /\ k3 = opt_kid "scan_type" sc.
  Proof.
    intros Hh Gh HT L. rewrite M_seq_iff. split.
    - intros (m & e1 & H1 & H2). assert (Lm : m <= List.length s) by (apply M_mono in H1; apply H1, L). apply M_width in H1; [|exact L]. apply M_seq_iff in H2 as (e & e2 & H2 & H3). apply (M_height h hs) in H2 as (H2 & Le & ->); [|assumption..].
      apply M_seq_iff in H3 as (f & e3 & H3 & H4). assert (Lf : f <= List.length s) by (apply M_mono in H3; apply H3; lia). apply HT in H4 as [H4 ->]; [|exact Lf].
      apply M_opt_iff in H3. rewrite (M_scan "p" "pP" _ _ _ _ p_spells eq_refl) in H3 by lia.
      destruct H1 as [[-> ->]|(q & c & N1 & L1 & L2 & Hc & Hi & -> & ->)]; destruct H3 as [(x & E3 & Hx & -> & ->)|[-> ->]].
      + exists a, e, (S e), [], [piece s "height" a e], [piece s "scan_type" e (S e)]. split; [left; auto|]. split; [split; auto|]. split; [left; exists x; auto|]. split; [exact H4|]. exists None, (Some (e, S e)). repeat split.
      + exists a, e, e, [], [piece s "height" a e], []. split; [left; auto|]. split; [split; auto|]. split; [right; split; auto|]. split; [exact H4|]. exists None, None. repeat split.
      + exists (S q), e, (S e), [piece s "width" a q], [piece s "height" (S q) e], [piece s "scan_type" e (S e)]. split; [right; exists q, c; auto 10|]. split; [split; auto|]. split; [left; exists x; auto|]. split; [exact H4|]. exists (Some (a, q)), (Some (e, S e)). repeat split.
      + exists (S q), e, e, [piece s "width" a q], [piece s "height" (S q) e], []. split; [right; exists q, c; auto 10|]. split; [split; auto|]. split; [right; split; auto|]. split; [exact H4|]. exists (Some (a, q)), None. repeat split.
    - intros (m & e & f & k1 & k2 & k3 & W & (H1 & L1 & K2) & Sc & HP & w & sc & -> & K1 & K3). subst k1 k3.
      assert (Ew : (m = a /\ w = None) \/ exists q c, number (slice a q s) /\ a + 3 <= q <= a + 4 /\ q <= List.length s /\ nth_error s q = Some c /\ In c (lit "xX*") /\ m = S q /\ w = Some (a, q)).
      { destruct W as [[-> Ew]|(q & c & N1 & W1 & W2 & W3 & W4 & W5 & W6)]; destruct w as [[u v]|]; try discriminate; [left; auto|]. right. exists q, c. injection W6 as -> -> _. auto 10. }
      assert (Es : (exists x, nth_error s e = Some x /\ In x (lit "pP") /\ f = S e /\ sc = Some (e, S e)) \/ (f = e /\ sc = None)).
      { destruct Sc as [(x & S1 & S2 & -> & S3)|[-> S3]]; destruct sc as [[u v]|]; try discriminate; [left; exists x; injection S3 as -> -> _; auto|right; auto]. }
      assert (Lf : f <= List.length s) by (destruct Es as [(x & Ex & _ & -> & _)|[-> _]]; [apply nth_error_lt in Ex; lia|lia]).
      exists m, (match w with Some x => [(1, x)] | None => [] end). split.
      { apply M_width; [exact L|]. destruct Ew as [[-> ->]|(q & c & Q)]; [left; auto|right; exists q, c; destruct Q as (Q1 & Q2 & Q3 & Q4 & Q5 & -> & ->); auto 10]. }
      apply M_seq_iff. exists e, ((2, (m, e)) :: match w with Some x => [(1, x)] | None => [] end). split; [apply (M_height h hs); [assumption|assumption|lia|auto]|].
      apply M_seq_iff. exists f, (caps_of w (m, e) sc None). split; [|apply HT; [exact Lf|auto]].
      apply M_opt_iff. destruct Es as [(x & S1 & S2 & -> & ->)|[-> ->]]; [left|right; auto]. apply (M_scan "p" "pP" _ _ _ _ p_spells eq_refl); [lia|]. exists x. auto.
  Qed.
  Lemma hd_iff a b d : a <= List.length s -> M s (kre_re (hd_kre default_progressive)) a [] b d <->
    exists m e f k1 k2 k3, width_part s a m k1 /\ height_part progressive_heights s m e k2 /\ (scan_part "pP" s e f k3 \/ nothing e f k3) /\ word_part "hd" s f b /\
      exists w sc, d = caps_of w (m, e) sc None /\ k1 = opt_kid "width" w /\ k3 = opt_kid "scan_type" sc.
  Proof. intros L. apply short_iff; [exact progressive_spell|vm_compute; reflexivity| |exact L]. intros f c b' d' Lf. apply M_word; [reflexivity|exact Lf]. Qed.
  Lemma bare_iff a b d : a <= List.length s -> M s (kre_re (bare_kre default_progressive)) a [] b d <->
    exists m e f k1 k2 k3, width_part s a m k1 /\ height_part progressive_heights s m e k2 /\ (scan_part "pP" s e f k3 \/ nothing e f k3) /\ (word_part "x" s f b \/ b = f) /\
      exists w sc, d = caps_of w (m, e) sc None /\ k1 = opt_kid "width" w /\ k3 = opt_kid "scan_type" sc.
  Proof.
    intros L. apply (short_iff default_progressive progressive_heights (KOpt (word_kre "x")) (fun f b => word_part "x" s f b \/ b = f)); [exact progressive_spell|vm_compute; reflexivity| |exact L].
    intros f c b' d' Lf. rewrite M_opt_iff, M_word by (reflexivity || exact Lf). tauto.
  Qed.
  Lemma plain_In k a b c : In (a, b, c) (finditer s (kre_re k)) -> alone s a b -> In (rx_parent (plain_rx "screen_size" MvStr k) s a b c) (rx_matches (plain_rx "screen_size" MvStr k) s).
  Proof.
    intros H A. unfold rx_matches. apply in_flat_map. exists (a, b, c). split; [exact H|]. unfold rx_one. cbn [plain_rx rx_children rx_validate_all rx_valid rx_private_parent negb orb andb].
    replace (seps_surround s _) with true; [left; reflexivity|]. symmetry. apply seps_alone. exact A.
  Qed.
  Lemma plain_inv n v k m : solid k = true -> In m (rx_matches (plain_rx n v k) s) -> exists a b c, In (a, b, c) (finditer s (kre_re k)) /\ a < b <= List.length s /\ M s (kre_re k) a [] b c /\ alone s a b /\ m = rx_parent (plain_rx n v k) s a b c.
  Proof.
    intros Hs H. unfold rx_matches in H. apply in_flat_map in H as ([[a b] c] & Hf & H). exists a, b, c. split; [exact Hf|]. apply finditer_sound in Hf as (L & _ & HM); [|exact (kre_consumes s k Hs)]. split; [exact L|]. split; [exact HM|].
    unfold rx_one in H. cbn [plain_rx rx_children rx_validate_all rx_valid rx_private_parent negb orb andb] in H. destruct (seps_surround s _) eqn:E; [|destruct H]. destruct H as [<-|[]]. split; [|reflexivity]. apply seps_alone in E. exact E.
  Qed.
End Whole.

(** ** the default patterns are checked *)
Definition checked (k : kre) : bool := if solid k then if greedy k then if unambiguous k then quiet screen_gap k else false else false else false.
Lemma checked_parts k : checked k = true -> solid k = true /\ greedy k = true /\ unambiguous k = true /\ quiet screen_gap k = true.
Proof. unfold checked. destruct (solid k), (greedy k), (unambiguous k); try discriminate; auto. Qed.
Definition k_i := rated_kre default_interlaced default_rates "i".
Definition k_p := rated_kre default_progressive default_rates "p".
Definition k_hd := hd_kre default_progressive.
Definition k_bare := bare_kre default_progressive.
Lemma checked_i : checked k_i = true.
Proof. vm_cast_no_check (eq_refl true). Qed.
Lemma checked_p : checked k_p = true.
Proof. vm_cast_no_check (eq_refl true). Qed.
Lemma checked_hd : checked k_hd = true.
Proof. vm_cast_no_check (eq_refl true). Qed.
Lemma checked_bare : checked k_bare = true.
Proof. vm_cast_no_check (eq_refl true). Qed.
