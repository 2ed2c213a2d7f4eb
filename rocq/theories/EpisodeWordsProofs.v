(** What the episode-word expressions take at a position. *)
From Verif Require Import Py PyFacts Text TextFacts WordsProofs Regex CrcProofs DateProofs RegexFacts RegexOuts Numeral NumeralProofs Date Rebulk RebulkFacts Episodes EpisodeRules EpisodeRulesProps IntProps Patterns PatternsProps DiscProps SxxProps Chain EpisodeChains NumeralRe NumeralReProofs PartProps EpisodeWords.
From Coq Require Import Arith ZifyBool ZifyNat ZifyN.
Local Open Scope nat_scope.

Lemma best_mtch s r i c : mtch s r i c (fun j d => Some (j, d)) = best s r i c.
Proof. rewrite mtch_total by discriminate. destruct (best s r i c) as [[j d]|]; reflexivity. Qed.
Lemma best_M s r i c j d : best s r i c = Some (j, d) -> M s r i c j d.
Proof. unfold best. intros H. apply outs_M. destruct (outs s r i c) as [|o l]; [discriminate|]. cbn [hd_error] in H. injection H as ->. left. reflexivity. Qed.
Lemma best_none s r i c : i <= List.length s -> best s r i c = None -> forall j d, ~ M s r i c j d.
Proof. intros L H. rewrite <- best_mtch in H. refine (mtch_none s r i c _ L _ H). discriminate. Qed.
Lemma best_digits1 s i c : match best s digits1 i c with Some (j, d) => d = c /\ i < j <= List.length s /\ all_in s is_digit i j /\ stops s is_digit j | None => stops s is_digit i end.
Proof.
  destruct (best s digits1 i c) as [[j d]|] eqn:E.
  - rewrite <- best_mtch in E. apply plus_max in E as (j' & L & A & S & E); [|discriminate]. injection E as <- <-. auto.
  - intros x Ex. destruct (is_digit x) eqn:D; [exfalso|reflexivity]. pose proof (nth_error_lt _ _ _ Ex) as L.
    apply (best_none s digits1 i c ltac:(lia) E (S i) c). apply M_digits. split; [reflexivity|]. split; [lia|]. intros q Hq. exists x. replace q with i by lia. auto.
Qed.
Lemma best_opt_re s r i c : best s (ropt r 1) i c = match best s r i c with Some o => Some o | None => Some (i, c) end.
Proof.
  cbn [ropt]. rewrite best_alt. rewrite best_seq by (intros; discriminate). destruct (best s r i c) as [[j d]|]; reflexivity.
Qed.
(** the words that begin the text *)
Lemma outs_words s l k c : l <> [] -> outs s (rwords l) k c = map (fun w => (k + List.length w, c)) (filter (fun w => startswith w (at_ s k)) l).
Proof.
  induction l as [|w l IH]; [congruence|]. intros _. destruct l as [|w' l].
  - cbn [rwords filter]. rewrite outs_lit. destruct (startswith w (at_ s k)); reflexivity.
  - change (rwords (w :: w' :: l)) with (RAlt (rlit w) (rwords (w' :: l))). change (outs s (RAlt (rlit w) (rwords (w' :: l))) k c) with (outs s (rlit w) k c ++ outs s (rwords (w' :: l)) k c).
    rewrite outs_lit, IH by discriminate. change (filter ?f (w :: w' :: l)) with (if f w then w :: filter f (w' :: l) else filter f (w' :: l)). destruct (startswith w (at_ s k)); reflexivity.
Qed.
Lemma best_words_then s n l R k c : l <> [] -> best s (RSeq (RGrp n (rwords l)) R) k c =
  match find (fun w => startswith w (at_ s k) && match best s R (k + List.length w) ((n, (k, k + List.length w)) :: c) with Some _ => true | None => false end) l with
  | Some w => best s R (k + List.length w) ((n, (k, k + List.length w)) :: c)
  | None => None
  end.
Proof.
  intros Hl. unfold best. cbn [outs]. rewrite (outs_words s l k c Hl). clear Hl. induction l as [|w l IH]; [reflexivity|]. cbn [filter find]. destruct (startswith w (at_ s k)); cbn [andb]; [|exact IH].
  cbn [map flat_map fst snd]. destruct (outs s R (k + List.length w) ((n, (k, k + List.length w)) :: c)) as [|o r] eqn:Eo; cbn [app hd_error]; [exact IH|rewrite Eo; reflexivity].
Qed.
Lemma best_dash_then s R j c : (forall y, nth_error s j = Some y -> In y seps -> best s R j c = None) -> best s (RSeq dash_opt R) j c = best s R (after_dash s j) c.
Proof.
  intros H. unfold best. cbn [outs dash_opt ropt dash flat_map app fst snd]. unfold after_dash. destruct (nth_error s j) as [y|] eqn:E; [|cbn [flat_map app fst snd]; rewrite app_nil_r; reflexivity].
  destruct (cmem y seps_no_fs) eqn:C; [|cbn [flat_map app fst snd]; rewrite app_nil_r; reflexivity].
  cbn [flat_map app fst snd]. apply no_fs_iff in C as (C & _). specialize (H y eq_refl C). unfold best in H. destruct (outs s R j c); [|discriminate]. cbn [app]. rewrite app_nil_r. reflexivity.
Qed.

Section Tail.
  Context (s : str) (ofs : list str) (Hofs : letters ofs).
  Definition version_at (y z : nat) : Prop := (exists q, nth_error s y = Some q /\ to_lower q = 118%N) /\ S y < z /\ all_in s is_digit (S y) z.
  Definition of_at (z v b : nat) : Prop := exists u w, joined s z u /\ word s ofs u w /\ joined s w v /\ v < b /\ all_in s is_digit v b.
  Definition ver_step (y : nat) (c : caps) (z : nat) (e : caps) : Prop :=
    (z = y /\ e = c /\ forall z', ~ version_at y z') \/ (version_at y z /\ stops s is_digit z /\ e = (3, (S y, z)) :: c).
  Definition of_step (z : nat) (e : caps) (b : nat) (d : caps) : Prop :=
    (b = z /\ d = e /\ forall v b', ~ of_at z v b') \/ exists v, of_at z v b /\ stops s is_digit b /\ d = (4, (v, b)) :: e.
  Lemma version_M y c z e : M s version_re y c z e <-> version_at y z /\ e = (3, (S y, z)) :: c.
  Proof.
    unfold version_re, version_at. split.
    - intros H. apply M_sq in H as (j & d & H1 & H2). change (lit "v") with [118]%N in H1. apply one_of_iff in H1 as (-> & -> & H1). apply M_group in H2 as (d & -> & H2). apply M_digits in H2 as (-> & H2 & H3). auto.
    - intros ((H1 & H2 & H3) & ->). apply M_sq. exists (S y), c. split; [change (lit "v") with [118]%N; apply one_of_iff; auto|]. apply M_group. exists c. split; [reflexivity|]. apply M_digits. auto.
  Qed.
  Lemma of_M z c b e : z <= List.length s -> M s (of_re ofs) z c b e <-> exists v, of_at z v b /\ e = (4, (v, b)) :: c.
  Proof.
    intros L. unfold of_re, of_at. split.
    - intros H. apply M_sq in H as (u & d & H1 & H). apply M_joined in H1 as [-> H1]. pose proof (joined_le s z u L H1) as L1. apply M_sq in H as (w & d & H2 & H). apply M_word in H2 as [-> H2]; [|exact Hofs|lia].
      apply M_sq in H as (v & d & H3 & H). apply M_joined in H3 as [-> H3]. apply M_group in H as (d & -> & H4). apply M_digits in H4 as (-> & H4 & H5). exists v. split; [exists u, w; auto|reflexivity].
    - intros (v & (u & w & H1 & H2 & H3 & H4 & H5) & ->). pose proof (joined_le s z u L H1) as L1.
      apply M_sq. exists u, c. split; [apply M_joined; auto|]. apply M_sq. exists w, c. split; [apply M_word; [exact Hofs|lia|auto]|]. apply M_sq. exists v, c. split; [apply M_joined; auto|]. apply M_group. exists c. split; [reflexivity|]. apply M_digits. auto.
  Qed.
  Lemma best_ver y c : y <= List.length s -> exists z e, best s (ropt version_re 1) y c = Some (z, e) /\ ver_step y c z e /\ y <= z <= List.length s.
  Proof.
    intros L. rewrite best_opt_re. destruct (best s version_re y c) as [[z e]|] eqn:E.
    - exists z, e. split; [reflexivity|]. pose proof (best_M _ _ _ _ _ _ E) as HM. pose proof (M_mono _ _ _ _ _ _ HM) as [L1 L2]. split; [|split; [exact L1|apply L2, L]]. apply version_M in HM as [V ->]. right. split; [exact V|]. split; [|reflexivity].
      rewrite <- best_mtch in E. unfold version_re in E. apply mtch_seq in E as (j & d & _ & E). cbn [mtch] in E. apply plus_max in E as (j' & _ & _ & S & E); [|discriminate]. injection E as <- _. exact S.
    - exists y, c. split; [reflexivity|]. split; [|lia]. left. split; [reflexivity|]. split; [reflexivity|]. intros z' V. apply (best_none s version_re y c L E z' ((3, (S y, z')) :: c)). apply version_M. auto.
  Qed.
  Lemma best_of z e : z <= List.length s -> exists b d, best s (ropt (of_re ofs) 1) z e = Some (b, d) /\ of_step z e b d /\ z <= b <= List.length s.
  Proof.
    intros L. rewrite best_opt_re. destruct (best s (of_re ofs) z e) as [[b d]|] eqn:E.
    - exists b, d. split; [reflexivity|]. pose proof (best_M _ _ _ _ _ _ E) as HM. pose proof (M_mono _ _ _ _ _ _ HM) as [L1 L2]. split; [|split; [exact L1|apply L2, L]]. apply (of_M z e b d L) in HM as (v & O & ->). right. exists v. split; [exact O|]. split; [|reflexivity].
      rewrite <- best_mtch in E. unfold of_re in E. do 3 (apply mtch_seq in E as (? & ? & _ & E)). cbn [mtch] in E. apply plus_max in E as (j' & _ & _ & S & E); [|discriminate]. injection E as <- _. exact S.
    - exists z, e. split; [reflexivity|]. split; [|lia]. left. split; [reflexivity|]. split; [reflexivity|]. intros v b O. apply (best_none s (of_re ofs) z e L E b ((4, (v, b)) :: e)). apply of_M; [exact L|]. eauto.
  Qed.
  Lemma ver_det y c z e z' e' : ver_step y c z e -> ver_step y c z' e' -> z' = z /\ e' = e.
  Proof.
    intros [(-> & -> & N)|(V & St & ->)] [(-> & -> & N')|(V' & St' & ->)]; [auto|destruct (N _ V')|destruct (N' _ V)|].
    destruct V as (_ & L & A), V' as (_ & L' & A'). assert (z' = z) as -> by (apply (runs_agree s is_digit (S y) z' z); auto; lia). auto.
  Qed.
  Lemma of_alpha u w : word s ofs u w -> exists q, nth_error s u = Some q /\ is_alpha q = true.
  Proof. intros H. destruct (word_alpha s ofs u w Hofs H) as [L A]. apply A. lia. Qed.
  Lemma of_word_det u w w' v v' : word s ofs u w -> word s ofs u w' -> joined s w v -> (exists q, nth_error s v = Some q /\ is_digit q = true) -> joined s w' v' -> (exists q, nth_error s v' = Some q /\ is_digit q = true) -> w' = w.
  Proof.
    intros W W' J (q & Eq & Dq) J' (q' & Eq' & Dq').
    assert (St : stops s is_alpha w) by (apply (joined_no s is_alpha w v q sep_noalpha J Eq (digit_noalpha q Dq))).
    assert (St' : stops s is_alpha w') by (apply (joined_no s is_alpha w' v' q' sep_noalpha J' Eq' (digit_noalpha q' Dq'))).
    destruct (word_alpha s ofs u w Hofs W) as [L A]. destruct (word_alpha s ofs u w' Hofs W') as [L' A']. apply (runs_agree s is_alpha u w' w); auto; lia.
  Qed.
  Lemma of_det z v b v' b' : of_at z v b -> of_at z v' b' -> stops s is_digit b -> stops s is_digit b' -> v' = v /\ b' = b.
  Proof.
    intros (u & w & H1 & H2 & H3 & H4 & H5) (u' & w' & H1' & H2' & H3' & H4' & H5') S S'. destruct (of_alpha u w H2) as (q & Eq & Aq). destruct (of_alpha u' w' H2') as (q' & Eq' & Aq').
    assert (u' = u) by exact (joined_det s z u' u q' q H1' Eq' (alpha_nosep q' Aq') H1 Eq (alpha_nosep q Aq)). subst u'.
    destruct (digits_first s v b H4 H5) as (r & Er & Dr). destruct (digits_first s v' b' H4' H5') as (r' & Er' & Dr').
    assert (w' = w) by (apply (of_word_det u w w' v v'); eauto). subst w'.
    assert (v' = v) by exact (joined_det s w v' v r' r H3' Er' (digit_nosep r' Dr') H3 Er (digit_nosep r Dr)). subst v'. split; [reflexivity|]. apply (runs_agree s is_digit v b' b); auto; lia.
  Qed.
  Lemma ofstep_det z e b d b' d' : of_step z e b d -> of_step z e b' d' -> b' = b /\ d' = d.
  Proof.
    intros [(-> & -> & N)|(v & O & St & ->)] [(-> & -> & N')|(v' & O' & St' & ->)]; [auto|destruct (N _ _ O')|destruct (N' _ _ O)|].
    destruct (of_det z v b v' b' O O' St St') as [-> ->]. auto.
  Qed.
  Lemma tail_total y c : best s (tail_re ofs) y c <> None.
  Proof.
    unfold tail_re. assert (T : forall j d, best s (ropt (of_re ofs) 1) j d <> None) by (intros j d; rewrite best_opt_re; destruct (best s (of_re ofs) j d); discriminate).
    rewrite best_seq by exact T. rewrite best_opt_re. destruct (best s version_re y c) as [[z e]|]; apply T.
  Qed.
  Lemma best_tail y c b d : y <= List.length s -> best s (tail_re ofs) y c = Some (b, d) <-> exists z e, ver_step y c z e /\ of_step z e b d.
  Proof.
    intros L. unfold tail_re. rewrite best_seq by (intros j d'; rewrite best_opt_re; destruct (best s (of_re ofs) j d'); discriminate).
    destruct (best_ver y c L) as (z & e & -> & V & Lz). destruct (best_of z e ltac:(lia)) as (b0 & d0 & -> & O & Lb). split.
    - intros E. injection E as <- <-. eauto.
    - intros (z' & e' & V' & O'). destruct (ver_det y c z e z' e' V V') as [-> ->]. destruct (ofstep_det z e b0 d0 b d O O') as [-> ->]. reflexivity.
  Qed.
  Lemma tail_len y c b d : y <= List.length s -> best s (tail_re ofs) y c = Some (b, d) -> y <= b <= List.length s.
  Proof. intros L E. apply best_M, M_mono in E as [E1 E2]. split; [exact E1|apply E2, L]. Qed.
End Tail.

Section Whole.
  Context (s : str) (words ofs : list str) (Hw : letters words) (num : re) (pick : nat -> option nat).
  Context (Hnum : forall x c, best s num x c = option_map (fun y => (y, c)) (pick x)).
  Context (Hsep : forall x y, nth_error s x = Some y -> In y seps -> pick x = None).
  Lemma best_rest j c : best s (RSeq dash_opt (RSeq (RGrp 2 num) (tail_re ofs))) j c =
    match pick (after_dash s j) with Some y => best s (tail_re ofs) y ((2, (after_dash s j, y)) :: c) | None => None end.
  Proof.
    assert (B : forall x c, best s (RSeq (RGrp 2 num) (tail_re ofs)) x c = match pick x with Some y => best s (tail_re ofs) y ((2, (x, y)) :: c) | None => None end).
    { intros x c'. rewrite best_seq by (intros; apply tail_total). rewrite best_grp, Hnum. destruct (pick x); reflexivity. }
    rewrite best_dash_then; [apply B|]. intros y E S. rewrite B, (Hsep j y E S). reflexivity.
  Qed.
  (** the word chosen *)
  Definition chosen (k : nat) : option str := find (fun w => startswith w (at_ s k) && match pick (after_dash s (k + List.length w)) with Some _ => true | None => false end) words.
  Lemma best_whole k c : best s (word_ep_re words ofs num) k c =
    match chosen k with
    | Some w => let j := k + List.length w in let x := after_dash s j in
        match pick x with Some y => best s (tail_re ofs) y ((2, (x, y)) :: (1, (k, j)) :: c) | None => None end
    | None => None
    end.
  Proof.
    unfold word_ep_re. rewrite best_words_then by apply Hw. unfold chosen.
    assert (F : forall f g : str -> bool, (forall w, f w = g w) -> forall l, find f l = find g l) by (intros f g H l; induction l as [|w l IH]; [reflexivity|]; cbn [find]; rewrite H, IH; reflexivity).
    rewrite (F _ (fun w => startswith w (at_ s k) && match pick (after_dash s (k + List.length w)) with Some _ => true | None => false end)).
    - destruct (find _ words) as [w|]; [|reflexivity]. rewrite best_rest. reflexivity.
    - intros w. rewrite best_rest. destruct (pick (after_dash s (k + List.length w))) as [y|] eqn:P; [|reflexivity].
      match goal with |- _ && match ?b with _ => _ end = _ => destruct b eqn:Et; [reflexivity|] end. destruct (tail_total s ofs _ _ Et).
  Qed.
  Lemma chosen_some k w : chosen k = Some w -> In w words /\ (exists y, pick (after_dash s (k + List.length w)) = Some y) /\ word s words k (k + List.length w) /\
    forall u v w', words = u ++ w :: v -> ~ In w u -> In w' u -> startswith w' (at_ s k) = true -> pick (after_dash s (k + List.length w')) = None.
  Proof.
    unfold chosen. intros H. apply find_split in H as (u & v & E & F & G). apply Bool.andb_true_iff in F as [F1 F2]. assert (Iw : In w words) by (rewrite E; apply in_app_iff; right; left; reflexivity). split; [exact Iw|].
    split; [destruct (pick _) as [y|]; [eauto|discriminate]|]. split.
    - apply startswith_app in F1 as [r F1]. assert (L : k + List.length w <= List.length s).
      { pose proof (at_len s k) as A. rewrite F1, app_length in A. assert (0 < List.length w) by (destruct w; [destruct Hw as [_ Hw']; destruct (Hw' [] Iw); congruence|cbn [List.length]; lia]). lia. }
      exists (slice k (k + List.length w) s). split; [split; [lia|reflexivity]|]. rewrite <- at_slice, F1, firstn_app, firstn_all, Nat.sub_diag. cbn [firstn]. rewrite app_nil_r. exact Iw.
    - intros u' v' w' E' N' I' S'.
      assert (U : forall (a b c d : list str) x, a ++ x :: b = c ++ x :: d -> ~ In x a -> ~ In x c -> a = c).
      { clear. induction a as [|y a IH]; intros b [|z c] d x E Na Nc; cbn [app] in E; [reflexivity| | |].
        - injection E as -> _. destruct Nc. left. reflexivity.
        - injection E as -> _. destruct Na. left. reflexivity.
        - injection E as -> E. f_equal. apply (IH b c d x E); [intros K; apply Na; right; exact K|intros K; apply Nc; right; exact K]. }
      assert (Nu : ~ In w u) by (intros K; specialize (G w K); rewrite F1, F2 in G; discriminate).
      rewrite E in E'. pose proof (U u v u' v' w E' Nu N') as ->. specialize (G w' I'). rewrite S' in G. cbn [andb] in G. destruct (pick (after_dash s (k + List.length w'))); [discriminate G|reflexivity].
  Qed.
  (** a word is chosen when those before it that begin it are followed by no number *)
  Lemma chosen_intro k w u v y : words = u ++ w :: v -> startswith w (at_ s k) = true -> pick (after_dash s (k + List.length w)) = Some y ->
    (forall w', In w' u -> startswith w' (at_ s k) = true -> pick (after_dash s (k + List.length w')) = None) -> chosen k = Some w.
  Proof.
    intros E S P H. unfold chosen. rewrite E. apply find_mid; [rewrite S, P; reflexivity|]. intros w' I. destruct (startswith w' (at_ s k)) eqn:S'; [|reflexivity]. rewrite (H w' I S'). reflexivity.
  Qed.
End Whole.
