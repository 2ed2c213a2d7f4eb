(** C108: seasons written with a word: Season 2, Saison IV, Temporadas 1-3, Season 2of5. *)
From Verif Require Import Py Sort PyFacts Text TextFacts WordsProofs Regex CrcProofs DateProofs RegexFacts RegexOuts Numeral NumeralProofs Date Rebulk RebulkFacts Episodes EpisodesProofs EpisodesProps OrderingProps EpisodeRules EpisodeRulesProps IntProps Patterns PatternsProps DiscProps Chain ChainProofs EpisodeChains SxxProps NumeralRe NumeralReProofs PartProps EpisodeWords EpisodeWordsProofs EpisodeWordsProps EpisodeNumerals WeakProps SeasonWords.
From Coq Require Import Arith ZifyBool ZifyNat ZifyN.
Local Open Scope nat_scope.

(** ** Specification *)
(** from [k] to [y]: a season word, perhaps a separator, a number [n] written from [x]; a number that is not in digits stands alone *)
Definition season_written (s : str) (k x y : nat) (n : Z) : Prop :=
  exists w p t, reads s k y (w ++ p ++ t) /\ In (lower w) (map lit ["season"; "seasons"; "saison"; "saisons"; "seizoen"; "tem"; "temp"; "temporada"; "temporadas"; "stagione"]%string) /\ maybe_sep p /\
    x = y - List.length t /\ written_number t n /\ (number t \/ alone s x y).
(** from [z] to [b]: [of] or [sur], perhaps a separator, a number written from [x] *)
Definition count_written (s : str) (z x b : nat) (n : Z) : Prop :=
  exists w p t, reads s z b (w ++ p ++ t) /\ In (lower w) [lit "of"; lit "sur"] /\ maybe_sep p /\
    x = b - List.length t /\ written_number t n /\ (number t \/ alone s x b).
(** from [z] to [b]: perhaps a separator, one of the texts [seps], perhaps a separator, a number in digits from [x] *)
Definition next_written (s : str) (texts : str -> Prop) (z x b : nat) (n : Z) : Prop :=
  exists p u q d, reads s z b (p ++ u ++ q ++ d) /\ maybe_sep p /\ texts u /\ maybe_sep q /\ number d /\ x = b - List.length d /\ n = value_of d.
(** what may be between two seasons *)
Definition between (u : str) : Prop := In (lower u) (map lit ["-"; "~"; "to"; "a"; "+"; "&"; "and"; "et"]%string) \/ exists c, u = [c] /\ In c seps /\ c <> 47%N /\ c <> 92%N.

(** ** Lemmas: the numerals *)
Lemma hyphen_M s i c j d : M s hyphen_char i c j d -> M s dash i c j d.
Proof. intros H. apply M_chr_inv in H as (-> & -> & y & Ey & Py). apply N.eqb_eq in Py. subst y. apply (M_chr s _ i c 45%N Ey). reflexivity. Qed.
Lemma word_hy s w : forall i c j d, M s (word_lit hyphen_char w) i c j d -> M s (word_lit dash w) i c j d.
Proof.
  induction w as [|x w IH]; intros i c j d H; cbn [word_lit] in *; [exact H|]. apply M_sq in H as (k & e & H1 & H2). apply M_sq. exists k, e. split; [|apply IH, H2].
  destruct (N.eqb x 45); [apply hyphen_M, H1|exact H1].
Qed.
Lemma alts_hy s words : forall b i c j d, M s (word_alts hyphen_char b words) i c j d -> M s (word_alts dash b words) i c j d.
Proof.
  induction words as [|w words IH]; intros b i c j d H; cbn [word_alts] in *; [exact H|].
  assert (E : M s (if b then RSeq (RLook (ratleast (RChr word_char) 1)) (word_lit hyphen_char w) else word_lit hyphen_char w) i c j d -> M s (if b then RSeq (RLook (ratleast (RChr word_char) 1)) (word_lit dash w) else word_lit dash w) i c j d).
  { destruct b; [|apply word_hy]. intros K. apply M_sq in K as (k & e & K1 & K2). apply M_sq. exists k, e. split; [exact K1|apply word_hy, K2]. }
  destruct words as [|w' words]; [apply E, H|]. apply M_alt_inv in H as [H|H]; [apply M_alt_l, E, H|apply M_alt_r, IH, H].
Qed.
Lemma numeral_hy s i c j d : M s (numeral_re hyphen_char) i c j d -> M s (numeral_re dash) i c j d.
Proof.
  unfold numeral_re. intros H. apply M_alt_inv in H as [H|H]; [apply M_alt_l, H|]. apply M_alt_r. apply M_alt_inv in H as [H|H]; [apply M_alt_l, H|apply M_alt_r, alts_hy, H].
Qed.
Lemma numeral_hy_groups : groupless (numeral_re hyphen_char) = true.
Proof. vm_compute. reflexivity. Qed.
Lemma hy_num s x c y d : x <= List.length s -> M s (numeral_re hyphen_char) x c y d -> d = c /\ numat s x y.
Proof.
  intros L H. split; [exact (groupless_M _ _ _ _ _ _ H numeral_hy_groups)|]. exists c, d. split; [apply numeral_hy, H|]. apply M_mono in H as [H1 H2]. split; [exact H1|apply H2, L].
Qed.
Lemma hy_best s x c : best s (numeral_re hyphen_char) x c = option_map (fun y => (y, c)) (num_pick s x).
Proof. rewrite best_numeral. unfold num_pick. destruct (numeral_pick (at_ s x)); reflexivity. Qed.
(** a numeral has at least one character *)
Lemma roman_positive x r : In x roman_letters -> 0 < roman_len (x :: r).
Proof.
  intros H. change roman_letters with [109; 99; 100; 108; 120; 118; 105]%N in H. unfold roman_len, glen. cbv zeta.
  repeat (destruct H as [<-|H]; [cbn -[startswith]; repeat match goal with |- context [if ?b then _ else _] => destruct b end; cbn -[startswith]; try lia|]). destruct H.
Qed.
Lemma pick_positive s x y : num_pick s x = Some y -> x < y.
Proof.
  unfold num_pick. destruct (at_ s x) as [|c r] eqn:E; [discriminate|]. unfold numeral_pick. destruct (is_digit c) eqn:D.
  - cbn [option_map]. intros H. apply some_inj in H. cbn [lead] in H. rewrite D in H. lia.
  - destruct (cmem c roman_letters) eqn:R.
    + cbn [option_map]. intros H. apply some_inj in H. apply cmem_In in R. pose proof (roman_positive c r R). lia.
    + destruct (pick_word number_words_listed (c :: r)) as [w|] eqn:P; [|discriminate]. cbn [option_map]. intros H. apply some_inj in H. unfold pick_word in P. apply find_some in P as [Hw _].
      assert (G : forallb (fun w => 0 <? List.length w) number_words_listed = true) by (vm_compute; reflexivity). rewrite forallb_forall in G. specialize (G w Hw). lia.
Qed.
(** no numeral ends with a separator *)
Lemma numeral_end s x y : numat s x y -> x < y -> exists q, nth_error s (y - 1) = Some q /\ ~ In q seps.
Proof.
  intros (c & d & H & L) Lx. apply numeral_kinds in H as [[_ D]|[[_ R]|(w & Hw & Ey & R)]].
  - destruct (D (y - 1) ltac:(lia)) as (q & Eq & Dq). exists q. split; [exact Eq|apply digit_nosep, Dq].
  - destruct (R (y - 1) ltac:(lia)) as (q & Eq & Dq). exists q. split; [exact Eq|]. apply roman_plain in Dq. tauto.
  - assert (G : forallb (fun w => match nth_error w (List.length w - 1) with Some v => negb (N.eqb v 45) && negb (cmem v seps) | None => false end) number_words_listed = true) by (vm_compute; reflexivity).
    rewrite forallb_forall in G. specialize (G w Hw). destruct (nth_error w (List.length w - 1)) as [v|] eqn:Ev; [|discriminate]. destruct (R _ _ Ev) as (q & Eq & Hq). replace (x + (List.length w - 1)) with (y - 1) in Eq by lia.
    exists q. split; [exact Eq|]. intros Sq. apply Bool.andb_true_iff in G as [G1 G2]. destruct Hq as [[-> _]|[_ <-]]; [discriminate|]. rewrite (sep_lower q Sq), (proj2 (cmem_In _ _) Sq) in G2. discriminate.
Qed.

(** ** the expressions *)
Definition head_re : re := RSeq (RGrp 1 (rwords season_words)) (RSeq dash_opt (RGrp 2 (numeral_re hyphen_char))).
Definition count_re : re := RSeq (rwords of_words) (RSeq dash_opt (RGrp 1 (numeral_re hyphen_char))).
Definition next_re (cfg : epcfg) : re := RSeq dash_opt (RSeq (RGrp 1 (sw_sep_re cfg)) (RSeq dash_opt (RGrp 2 digits1))).
Lemma sw_letters : letters season_words.
Proof. apply letters_dec. reflexivity. Qed.
Lemma sw_of_letters : letters of_words.
Proof. apply letters_dec. reflexivity. Qed.
Lemma best_group_num s n x c : best s (RGrp n (numeral_re hyphen_char)) x c = option_map (fun y => (y, (n, (x, y)) :: c)) (num_pick s x).
Proof. rewrite best_grp, hy_best. destruct (num_pick s x); reflexivity. Qed.
Lemma best_head s k c : best s head_re k c =
  match chosen s season_words (num_pick s) k with
  | Some w => let j := k + List.length w in let x := after_dash s j in option_map (fun y => (y, (2, (x, y)) :: (1, (k, j)) :: c)) (num_pick s x)
  | None => None
  end.
Proof.
  unfold head_re. rewrite best_words_then by apply sw_letters. unfold chosen.
  assert (B : forall j c, best s (RSeq dash_opt (RGrp 2 (numeral_re hyphen_char))) j c = option_map (fun y => (y, (2, (after_dash s j, y)) :: c)) (num_pick s (after_dash s j))).
  { intros j c'. rewrite best_dash_then; [apply best_group_num|]. intros y E S. rewrite best_group_num, (num_pick_sep s j y E S). reflexivity. }
  assert (F : forall f g : str -> bool, (forall w, f w = g w) -> forall l, find f l = find g l) by (intros f g H l; induction l as [|w l IH]; [reflexivity|]; cbn [find]; rewrite H, IH; reflexivity).
  rewrite (F _ (fun w => startswith w (at_ s k) && match num_pick s (after_dash s (k + List.length w)) with Some _ => true | None => false end)).
  - destruct (find _ season_words) as [w|]; [|reflexivity]. rewrite B. reflexivity.
  - intros w. rewrite B. destruct (num_pick s (after_dash s (k + List.length w))); reflexivity.
Qed.
(** ** the season word *)
Lemma p_no_number r : numeral_pick (112%N :: r) = None.
Proof. vm_compute. reflexivity. Qed.
Lemma or_no_number r : numeral_pick (111%N :: 114%N :: r) = None.
Proof. vm_compute. reflexivity. Qed.
Lemma tail_pick s k u (c : char) r : at_ s k = u ++ c :: r -> is_alpha c = true -> num_pick s (after_dash s (k + List.length u)) = option_map (fun n => k + List.length u + n) (numeral_pick (c :: r)).
Proof.
  intros E A. assert (E2 : at_ s (k + List.length u) = c :: r) by (rewrite <- at_skip, E, skipn_app, skipn_all, Nat.sub_diag; reflexivity).
  assert (Ad : after_dash s (k + List.length u) = k + List.length u).
  { unfold after_dash. destruct (nth_error s (k + List.length u)) as [q|] eqn:Eq; [|reflexivity]. destruct (cmem q seps_no_fs) eqn:C; [|reflexivity]. apply no_fs_iff in C as [C _].
    rewrite (at_cons s _ q Eq), (sep_lower q C) in E2. injection E2 as -> _. rewrite (sep_noalpha c C) in A. discriminate. }
  unfold num_pick. rewrite Ad, E2. reflexivity.
Qed.
Lemma season_chosen s k w y : In w season_words -> startswith w (at_ s k) = true -> (forall c, nth_error s (k + List.length w) = Some c -> is_alpha c = false) ->
  num_pick s (after_dash s (k + List.length w)) = Some y -> chosen s season_words (num_pick s) k = Some w.
Proof.
  intros I S Na P. destruct (proj1 (startswith_app _ _) S) as [r Hr].
  assert (Hd : match r with [] => True | c :: _ => is_alpha c = false end).
  { destruct r as [|c r]; [exact Logic.I|]. assert (E2 : at_ s (k + List.length w) = c :: r) by (rewrite <- at_skip, Hr, skipn_app, skipn_all, Nat.sub_diag; reflexivity).
    destruct (nth_error s (k + List.length w)) as [q|] eqn:Eq; [|rewrite (at_nil s _ Eq) in E2; discriminate]. rewrite (at_cons s _ q Eq) in E2. injection E2 as <- _. specialize (Na q eq_refl).
    unfold to_lower. destruct (is_upper q) eqn:U; [unfold is_alpha in Na; rewrite U in Na; discriminate|exact Na]. }
  assert (Pre : forall u c v, w = u ++ c :: v -> is_alpha c = true -> numeral_pick (c :: v ++ r) = None -> num_pick s (after_dash s (k + List.length u)) = None).
  { intros u c v Ew A Np. rewrite (tail_pick s k u c (v ++ r)); [rewrite Np; reflexivity| |exact A]. rewrite Hr, Ew, <- app_assoc. reflexivity. }
  assert (Ns : numeral_pick (115%N :: r) = None) by (apply s_no_number; exact Hd).
  assert (Long : forall w' c v, w' = w ++ c :: v -> is_alpha c = true -> startswith w' (at_ s k) = true -> False).
  { intros w' c v -> A Sw. apply startswith_app in Sw as [r' Sw]. rewrite Hr, <- app_assoc in Sw. apply app_inv_head in Sw. subst r. cbn [app] in Hd. congruence. }
  cbn [season_words map In] in I. unfold season_words.
  assert (Bad : forall w' u c v c' v', w' = u ++ c :: v -> w = u ++ c' :: v' -> N.eqb c c' = false -> startswith w' (at_ s k) = true -> False).
  { intros w' u c v c' v' -> Ew Nc Sw. apply startswith_app in Sw as [r' Sw]. rewrite Hr, Ew, <- !app_assoc in Sw. apply app_inv_head in Sw. cbn [app] in Sw. injection Sw as -> _. rewrite N.eqb_refl in Nc. discriminate. }
  destruct I as [<-|[<-|[<-|[<-|[<-|[<-|[<-|[<-|[<-|[<-|[]]]]]]]]]]].
  - apply (chosen_intro s season_words (num_pick s) k _ [] (skipn 1 season_words) y eq_refl S P). intros w' [].
  - apply (chosen_intro s season_words (num_pick s) k _ (firstn 1 season_words) (skipn 2 season_words) y eq_refl S P). intros w' [<-|[]] H. destruct (Bad _ (lit "s") 101%N (lit "ason") 97%N (lit "ison") eq_refl eq_refl eq_refl H).
  - apply (chosen_intro s season_words (num_pick s) k _ (firstn 2 season_words) (skipn 3 season_words) y eq_refl S P). intros w' [<-|[<-|[]]] H; exfalso; [exact (Bad _ (lit "se") 97%N (lit "son") 105%N (lit "zoen") eq_refl eq_refl eq_refl H)|exact (Bad _ (lit "s") 97%N (lit "ison") 101%N (lit "izoen") eq_refl eq_refl eq_refl H)].
  - apply (chosen_intro s season_words (num_pick s) k _ (firstn 3 season_words) (skipn 4 season_words) y eq_refl S P). intros w' [<-|[<-|[<-|[]]]] H.
    + apply (Pre (lit "season") 115%N [] eq_refl eq_refl). exact Ns.
    + destruct (Bad _ (lit "s") 97%N (lit "ison") 101%N (lit "asons") eq_refl eq_refl eq_refl H).
    + destruct (Bad _ (lit "se") 105%N (lit "zoen") 97%N (lit "sons") eq_refl eq_refl eq_refl H).
  - apply (chosen_intro s season_words (num_pick s) k _ (firstn 4 season_words) (skipn 5 season_words) y eq_refl S P). intros w' [<-|[<-|[<-|[<-|[]]]]] H.
    + destruct (Bad _ (lit "s") 101%N (lit "ason") 97%N (lit "isons") eq_refl eq_refl eq_refl H).
    + apply (Pre (lit "saison") 115%N [] eq_refl eq_refl). exact Ns.
    + destruct (Bad _ (lit "s") 101%N (lit "izoen") 97%N (lit "isons") eq_refl eq_refl eq_refl H).
    + destruct (Bad _ (lit "s") 101%N (lit "asons") 97%N (lit "isons") eq_refl eq_refl eq_refl H).
  - apply (chosen_intro s season_words (num_pick s) k _ (firstn 5 season_words) (skipn 6 season_words) y eq_refl S P). intros w' I H. exfalso. assert (G : exists v, w' = 115%N :: v) by (repeat (destruct I as [<-|I]; [eexists; reflexivity|]); destruct I). destruct G as (v & G). exact (Bad _ [] 115%N v 116%N (lit "em") G eq_refl eq_refl H).
  - apply (chosen_intro s season_words (num_pick s) k _ (firstn 6 season_words) (skipn 7 season_words) y eq_refl S P). intros w' I H. cbn [season_words map firstn In] in I. destruct I as [I|[I|[I|[I|[I|[<-|[]]]]]]].
    1-5: exfalso; subst w'; eapply (Bad _ [] 115%N _ 116%N (lit "emp")); [reflexivity|reflexivity|reflexivity|exact H].
    apply (Pre (lit "tem") 112%N [] eq_refl eq_refl). apply p_no_number.
  - apply (chosen_intro s season_words (num_pick s) k _ (firstn 7 season_words) (skipn 8 season_words) y eq_refl S P). intros w' I H. cbn [season_words map firstn In] in I. destruct I as [I|[I|[I|[I|[I|[<-|[<-|[]]]]]]]].
    1-5: exfalso; subst w'; eapply (Bad _ [] 115%N _ 116%N (lit "emporada")); [reflexivity|reflexivity|reflexivity|exact H].
    + apply (Pre (lit "tem") 112%N (lit "orada") eq_refl eq_refl). apply p_no_number.
    + apply (Pre (lit "temp") 111%N (lit "rada") eq_refl eq_refl). apply or_no_number.
  - apply (chosen_intro s season_words (num_pick s) k _ (firstn 8 season_words) (skipn 9 season_words) y eq_refl S P). intros w' I H. cbn [season_words map firstn In] in I. destruct I as [I|[I|[I|[I|[I|[<-|[<-|[<-|[]]]]]]]]].
    1-5: exfalso; subst w'; eapply (Bad _ [] 115%N _ 116%N (lit "emporadas")); [reflexivity|reflexivity|reflexivity|exact H].
    + apply (Pre (lit "tem") 112%N (lit "oradas") eq_refl eq_refl). apply p_no_number.
    + apply (Pre (lit "temp") 111%N (lit "radas") eq_refl eq_refl). apply or_no_number.
    + apply (Pre (lit "temporada") 115%N [] eq_refl eq_refl). exact Ns.
  - apply (chosen_intro s season_words (num_pick s) k _ (firstn 9 season_words) (skipn 10 season_words) y eq_refl S P). intros w' I H. exfalso. cbn [season_words map firstn In] in I.
    destruct I as [I|[I|[I|[I|[I|[I|[I|[I|[I|[]]]]]]]]]]; subst w'.
    1,2,3,4,5: first [eapply (Bad _ (lit "s") 101%N _ 116%N (lit "agione")); [reflexivity|reflexivity|reflexivity|exact H]|eapply (Bad _ (lit "s") 97%N _ 116%N (lit "agione")); [reflexivity|reflexivity|reflexivity|exact H]].
    all: eapply (Bad _ [] 116%N _ 115%N (lit "tagione")); [reflexivity|reflexivity|reflexivity|exact H].
Qed.
(** ** what the parts read *)
Section Shapes.
  Context (s : str).
  Lemma head_M k b d : k <= List.length s -> M s head_re k [] b d -> exists j x, word s season_words k j /\ joined s j x /\ numat s x b /\ d = [(2, (x, b)); (1, (k, j))].
  Proof.
    intros L H. unfold head_re in H. apply M_sq in H as (j & e & H1 & H). apply M_group in H1 as (e1 & -> & H1). apply (M_word s _ _ _ _ _ sw_letters L) in H1 as [-> W]. pose proof (word_alpha s _ k j sw_letters W) as [Lj _].
    apply M_sq in H as (x & e & H2 & H). apply M_joined in H2 as [-> J]. pose proof (joined_len s j x ltac:(lia) J) as Lx. apply M_group in H as (e3 & -> & H). apply hy_num in H as [-> H]; [|exact Lx]. exists j, x. auto.
  Qed.
  Lemma count_M k b d : k <= List.length s -> M s count_re k [] b d -> exists j x, word s of_words k j /\ joined s j x /\ numat s x b /\ d = [(1, (x, b))].
  Proof.
    intros L H. unfold count_re in H. apply M_sq in H as (j & e & H1 & H). apply (M_word s _ _ _ _ _ sw_of_letters L) in H1 as [-> W]. pose proof (word_alpha s _ k j sw_of_letters W) as [Lj _].
    apply M_sq in H as (x & e & H2 & H). apply M_joined in H2 as [-> J]. pose proof (joined_len s j x ltac:(lia) J) as Lx. apply M_group in H as (e3 & -> & H). apply hy_num in H as [-> H]; [|exact Lx]. exists j, x. auto.
  Qed.
  Lemma sep_M k c b d : k <= List.length s -> M s (sw_sep_re default_cfg) k c b d <-> d = c /\ exists u, reads s k b u /\ between u.
  Proof.
    intros L. unfold sw_sep_re. assert (Wk : weak_separators default_cfg = map (fun c => [c]) (filter (fun c => negb (smem [c] (range_separators default_cfg))) seps_no_fs)) by reflexivity. split.
    - intros H. apply M_alt_inv in H as [H|H].
      + apply M_rwords in H as (-> & u & R & I); [|discriminate|exact L]. split; [reflexivity|]. exists u. split; [exact R|].
        apply in_app_iff in I as [I|I]; [|unfold all_discrete in I; apply in_app_iff in I as [I|I]].
        * left. cbn in I |- *. tauto.
        * left. cbn in I |- *. tauto.
        * right. rewrite Wk in I. apply in_map_iff in I as (c0 & Ec & Ic). apply filter_In in Ic as [Ic _]. destruct u as [|c1 [|]]; try discriminate Ec. injection Ec as Ec. exists c1. split; [reflexivity|].
          assert (Q : cmem c0 seps_no_fs = true) by (apply cmem_In, Ic). apply no_fs_iff in Q. assert (c1 = c0).
          { destruct (is_upper c1) eqn:U; [|unfold to_lower in Ec; rewrite U in Ec; symmetry; exact Ec]. exfalso. destruct Q as [Q _]. apply sep_noalpha in Q. rewrite Ec in Q. unfold to_lower in Q. rewrite U in Q. unfold is_upper in U. unfold is_alpha, is_upper, is_lower in Q. lia. }
          subst c1. tauto.
      + apply M_chr_inv in H as (-> & -> & y & Ey & Py). split; [reflexivity|]. exists [y]. apply no_fs_iff in Py. split; [|right; exists y; tauto]. pose proof (nth_error_lt _ _ _ Ey). split; [lia|]. apply slice_one, Ey.
    - intros (-> & u & R & [I|(c0 & -> & S0)]).
      + apply M_alt_l. apply M_rwords; [discriminate|exact L|]. split; [reflexivity|]. exists u. split; [exact R|]. unfold all_discrete. rewrite !in_app_iff. cbn in I |- *. tauto.
      + apply M_alt_r. apply reads_one in R as [-> E]. apply (M_chr s _ k c c0 E). apply no_fs_iff. exact S0.
  Qed.
  Lemma next_M k b d : k <= List.length s -> M s (next_re default_cfg) k [] b d ->
    exists i j x u, joined s k i /\ reads s i j u /\ between u /\ joined s j x /\ x < b /\ all_in s is_digit x b /\ d = [(2, (x, b)); (1, (i, j))].
  Proof.
    intros L H. unfold next_re in H. apply M_sq in H as (i & e & H1 & H). apply M_joined in H1 as [-> J]. pose proof (joined_len s k i L J) as Li. apply M_sq in H as (j & e & H1 & H). apply M_group in H1 as (e1 & -> & H1).
    apply sep_M in H1 as (-> & u & R & Bu); [|exact Li]. apply M_sq in H as (x & e & H2 & H). apply M_joined in H2 as [-> J2]. apply M_group in H as (e3 & -> & H). apply M_digits in H as (-> & Lx & D). exists i, j, x, u. auto 10.
  Qed.
  Lemma head_consumes : consumes s head_re.
  Proof.
    intros k c b d H. destruct (Nat.le_gt_cases k (List.length s)) as [L|L].
    - unfold head_re in H. apply M_sq in H as (j & e & H1 & H). apply M_group in H1 as (e1 & -> & H1). apply (M_word s _ _ _ _ _ sw_letters L) in H1 as [-> W]. pose proof (word_alpha s _ k j sw_letters W) as [Lj _].
      apply M_mono in H as [H _]. lia.
    - exfalso. assert (Q : forall l, (forall w, In w l -> w <> []) -> l <> [] -> forall j e, M s (rwords l) k c j e -> False).
      { induction l as [|w l IH]; intros Hn N j e HM; [congruence|]. assert (Hw : M s (rlit w) k c j e -> False).
        { destruct w as [|y w]; [exfalso; apply (Hn []); [left; reflexivity|reflexivity]|]. cbn [rlit]. intros K. apply M_sq in K as (j' & e' & K & _). apply M_chr_inv in K as (_ & _ & z & Ez & _). apply nth_error_lt in Ez. lia. }
        destruct l as [|w' l]; [exact (Hw HM)|]. change (rwords (w :: w' :: l)) with (RAlt (rlit w) (rwords (w' :: l))) in HM. apply M_alt_inv in HM as [HM|HM]; [exact (Hw HM)|]. apply (IH (fun v Hv => Hn v (or_intror Hv)) ltac:(discriminate) j e HM). }
      unfold head_re in H. apply M_sq in H as (j & e & H1 & _). apply M_group in H1 as (e1 & -> & H1). refine (Q season_words _ _ j e1 H1); [|discriminate]. intros w Hw. apply (proj2 sw_letters w Hw).
  Qed.
  (** nothing before reaches the word *)
  Context (k j : nat) (W : word s season_words k j) (A : forall c, 0 < k -> nth_error s (k - 1) = Some c -> In c seps).
  Lemma word_at : exists v, In v season_words /\ (forall n c, nth_error v n = Some c -> exists q, nth_error s (k + n) = Some q /\ to_lower q = c).
  Proof.
    destruct W as (t & R & I). exists (lower t). split; [exact I|]. intros n c E. unfold lower in E. rewrite nth_error_map in E. destruct (nth_error t n) as [q|] eqn:Eq; [|discriminate]. injection E as <-. exists q. split; [|reflexivity].
    rewrite (reads_nth s k j t n R); [exact Eq|]. apply nth_error_lt in Eq. exact Eq.
  Qed.
  Lemma start_alpha : exists q, nth_error s k = Some q /\ is_alpha q = true.
  Proof. destruct (word_alpha s _ k j sw_letters W) as [L H]. destruct (H k ltac:(lia)) as (q & E & Aq). eauto. Qed.
  Lemma numeral_far x y : numat s x y -> x <= k -> k <= y -> False.
  Proof.
    intros (c & d & H & L) Lx Ly. destruct start_alpha as (q & Eq & Aq). destruct word_at as (v & Hv & Rv).
    assert (Bef : x < k -> exists r, nth_error s (k - 1) = Some r /\ In r seps). { intros G. destruct (nth_error s (k - 1)) as [r|] eqn:Er; [|apply nth_error_None in Er; apply nth_error_lt in Eq; lia]. exists r. split; [reflexivity|]. apply A; [lia|reflexivity]. }
    assert (Hv0 : exists a, nth_error v 0 = Some a /\ ~ In a roman_letters).
    { assert (G : forallb (fun v => match v with a :: _ => negb (cmem a roman_letters) | [] => false end) season_words = true) by (vm_compute; reflexivity). rewrite forallb_forall in G. specialize (G v Hv). destruct v as [|a v']; [discriminate|]. exists a. split; [reflexivity|]. intros K. apply cmem_In in K. rewrite K in G. discriminate. }
    apply numeral_kinds in H as [[L1 D]|[[(z & Ez & R0) R]|(w & Hw & Ey & R)]].
    - destruct (Nat.eq_dec x k) as [->|N].
      + destruct (D k ltac:(lia)) as (z & Ez & Dz). rewrite Eq in Ez. injection Ez as <-. rewrite (alpha_nodigit q Aq) in Dz. discriminate.
      + destruct (Bef ltac:(lia)) as (r & Er & Sr). destruct (D (k - 1) ltac:(lia)) as (z & Ez & Dz). rewrite Er in Ez. injection Ez as <-. exact (digit_nosep r Dz Sr).
    - destruct (Nat.eq_dec x k) as [->|N].
      + destruct Hv0 as (a & Ea & Na). destruct (Rv 0 a Ea) as (q' & Eq' & Lq). rewrite Nat.add_0_r, Ez in Eq'. injection Eq' as <-. rewrite Lq in R0. exact (Na R0).
      + destruct (Bef ltac:(lia)) as (r & Er & Sr). destruct (R (k - 1) ltac:(lia)) as (z' & Ez' & Dz). rewrite Er in Ez'. injection Ez' as <-. apply roman_plain in Dz. tauto.
    - assert (G : forallb (fun w => forallb (fun o => negb (match o with O => true | S o' => match nth_error w o' with Some a => N.eqb a 45 || cmem a seps | None => false end end) ||
        forallb (fun v => existsb (fun n => match nth_error w (o + n), nth_error v n with Some a, Some b => negb (N.eqb a b) && negb (N.eqb a 45) | _, _ => false end) (seq 0 8)) season_words) (seq 0 12)) number_words_listed = true) by (vm_compute; reflexivity).
      assert (Lw : forallb (fun w => List.length w <=? 10) number_words_listed = true) by (vm_compute; reflexivity). rewrite forallb_forall in Lw. specialize (Lw w Hw).
      rewrite forallb_forall in G. specialize (G w Hw). rewrite forallb_forall in G. assert (In (k - x) (seq 0 12)) as I by (apply in_seq; lia). specialize (G _ I).
      assert (P : match k - x with O => true | S o' => match nth_error w o' with Some a => N.eqb a 45 || cmem a seps | None => false end end = true).
      { destruct (k - x) as [|o] eqn:Eo; [reflexivity|]. destruct (Bef ltac:(lia)) as (r & Er & Sr). destruct (nth_error w o) as [a|] eqn:Ea; [|apply nth_error_None in Ea; lia].
        destruct (R _ _ Ea) as (r' & Er' & Hr). replace (x + o) with (k - 1) in Er' by lia. rewrite Er in Er'. injection Er' as <-. destruct Hr as [[-> _]|[_ <-]]; [reflexivity|]. rewrite (sep_lower r Sr), (proj2 (cmem_In _ _) Sr). apply Bool.orb_true_r. }
      rewrite P in G. cbn [negb orb] in G. rewrite forallb_forall in G. specialize (G v Hv). apply existsb_exists in G as (n & _ & G). destruct (nth_error w (k - x + n)) as [a|] eqn:Ea; [|discriminate]. destruct (nth_error v n) as [b|] eqn:Eb; [|discriminate].
      destruct (R _ _ Ea) as (q1 & E1 & H1). destruct (Rv _ _ Eb) as (q2 & E2 & H2). replace (x + (k - x + n)) with (k + n) in E1 by lia. rewrite E1 in E2. injection E2 as <-. apply Bool.andb_true_iff in G as [G1 G2].
      destruct H1 as [[-> _]|[_ H1]]; [discriminate G2|]. rewrite H2 in H1. subst b. rewrite N.eqb_refl in G1. discriminate.
  Qed.
  Lemma far_joined i i' : joined s i i' -> i <= k -> i' <= k.
  Proof. intros [->|(-> & z & Ez & Sz)] L; [exact L|]. destruct (Nat.eq_dec i k) as [->|]; [exfalso|lia]. destruct start_alpha as (q & Eq & Aq). rewrite Eq in Ez. injection Ez as <-. apply no_fs_iff in Sz as [Sz _]. exact (alpha_nosep q Aq Sz). Qed.
  Lemma far_word l i i' : letters l -> word s l i i' -> i < k -> i' <= k.
  Proof.
    intros Hl Wi L. destruct (word_alpha s l i i' Hl Wi) as [L1 H]. destruct (Nat.le_gt_cases i' k) as [|G]; [assumption|exfalso]. destruct (H (k - 1) ltac:(lia)) as (r & Er & Ar). exact (alpha_nosep r Ar (A r ltac:(lia) Er)).
  Qed.
  Lemma head_before k' b' d : k' < k -> M s head_re k' [] b' d -> b' < k.
  Proof.
    intros L H. pose proof (proj1 (word_alpha s _ k j sw_letters W)) as Lk. apply head_M in H as (j' & x & Wj & J & Nu & _); [|lia]. pose proof (far_word _ _ _ sw_letters Wj L) as L1. pose proof (far_joined j' x J L1) as L2.
    destruct (Nat.lt_ge_cases b' k); [assumption|exfalso; exact (numeral_far x b' Nu L2 ltac:(lia))].
  Qed.
  Lemma count_before k' b' d : k' < k -> M s count_re k' [] b' d -> b' < k.
  Proof.
    intros L H. pose proof (proj1 (word_alpha s _ k j sw_letters W)) as Lk. apply count_M in H as (j' & x & Wj & J & Nu & _); [|lia]. pose proof (far_word _ _ _ sw_of_letters Wj L) as L1. pose proof (far_joined j' x J L1) as L2.
    destruct (Nat.lt_ge_cases b' k); [assumption|exfalso; exact (numeral_far x b' Nu L2 ltac:(lia))].
  Qed.
  Lemma between_far i i' u : reads s i i' u -> between u -> i <= k -> i' <= k.
  Proof.
    intros R B L. pose proof (reads_len s i i' u R) as [El Ls]. destruct (Nat.le_gt_cases i' k) as [|G]; [assumption|exfalso]. destruct start_alpha as (q & Eq & Aq). destruct word_at as (v & Hv & Rv).
    assert (Nth : forall n, n < List.length u -> nth_error s (i + n) = nth_error u n) by (intros n Hn; apply (reads_nth s i i' u n R Hn)).
    destruct B as [I|(c & -> & Sc & _)].
    - destruct (Nat.eq_dec i k) as [->|N].
      + assert (G2 : forallb (fun t => forallb (fun v => match t, v with a :: t', b :: v' => negb (N.eqb a b) || match t', v' with a' :: _, b' :: _ => negb (N.eqb a' b') | _, _ => false end | _, _ => false end) season_words) (map lit ["-"; "~"; "to"; "a"; "+"; "&"; "and"; "et"]%string) = true) by (vm_compute; reflexivity).
        rewrite forallb_forall in G2. specialize (G2 _ I). rewrite forallb_forall in G2. specialize (G2 v Hv). destruct u as [|a u']; [discriminate|]. cbn [lower map] in G2. destruct v as [|b v']; [discriminate|].
        destruct (Rv 0 b eq_refl) as (q0 & E0 & L0). rewrite (Nth 0) in E0 by (cbn [List.length]; lia). cbn [nth_error] in E0. injection E0 as <-. rewrite L0, N.eqb_refl in G2. cbn [negb orb] in G2.
        destruct u' as [|a' u'']; [discriminate|]. cbn [map] in G2. destruct v' as [|b' v'']; [discriminate|]. destruct (Rv 1 b' eq_refl) as (q1 & E1 & L1). rewrite (Nth 1) in E1 by (cbn [List.length]; lia). cbn [nth_error] in E1. injection E1 as <-. rewrite L1, N.eqb_refl in G2. discriminate.
      + assert (Eb : nth_error s (k - 1) = nth_error u (k - 1 - i)) by (rewrite <- Nth by lia; f_equal; lia). destruct (nth_error u (k - 1 - i)) as [r|] eqn:Er; [|apply nth_error_None in Er; lia]. pose proof (A r ltac:(lia) Eb) as Sr.
        assert (G2 : forallb (fun t => (List.length t <=? 1) || forallb (fun a => negb (cmem a seps)) t) (map lit ["-"; "~"; "to"; "a"; "+"; "&"; "and"; "et"]%string) = true) by (vm_compute; reflexivity).
        rewrite forallb_forall in G2. specialize (G2 _ I). rewrite lower_length in G2. apply Bool.orb_true_iff in G2 as [G2|G2]; [lia|]. rewrite forallb_forall in G2. assert (Ir : In (to_lower r) (lower u)) by (unfold lower; apply in_map; eapply nth_error_In, Er). specialize (G2 _ Ir). rewrite (sep_lower r Sr), (proj2 (cmem_In _ _) Sr) in G2. discriminate.
    - cbn [List.length] in El. assert (i = k) by lia. subst i. pose proof (Nth 0 ltac:(cbn [List.length]; lia)) as E0. rewrite Nat.add_0_r, Eq in E0. cbn [nth_error] in E0. injection E0 as ->. exact (alpha_nosep c Aq Sc).
  Qed.
  Lemma next_before k' b' d : k' < k -> M s (next_re default_cfg) k' [] b' d -> b' < k.
  Proof.
    intros L H. pose proof (proj1 (word_alpha s _ k j sw_letters W)) as Lk. apply next_M in H as (i & i' & x & u & J & R & B & J2 & Lx & D & _); [|lia]. pose proof (far_joined k' i J ltac:(lia)) as L1. pose proof (between_far i i' u R B L1) as L2. pose proof (far_joined i' x J2 L2) as L3.
    destruct (Nat.lt_ge_cases b' k); [assumption|exfalso]. apply (numeral_far x b'); [|exact L3|lia]. 
    exfalso. destruct start_alpha as (q & Eq & Aq). destruct (Nat.eq_dec x k) as [->|N].
    - destruct (D k ltac:(lia)) as (z & Ez & Dz). rewrite Eq in Ez. injection Ez as <-. rewrite (alpha_nodigit q Aq) in Dz. discriminate.
    - destruct (D (k - 1) ltac:(lia)) as (z & Ez & Dz). exact (digit_nosep z Dz (A z ltac:(lia) Ez)).
  Qed.
End Shapes.
(** ** one part, as matches *)
Definition sw_kid (a b x y : nat) (n : str) (v : mval) : mt := mk_mt x y n v [] false x y (Some (mk_p a b [] [])) [].
Lemma head_group s k j x y : exists pp, group_of s (sw_head, (k, y, [(2, (x, y)); (1, (k, j))])) = [sw_kid k y k j (lit "seasonMarker") (MvStr (slice k j s)); sw_kid k y x y (lit "season") (numeral_of_text (slice x y s)); pp] /\ m_name pp = [] /\ m_private pp = true.
Proof. eexists. split; [reflexivity|]. split; reflexivity. Qed.
Lemma count_group s z x y : exists pp, group_of s (sw_count, (z, y, [(1, (x, y))])) = [sw_kid z y x y (lit "count") (numeral_of_text (slice x y s)); pp] /\ m_name pp = [] /\ m_private pp = true.
Proof. eexists. split; [reflexivity|]. split; reflexivity. Qed.
Lemma next_group s z i j x y : exists pp, group_of s (sw_next default_cfg, (z, y, [(2, (x, y)); (1, (i, j))])) = [sw_kid z y i j (lit "seasonSeparator") (MvStr (slice i j s)); sw_kid z y x y (lit "season") (numeral_of_text (slice x y s)); pp] /\ m_name pp = [] /\ m_private pp = true.
Proof. eexists. split; [reflexivity|]. split; reflexivity. Qed.
Lemma kid_valid s a b x y n v : sw_child_valid s (sw_kid a b x y n v) = if smem n [lit "season"; lit "count"] then int_coercable (slice x y s) || seps_surround s (sw_kid a b x y n v) else true.
Proof. unfold sw_child_valid, validate_roman. change (m_name (sw_kid a b x y n v)) with n. destruct (smem n [lit "season"; lit "count"]); [|reflexivity]. change (Title.m_raw s (sw_kid a b x y n v)) with (slice x y s). destruct (int_coercable (slice x y s)); reflexivity. Qed.
Lemma head_ok s k j x y : part_ok s (sw_head, (k, y, [(2, (x, y)); (1, (k, j))])) = true <-> int_coercable (slice x y s) = true \/ alone s x y.
Proof.
  change (part_ok s (sw_head, (k, y, [(2, (x, y)); (1, (k, j))]))) with (sw_child_valid s (sw_kid k y k j (lit "seasonMarker") (MvStr (slice k j s))) && (sw_child_valid s (sw_kid k y x y (lit "season") (numeral_of_text (slice x y s))) && true)).
  rewrite !kid_valid. change (smem (lit "seasonMarker") [lit "season"; lit "count"]) with false. change (smem (lit "season") [lit "season"; lit "count"]) with true. cbv iota. cbn [andb]. rewrite Bool.andb_true_r, Bool.orb_true_iff, seps_alone. reflexivity.
Qed.
Lemma count_ok s z x y : part_ok s (sw_count, (z, y, [(1, (x, y))])) = true <-> int_coercable (slice x y s) = true \/ alone s x y.
Proof.
  change (part_ok s (sw_count, (z, y, [(1, (x, y))]))) with (sw_child_valid s (sw_kid z y x y (lit "count") (numeral_of_text (slice x y s))) && true).
  rewrite kid_valid. change (smem (lit "count") [lit "season"; lit "count"]) with true. cbv iota. rewrite Bool.andb_true_r, Bool.orb_true_iff, seps_alone. reflexivity.
Qed.
Lemma next_ok s z i j x y : x < y -> all_in s is_digit x y -> part_ok s (sw_next default_cfg, (z, y, [(2, (x, y)); (1, (i, j))])) = true.
Proof.
  intros L D. change (part_ok s (sw_next default_cfg, (z, y, [(2, (x, y)); (1, (i, j))]))) with (sw_child_valid s (sw_kid z y i j (lit "seasonSeparator") (MvStr (slice i j s))) && (sw_child_valid s (sw_kid z y x y (lit "season") (numeral_of_text (slice x y s))) && true)).
  rewrite !kid_valid. change (smem (lit "seasonSeparator") [lit "season"; lit "count"]) with false. change (smem (lit "season") [lit "season"; lit "count"]) with true. cbv iota. cbn [andb].
  destruct (number_reads s x y L D) as (d & R & N). rewrite (proj2 R), (proj2 (written_digits d N)). reflexivity.
Qed.
(** the number of a valid part *)
Lemma valid_number s x y : x <= List.length s -> num_pick s x = Some y -> int_coercable (slice x y s) = true \/ alone s x y -> exists n, written_number (slice x y s) n /\ (number (slice x y s) \/ alone s x y) /\ numeral_of_text (slice x y s) = MvInt n.
Proof.
  intros L P V. pose proof (num_pick_at s x y L P) as Nt. pose proof (numat_le s x y Nt) as Ly.
  assert (Wn : exists n, written_number (slice x y s) n /\ (number (slice x y s) \/ alone s x y)).
  { destruct (nth_error s x) as [q|] eqn:Eq.
    - destruct (is_digit q) eqn:Dq.
      + destruct (num_pick_digits s x y q Eq Dq P) as [L4 D]. assert (Nu : number (slice x y s)) by (apply digits_iff; [lia|lia|exact D]). exists (value_of (slice x y s)). split; [|left; exact Nu]. constructor; [exact Nu|rewrite slice_len by lia; lia].
      + rewrite (numeral_letters s x y q Nt Eq Dq) in V. destruct V as [V|Al]; [discriminate|]. destruct (written_at s x y Ly Nt Al P) as (n & Hn). exists n. auto.
    - exfalso. unfold num_pick in P. rewrite (at_nil s x Eq) in P. discriminate. }
  destruct Wn as (n & Wn & Al). exists n. split; [exact Wn|]. split; [exact Al|]. unfold numeral_of_text. rewrite (written_value _ _ Wn). reflexivity.
Qed.
(** the numeral that is taken *)
Lemma number_pick s x y t n : reads s x y t -> written_number t n -> number t \/ alone s x y -> stops s is_digit y -> num_pick s x = Some y.
Proof.
  intros Rt Wn Al Sd. pose proof (reads_len s x y t Rt) as [Ext Ly]. destruct (number_first t n Wn) as (c0 & r0 & Et & _). assert (Lt : x < y) by (rewrite Et in Ext; cbn [List.length] in Ext; lia).
  destruct (number_inv t n Wn) as [[Nu _]|[Nu _]].
  - assert (D : all_in s is_digit x y) by (apply digits_iff; [lia|lia|]; rewrite (proj2 Rt); exact Nu). assert (L4 : List.length t <= 4).
    { destruct Wn as [u Hu Lu|u m Hm U|u m Hw]; [exact Lu| |]; exfalso; pose proof (proj2 (written_digits _ Nu)) as I1; [pose proof (proj2 (written_roman u m Hm U)) as I2|pose proof (proj2 (written_word u m Hw)) as I2]; congruence. }
    apply digits_lead; [lia|lia|exact D|right; exact Sd].
  - destruct Al as [Al|Al]; [contradiction|]. unfold num_pick. rewrite (proj2 (pick_iff s x y ltac:(lia) (proj2 Al))); [cbn [option_map]; f_equal; lia|]. exists n. rewrite (proj2 Rt). exact Wn.
Qed.
(** the first part of the chain *)
Lemma season_parts s k x y n : season_written s k x y n -> stops s is_digit y ->
  exists j, word s season_words k j /\ match_at s head_re k = Some (y, [(2, (x, y)); (1, (k, j))]) /\ x < y <= List.length s /\ (int_coercable (slice x y s) = true \/ alone s x y) /\ numeral_of_text (slice x y s) = MvInt n /\ k < x.
Proof.
  intros (w & p & t & R & I & P & Ex & Wn & Al) Sd. apply reads_app in R as (j & Rw & R). apply reads_app in R as (x0 & Rp & Rt). pose proof (reads_len s x0 y t Rt) as [Ext Ly]. assert (x0 = x) by lia. subst x0. clear Ex.
  pose proof (reads_len s k j w Rw) as [Ej Lj]. pose proof (reads_len s j x p Rp) as [Exj _].
  assert (Iw : In (lower w) season_words) by (cbn [map In] in I; unfold season_words; cbn [map In]; clear - I; tauto).
  assert (W : word s season_words k j) by (exists w; auto). assert (J : joined s j x) by (apply joined_text; [lia|]; eauto).
  destruct (number_first t n Wn) as (c0 & r0 & Et & Sc). assert (Ec : nth_error s x = Some c0) by (rewrite Et in Rt; apply reads_cons in Rt; apply Rt).
  assert (Lt : x < y) by (rewrite Et in Ext; cbn [List.length] in Ext; lia).
  assert (Ad : after_dash s j = x) by (apply after_dash_joined; [exact J|intros q Eq; rewrite Ec in Eq; injection Eq as <-; exact Sc|lia]).
  assert (Pk : num_pick s x = Some y) by exact (number_pick s x y t n Rt Wn Al Sd).
  destruct (word_alpha s season_words k j sw_letters W) as [Lkj Aj].
  assert (Na : forall c, nth_error s j = Some c -> is_alpha c = false).
  { intros c Hc. destruct P as [->|(sp & -> & Sp & _)].
    - apply reads_nil in Rp as [-> _]. rewrite Ec in Hc. injection Hc as <-. destruct Al as [[_ Nu]|Al].
      + apply digit_noalpha, is_digit_iff, Nu. rewrite Et. left. reflexivity.
      + exfalso. destruct (Aj (j - 1) ltac:(lia)) as (q & Eq & Aq). exact (alpha_nosep q Aq (proj1 Al q ltac:(lia) Eq)).
    - apply reads_one in Rp as [_ Es]. rewrite Es in Hc. injection Hc as <-. apply sep_noalpha, Sp. }
  assert (Sw : startswith (lower w) (at_ s k) = true).
  { apply startswith_app. exists (skipn (List.length w) (at_ s k)). rewrite <- (firstn_skipn (List.length w) (at_ s k)) at 1. f_equal. rewrite at_slice, <- Ej, (proj2 Rw). reflexivity. }
  assert (Ejl : k + List.length (lower w) = j) by (rewrite lower_length; lia).
  assert (Ch : chosen s season_words (num_pick s) k = Some (lower w)) by (apply (season_chosen s k (lower w) y Iw Sw); rewrite Ejl; [exact Na|rewrite Ad; exact Pk]).
  exists j. split; [exact W|]. split; [rewrite best_match, best_head, Ch; cbv zeta; rewrite Ejl, Ad, Pk; reflexivity|]. split; [lia|].
  rewrite (proj2 Rt). split; [destruct (number_inv t n Wn) as [[_ Hi]|[Nu _]]; [left; exact Hi|destruct Al; [contradiction|right; assumption]]|].
  split; [unfold numeral_of_text; rewrite (written_value t n Wn); reflexivity|]. destruct P as [->|(sp & -> & _)]; [apply reads_nil in Rp as [-> _]|cbn [List.length] in Exj]; lia.
Qed.
Lemma season_reached s k x y n : season_written s k x y n -> stops s is_digit y -> (forall c, 0 < k -> nth_error s (k - 1) = Some c -> In c seps) ->
  exists j, word s season_words k j /\ In ((sw_head, (k, y, [(2, (x, y)); (1, (k, j))])) :: fst (tails_found s y [sw_count; sw_next default_cfg])) (chain_loop (sw_chain default_cfg) s (S (List.length s)) 0).
Proof.
  intros H Sd A. destruct (season_parts s k x y n H Sd) as (j & W & Hm & L & _ & _ & Lk). exists j. split; [exact W|].
  destruct (loop_reaches s (sw_chain default_cfg) k y [(2, (x, y)); (1, (k, j))]) with (fuel := S (List.length s)) (pos := 0) as (r & Hr).
  - exact (head_consumes s).
  - discriminate.
  - lia.
  - exact Hm.
  - intros a' b' d' L' HM. exact (head_before s k j W A a' b' d' L' HM).
  - intros p a' b' d' [<-|[<-|[]]] _ L' HM; [exact (count_before s k j W A a' b' d' L' HM)|exact (next_before s k j W A a' b' d' L' HM)].
  - lia.
  - lia.
  - pose proof (loop_tails s (sw_chain default_cfg) eq_refl _ _ _ Hr) as (h & Eh). injection Eh as <- Er. cbn [f_end fst snd] in Er. unfold grp, found in *. rewrite Er in Hr. exact Hr.
Qed.
Lemma head_once s k j x y : at_most_one (lit "season") (group_of s (sw_head, (k, y, [(2, (x, y)); (1, (k, j))]))) /\ at_most_one (lit "episode") (group_of s (sw_head, (k, y, [(2, (x, y)); (1, (k, j))]))).
Proof. split; unfold at_most_one; rewrite named_filter; [apply le_n|apply Nat.le_0_l]. Qed.

(** ** C108: a season written with a word is reported, whatever is around *)
Theorem C108_found s k x y n : season_written s k x y n -> alone s k y -> shows (season_matches default_cfg s) x y (lit "season") (MvInt n).
Proof.
  intros H A. assert (Sd : stops s is_digit y) by (apply stops_sep, A). destruct (season_parts s k x y n H Sd) as (j0 & W0 & Hm0 & L & V & Ev & Lk). destruct (season_reached s k x y n H Sd (proj1 A)) as (j & W & Hr).
  set (g := (sw_head, (k, y, [(2, (x, y)); (1, (k, j))]))) in *. destruct (head_once s k j x y) as [O1 O2]. fold g in O1, O2.
  assert (In (hide private_names (sw_kid k y x y (lit "season") (numeral_of_text (slice x y s)))) (season_matches default_cfg s)).
  { unfold season_matches. apply in_flat_map. eexists. split; [exact Hr|]. cbn [filter]. assert (Ok : part_ok s g = true) by (apply head_ok, V). unfold grp, found in *. rewrite Ok. unfold chain_one.
    destruct (settled_head s (sw_chain default_cfg) g (filter (part_ok s) (fst (tails_found s y [sw_count; sw_next default_cfg])))) as (r & Er).
    - apply one_unbroken; assumption.
    - change (seps_surround s (chain_parent (sw_chain default_cfg) s [g]) && ordering_validator s (range_separators default_cfg) (weak_separators default_cfg) (discrete_separators default_cfg) (max_range_gap default_cfg) (group_of s g) = true).
      rewrite one_valid by assumption. rewrite Bool.andb_true_r. apply seps_alone. exact A.
    - unfold grp, found in *. rewrite Er. right. apply in_map. unfold kids_of. cbn [flat_map]. apply in_app_iff. left. destruct (head_group s k j x y) as (pp & Eg & _). unfold g. rewrite Eg. right. left. reflexivity. }
  apply (hidden_shows _ private_names _ _ _ _ (sw_kid k y x y (lit "season") (numeral_of_text (slice x y s)))); try reflexivity; [exact H0|exact Ev].
Qed.
Print Assumptions C108_found.
(** ** the count *)
Lemma of_outs s k j c : k <= List.length s -> word s of_words k j -> outs s (rwords of_words) k c = [(j, c)].
Proof.
  intros L (t & [Lt Et] & Ht). assert (A : at_ s k = lower t ++ at_ s j).
  { rewrite <- (firstn_skipn (j - k) (at_ s k)), at_slice, at_skip. replace (k + (j - k)) with j by lia. rewrite Et. reflexivity. }
  assert (Lj : j = k + List.length (lower t)) by (rewrite lower_length, <- Et, slice_len by lia; lia).
  rewrite outs_words by discriminate. rewrite A, Lj. destruct Ht as [<-|[<-|[]]]; reflexivity.
Qed.
Lemma best_count s k j c : k <= List.length s -> word s of_words k j -> best s count_re k c = option_map (fun y => (y, (1, (after_dash s j, y)) :: c)) (num_pick s (after_dash s j)).
Proof.
  intros L W. unfold count_re. rewrite (best_seq_one s _ _ k c j c (of_outs s k j c L W)). rewrite best_dash_then; [apply best_group_num|]. intros y E S. rewrite best_group_num, (num_pick_sep s j y E S). reflexivity.
Qed.
(** what is found, exactly *)
Lemma head_at s k b d : k <= List.length s -> match_at s head_re k = Some (b, d) -> exists j x, word s season_words k j /\ joined s j x /\ num_pick s x = Some b /\ d = [(2, (x, b)); (1, (k, j))] /\ x <= List.length s.
Proof.
  intros L H. rewrite best_match, best_head in H. destruct (chosen s season_words (num_pick s) k) as [w|] eqn:Ch; [|discriminate]. cbv zeta in H.
  assert (W : word s season_words k (k + List.length w)).
  { unfold chosen in Ch. apply find_some in Ch as [Iw Ch]. apply Bool.andb_true_iff in Ch as [Sw _]. apply startswith_app in Sw as [r Sw]. assert (Lw : k + List.length w <= List.length s).
    { pose proof (at_len s k) as Al. rewrite Sw, app_length in Al. lia. }
    exists (slice k (k + List.length w) s). split; [split; [lia|reflexivity]|]. rewrite <- at_slice, Sw, firstn_app, firstn_all, Nat.sub_diag. cbn [firstn]. rewrite app_nil_r. exact Iw. }
  destruct (num_pick s (after_dash s (k + List.length w))) as [y|] eqn:P; [|discriminate]. cbn [option_map] in H. injection H as <- <-. exists (k + List.length w), (after_dash s (k + List.length w)). split; [exact W|]. pose proof (joined_after s (k + List.length w)) as J. split; [exact J|]. split; [exact P|]. split; [reflexivity|].
  apply (joined_len s _ _ ) in J; [exact J|]. pose proof (word_alpha s _ _ _ sw_letters W) as [L1 _]. lia.
Qed.
Lemma count_at s k b d : k <= List.length s -> match_at s count_re k = Some (b, d) -> exists j x, word s of_words k j /\ joined s j x /\ num_pick s x = Some b /\ d = [(1, (x, b))] /\ x <= List.length s.
Proof.
  intros L H. pose proof (match_at_M _ _ _ _ _ H) as HM. apply count_M in HM as (j & x0 & W & _ & _ & _); [|exact L]. rewrite best_match, (best_count s k j [] L W) in H.
  destruct (num_pick s (after_dash s j)) as [y|] eqn:P; [|discriminate]. cbn [option_map] in H. injection H as <- <-. exists j, (after_dash s j). split; [exact W|]. pose proof (joined_after s j) as J. split; [exact J|]. split; [exact P|]. split; [reflexivity|].
  apply (joined_len s _ _ ) in J; [exact J|]. pose proof (word_alpha s _ _ _ sw_of_letters W) as [L1 _]. lia.
Qed.
(** a part does not end with a separator *)
Definition solid (s : str) (e : nat) : Prop := 0 < e /\ exists q, nth_error s (e - 1) = Some q /\ ~ In q seps.
Lemma part_solid s g : In (fst g) [sw_head; sw_count; sw_next default_cfg] -> good s g -> solid s (g_end g).
Proof.
  destruct g as [p [[a b] c]]. intros I [H L]. cbn [fst snd f_start] in *. unfold g_end in *. cbn [f_end fst snd] in *. destruct I as [<-|[<-|[<-|[]]]].
  - apply (head_at s a b c L) in H as (j & x & _ & _ & P & _ & Lx). pose proof (pick_positive s x b P). split; [lia|]. exact (numeral_end s x b (num_pick_at s x b Lx P) H).
  - apply (count_at s a b c L) in H as (j & x & _ & _ & P & _ & Lx). pose proof (pick_positive s x b P). split; [lia|]. exact (numeral_end s x b (num_pick_at s x b Lx P) H).
  - apply match_at_M in H. apply (next_M s a b c L) in H as (i & j & x & u & _ & _ & _ & _ & Lx & D & _). split; [lia|]. destruct (D (b - 1) ltac:(lia)) as (q & Eq & Dq). exists q. split; [exact Eq|apply digit_nosep, Dq].
Qed.
Lemma follow_solid s p l e : solid s p -> (forall g, In g l -> In (fst g) [sw_head; sw_count; sw_next default_cfg] /\ good s g) -> follow p l e -> forall g, In g l -> solid s (f_start (snd g)).
Proof.
  intros Sp H F. induction F as [|p g l e E F IH]; [intros ? []|]. intros g' [<-|Ig]; [rewrite E; exact Sp|]. apply IH; [|intros g0 H0; apply H; right; exact H0|exact Ig]. apply part_solid; apply H; left; reflexivity.
Qed.
Lemma hd_filter {A} (f : A -> bool) l x : hd_error (filter f l) = Some x -> In x l.
Proof. intros H. destruct (filter f l) as [|y r] eqn:E; [discriminate|]. injection H as ->. assert (I : In x (filter f l)) by (rewrite E; left; reflexivity). apply filter_In in I. apply I. Qed.
Lemma filter_without {A} (f : A -> bool) l : without (filter f l) l.
Proof. induction l as [|x l IH]; [constructor|]. cbn [filter]. destruct (f x); constructor; exact IH. Qed.
Lemma without_trans {A} (l1 l2 l3 : list A) : without l1 l2 -> without l2 l3 -> without l1 l3.
Proof.
  intros H1 H2. revert l1 H1. induction H2 as [|x l l' H IH|x l l' H IH]; intros l1 H1; [exact H1|apply without_drop, IH, H1|]. inversion H1 as [|? ? ? K|? ? ? K]; subst; [apply without_drop, IH, K|apply without_keep, IH, K].
Qed.
Lemma part_once s g : In (fst g) [sw_head; sw_count; sw_next default_cfg] -> good s g -> at_most_one (lit "season") (group_of s g) /\ at_most_one (lit "episode") (group_of s g).
Proof.
  destruct g as [p [[a b] c]]. intros I [H L]. cbn [fst snd f_start] in *. unfold g_end in *. cbn [f_end fst snd] in *. destruct I as [<-|[<-|[<-|[]]]].
  - apply (head_at s a b c L) in H as (j & x & _ & _ & P & -> & Lx). apply head_once.
  - apply (count_at s a b c L) in H as (j & x & _ & _ & P & -> & Lx). split; unfold at_most_one; rewrite named_filter; apply Nat.le_0_l.
  - apply match_at_M in H. apply (next_M s a b c L) in H as (i & j & x & u & _ & _ & _ & _ & Lx & D & ->). split; unfold at_most_one; rewrite named_filter; [apply le_n|apply Nat.le_0_l].
Qed.
Lemma settled_first s l g gs : (forall g, In g l -> In (fst g) [sw_head; sw_count; sw_next default_cfg] /\ good s g) -> settled (sw_chain default_cfg) s l = g :: gs -> hd_error l = Some g /\ without (g :: gs) l.
Proof.
  intros H E. destruct (settled_spec s (sw_chain default_cfg) l (g :: gs) E ltac:(discriminate)) as (_ & r & K). pose proof (kept_without s (sw_chain default_cfg) l) as Wk. unfold grp, found in *. rewrite K in Wk. split; [|apply (without_prefix _ r), Wk].
  destruct l as [|x l]; [discriminate K|]. destruct (kept_head s (sw_chain default_cfg) x l) as (r' & K').
  - destruct (H x (or_introl eq_refl)) as [H1 H2]. destruct (part_once s x H1 H2). apply one_unbroken; assumption.
  - unfold grp, found in *. rewrite K in K'. cbn [app] in K'. injection K' as <- _. reflexivity.
Qed.
Lemma tails_first s pos p r g : In g (fst (tails_found s pos (p :: r))) -> fst g = p -> ~ In p r -> pt_max p = Some 1 -> f_start (snd g) = pos.
Proof.
  intros I E N Hp. cbn [tails_found] in I. pose proof (tails_sound s r (end_of pos (tail_found s pos p)) g) as T. destruct (tails_found s (end_of pos (tail_found s pos p)) r) as [gs e]. cbn [fst] in I, T. apply in_app_iff in I as [I|I]; [|exfalso; apply N; rewrite <- E; apply T, I].
  apply in_map_iff in I as (f & <- & I). cbn [snd]. unfold tail_found in I. rewrite Hp in I. destruct (finditer_from s (rx_re (pt_rx p)) pos) as [|f0 l]; [destruct I|]. cbn [run] in I. destruct (Nat.eqb_spec (f_start f0) pos) as [E0|]; [|destruct I]. cbn [limit firstn] in I. destruct I as [<-|[]]. exact E0.
Qed.
Lemma count_not_next : ~ In sw_count [sw_next default_cfg].
Proof. intros [H|[]]. apply (f_equal (fun p => List.length (rx_names (pt_rx p)))) in H. discriminate H. Qed.
(** ** C108: nothing else is reported *)
Theorem C108_sound s x y name v : shows (season_matches default_cfg s) x y name v ->
  exists k b n x0 y0 n0, alone s k b /\ k <= x /\ y <= b /\ v = MvInt n /\ season_written s k x0 y0 n0 /\ y0 <= b /\
  ((name = lit "season" /\ x = x0 /\ y = y0 /\ n = n0) \/ (name = lit "count" /\ count_written s y0 x y n) \/
   (name = lit "season" /\ exists z, y0 <= z /\ next_written s between z x y n)).
Proof.
  intros (m & Hm & Ex & Ey & En & Ev & Pm). unfold season_matches in Hm. apply in_flat_map in Hm as (l & Hl & Hm). pose proof (loop_tails s (sw_chain default_cfg) eq_refl _ _ _ Hl) as (h & Eh).
  pose proof (loop_follow s _ _ _ _ Hl) as (a & e & F). apply loop_sound in Hl as (h' & t & El & G1 & G2). rewrite El in Eh. injection Eh as Eh Et. subst h'. cbn [ch_head ch_tails sw_chain ep_chain] in *.
  assert (GA : forall g, In g l -> In (fst g) [sw_head; sw_count; sw_next default_cfg] /\ good s g).
  { intros g0. rewrite El. intros [<-|I]; [split; [left; reflexivity|exact G1]|]. destruct (G2 g0 I) as [[K|K] Gg]; (split; [|exact Gg]); [left; auto|right; exact K]. }
  unfold chain_one in Hm. destruct (settled (sw_chain default_cfg) s (filter (part_ok s) l)) as [|g gs] eqn:Es; [destruct Hm|].
  assert (GF : forall g, In g (filter (part_ok s) l) -> In (fst g) [sw_head; sw_count; sw_next default_cfg] /\ good s g) by (intros g6 I; apply filter_In in I; apply GA, I).
  destruct (settled_first s _ g gs GF Es) as [Hd Wg]. destruct (settled_spec s (sw_chain default_cfg) _ (g :: gs) Es ltac:(discriminate)) as (V & _).
  change (ch_valid (sw_chain default_cfg)) with (ep_valid default_cfg) in V. unfold ep_valid in V. apply Bool.andb_true_iff in V as [V _]. apply seps_alone in V. cbn [chain_parent m_start m_end] in V.
  rewrite El in F. assert (FE : f_start h = a /\ follow (g_end (sw_head, h)) t e) by (inversion F; auto). destruct FE as [Ea F']. subst a.
  assert (Eg : g = (sw_head, h) /\ part_ok s (sw_head, h) = true).
  { rewrite El in Hd. cbn [filter] in Hd. unfold grp, found in *. destruct (part_ok s (sw_head, h)) eqn:Ok; [injection Hd as <-; auto|exfalso].
    assert (Ig : In g t) by exact (hd_filter _ _ _ Hd).
    assert (So : solid s (f_start (snd g))). { apply (follow_solid s (g_end (sw_head, h)) t e); [apply part_solid; [left; reflexivity|exact G1]|intros g7 I0; apply GA; rewrite El; right; exact I0|exact F'|exact Ig]. }
    destruct So as (P0 & q & Eq & Nq). apply Nq. apply (proj1 V); [exact P0|exact Eq]. }
  destruct Eg as [-> Ok]. set (b := match rev ((sw_head, h) :: gs) with g :: _ => g_end g | [] => 0 end) in V. cbn [snd] in V.
  assert (Wl : without ((sw_head, h) :: gs) l) by (eapply without_trans; [exact Wg|apply filter_without]).
  rewrite El in Wl. destruct (follow_ordered s (f_start h) ((sw_head, h) :: t) e ltac:(intros g8 I8; apply GA; rewrite El; exact I8) F) as (O & _ & _). pose proof (without_ordered _ _ _ Wl O) as Og.
  assert (Gg : forall g, In g ((sw_head, h) :: gs) -> good s g) by (intros g6 I; apply GA; rewrite El; eapply without_In; [exact Wl|exact I]).
  assert (Hb : forall g, In g ((sw_head, h) :: gs) -> g_end g <= b) by (intros g6 I; exact (last_end s _ g6 Og Gg I)).
  assert (Hs : forall g, In g gs -> g_end (sw_head, h) <= f_start (snd g)) by (intros g6 I; inversion Og as [|? ? F1 _]; rewrite Forall_forall in F1; apply F1, I).
  destruct h as [[k y0] c0]. destruct G1 as [Gm Lk]. cbn [fst snd f_start] in Gm, Lk. unfold g_end in Gm. cbn [f_end fst snd] in Gm. apply (head_at s k y0 c0 Lk) in Gm as (j & x0 & W & J & P & -> & Lx0).
  pose proof (word_alpha s _ k j sw_letters W) as [Lj _]. pose proof (numat_le s x0 y0 (num_pick_at s x0 y0 Lx0 P)) as Ly0. assert (Ljx : j <= x0) by (unfold joined in J; lia).
  apply head_ok in Ok. destruct (valid_number s x0 y0 Lx0 P Ok) as (n0 & Wn & Al & Nv).
  assert (Sw : season_written s k x0 y0 n0).
  { destruct W as (w & Rw & Iw). apply joined_text in J as (p & Rp & Hp); [|lia]. exists w, p, (slice x0 y0 s). split; [apply reads_app; exists j; split; [exact Rw|]; apply reads_app; exists x0; split; [exact Rp|]; split; [lia|reflexivity]|].
    split; [unfold season_words in Iw; cbn [map In] in Iw |- *; clear - Iw; tauto|]. split; [exact Hp|]. split; [rewrite slice_len by lia; lia|]. auto. }
  assert (Lb : y0 <= b) by (apply (Hb (sw_head, (k, y0, [(2, (x0, y0)); (1, (k, j))]))); left; reflexivity).
  destruct Hm as [<-|Hm]; [discriminate Pm|]. apply in_map_iff in Hm as (m' & <- & Hm). unfold kids_of in Hm. apply in_flat_map in Hm as (g & Ig & Im). cbn [ch_private sw_chain ep_chain] in *.
  destruct (hide_fields private_names m') as (E1 & E2 & E3 & E4 & E5). rewrite E1 in Ex. rewrite E2 in Ey. rewrite E3 in En. rewrite E4 in Ev. rewrite E5 in Pm. apply Bool.orb_false_iff in Pm as [Pm Sm]. clear E1 E2 E3 E4 E5.
  cbn [f_start fst] in V. pose proof (Hb g Ig) as Hbg.
  destruct Ig as [<-|Ig].
  - destruct (head_group s k j x0 y0) as (pp & Egr & _ & Pp). pose proof (eq_ind _ (In m') Im _ Egr) as Im'. destruct Im' as [<-|[<-|[<-|[]]]]; [discriminate Sm| |congruence]. cbn [sw_kid m_start m_end m_name m_value] in Ex, Ey, En, Ev. subst x y name v.
    exists k, b, n0, x0, y0, n0. split; [exact V|]. split; [lia|]. split; [exact Lb|]. split; [exact Nv|]. split; [exact Sw|]. split; [exact Lb|]. left. auto.
  - pose proof (Hs g Ig) as Hsg. assert (Ig' : In g (filter (part_ok s) l)) by (eapply without_In; [exact Wg|right; exact Ig]). apply filter_In in Ig' as [Igl Okg].
    destruct g as [p [[z b'] c]]. cbn [snd f_start fst] in Hsg. unfold g_end in Hsg, Hbg. cbn [f_end fst snd] in Hsg, Hbg.
    assert (Hp : p = sw_count \/ p = sw_next default_cfg \/ p = sw_head) by (destruct (GA _ Igl) as [[K|[K|[K|[]]]] _]; cbn [fst] in K; auto).
    assert (It : In (p, (z, b', c)) t). { inversion Wl as [|? ? ? K|? ? ? K]; subst; [|eapply without_In; [exact K|exact Ig]]. eapply without_In; [exact K|right; exact Ig]. }
    destruct (Gg (p, (z, b', c)) (or_intror Ig)) as [Gm Lz]. cbn [fst snd f_start] in Gm, Lz. unfold g_end in Gm. cbn [f_end fst snd] in Gm.
    destruct Hp as [->|[->| ->]].
    + apply (count_at s z b' c Lz) in Gm as (j' & x1 & W' & J' & P' & -> & Lx1). apply count_ok in Okg. destruct (valid_number s x1 b' Lx1 P' Okg) as (n1 & Wn1 & Al1 & Nv1).
      destruct (count_group s z x1 b') as (pp & Egr & _ & Pp). pose proof (eq_ind _ (In m') Im _ Egr) as Im'. destruct Im' as [<-|[<-|[]]]; [|congruence]. cbn [sw_kid m_start m_end m_name m_value] in Ex, Ey, En, Ev. subst x y name v.
      pose proof (word_alpha s _ z j' sw_of_letters W') as [Lj' _]. pose proof (numat_le s x1 b' (num_pick_at s x1 b' Lx1 P')) as Lb'. assert (j' <= x1) by (unfold joined in J'; lia).
      (* the count comes just after the season *)
      assert (Ez : z = y0).
      { rewrite Et in It. exact (tails_first s y0 sw_count [sw_next default_cfg] _ It eq_refl count_not_next eq_refl). }
      subst z. exists k, b, n1, x0, y0, n0. split; [exact V|]. split; [lia|]. split; [exact Hbg|]. split; [exact Nv1|]. split; [exact Sw|]. split; [exact Lb|]. right. left. split; [reflexivity|].
      destruct W' as (w' & Rw' & Iw'). apply joined_text in J' as (p' & Rp' & Hp'); [|lia]. exists w', p', (slice x1 b' s). split; [apply reads_app; exists j'; split; [exact Rw'|]; apply reads_app; exists x1; split; [exact Rp'|]; split; [lia|reflexivity]|].
      split; [exact Iw'|]. split; [exact Hp'|]. split; [rewrite slice_len by lia; lia|]. auto.
    + apply match_at_M in Gm. apply (next_M s z b' c Lz) in Gm as (i & j' & x1 & u & J1 & Ru & Bu & J2 & Lx1 & D & ->).
      destruct (next_group s z i j' x1 b') as (pp & Egr & _ & Pp). pose proof (eq_ind _ (In m') Im _ Egr) as Im'. destruct Im' as [<-|[<-|[<-|[]]]]; [discriminate Sm| |congruence]. cbn [sw_kid m_start m_end m_name m_value] in Ex, Ey, En, Ev. subst x y name v.
      destruct (number_reads s x1 b' Lx1 D) as (d & Rd & Nd). pose proof (reads_len s x1 b' d Rd) as [Ld _]. pose proof (reads_len s i j' u Ru) as [Lu1 Lu2]. pose proof (joined_len s z i Lz J1) as Li. assert (z <= i) by (unfold joined in J1; lia). assert (j' <= x1) by (unfold joined in J2; lia).
      apply joined_text in J1 as (p1 & Rp1 & Hp1); [|exact Lz]. apply joined_text in J2 as (p2 & Rp2 & Hp2); [|lia].
      exists k, b, (value_of d), x0, y0, n0. split; [exact V|]. split; [lia|]. split; [exact Hbg|]. split; [unfold numeral_of_text; rewrite (proj2 Rd), (proj1 (written_digits d Nd)); reflexivity|]. split; [exact Sw|]. split; [exact Lb|]. right. right. split; [reflexivity|].
      exists z. split; [exact Hsg|]. exists p1, u, p2, d. split; [apply reads_app; exists i; split; [exact Rp1|]; apply reads_app; exists j'; split; [exact Ru|]; apply reads_app; exists x1; split; [exact Rp2|exact Rd]|]. repeat (split; [assumption|]). split; [lia|reflexivity].
    + exfalso. rewrite Et in It. destruct (tails_sound s [sw_count; sw_next default_cfg] y0 _ It) as [[K|[K|[]]] _]; discriminate K.
Qed.
Print Assumptions C108_sound.
(** the second part of the chain *)
Lemma count_parts s z x b n : count_written s z x b n -> stops s is_digit b ->
  match_at s count_re z = Some (b, [(1, (x, b))]) /\ z < x < b /\ b <= List.length s /\ (int_coercable (slice x b s) = true \/ alone s x b) /\ numeral_of_text (slice x b s) = MvInt n /\ (exists q, nth_error s z = Some q /\ is_alpha q = true).
Proof.
  intros (w & p & t & R & I & P & Ex & Wn & Al) Sd. apply reads_app in R as (j & Rw & R). apply reads_app in R as (x0 & Rp & Rt). pose proof (reads_len s x0 b t Rt) as [Ext Lb]. assert (x0 = x) by lia. subst x0. clear Ex.
  pose proof (reads_len s z j w Rw) as [Ej Lj]. pose proof (reads_len s j x p Rp) as [Exj _].
  assert (W : word s of_words z j) by (exists w; split; [exact Rw|exact I]). assert (J : joined s j x) by (apply joined_text; [lia|]; eauto).
  destruct (number_first t n Wn) as (c0 & r0 & Et & Sc). assert (Ec : nth_error s x = Some c0) by (rewrite Et in Rt; apply reads_cons in Rt; apply Rt).
  assert (Lt : x < b) by (rewrite Et in Ext; cbn [List.length] in Ext; lia).
  assert (Ad : after_dash s j = x) by (apply after_dash_joined; [exact J|intros q Eq; rewrite Ec in Eq; injection Eq as <-; exact Sc|lia]).
  assert (Pk : num_pick s x = Some b) by exact (number_pick s x b t n Rt Wn Al Sd).
  destruct (word_alpha s of_words z j sw_of_letters W) as [Lzj Aj].
  split; [rewrite best_match, (best_count s z j [] ltac:(lia) W), Ad, Pk; reflexivity|]. split; [lia|]. split; [lia|]. rewrite (proj2 Rt).
  split; [destruct (number_inv t n Wn) as [[_ Hi]|[Nu _]]; [left; exact Hi|destruct Al; [contradiction|right; assumption]]|].
  split; [unfold numeral_of_text; rewrite (written_value t n Wn); reflexivity|]. destruct (Aj z ltac:(lia)) as (q & Eq & Aq). eauto.
Qed.
(** ** C108: the number of seasons, just after the season *)
Theorem C108_count s k x y n x' b n' : season_written s k x y n -> count_written s y x' b n' -> alone s k b ->
  shows (season_matches default_cfg s) x y (lit "season") (MvInt n) /\ shows (season_matches default_cfg s) x' b (lit "count") (MvInt n').
Proof.
  intros H K A. assert (Sb : stops s is_digit b) by (apply stops_sep, A). destruct (count_parts s y x' b n' K Sb) as (Mc & Lc & Lb & Vc & Evc & (q & Eq & Aq)).
  assert (Sd : stops s is_digit y). { intros c Hc. rewrite Eq in Hc. injection Hc as <-. destruct (is_digit q) eqn:D; [|reflexivity]. rewrite (digit_noalpha q D) in Aq. discriminate. }
  destruct (season_parts s k x y n H Sd) as (j0 & W0 & Hm0 & L & V & Ev & Lk). destruct (season_reached s k x y n H Sd (proj1 A)) as (j & W & Hr).
  destruct (tail_first s sw_count [sw_next default_cfg] y b [(1, (x', b))] ltac:(lia) eq_refl Mc) as (l0 & El). unfold grp, found in *. rewrite El in Hr. clear El.
  set (g := (sw_head, (k, y, [(2, (x, y)); (1, (k, j))]))) in *. set (g' := (sw_count, (y, b, [(1, (x', b))]))) in *. destruct (head_once s k j x y) as [O1 O2]. fold g in O1, O2.
  assert (Z : forall nm, smem nm [lit "season"; lit "episode"] = true -> List.length (named nm (group_of s g')) = 0).
  { intros nm I. apply smem_In in I. rewrite named_filter. destruct I as [<-|[<-|[]]]; reflexivity. }
  pose proof (at_most_app (lit "season") _ _ O1 (Z (lit "season") eq_refl)) as P1. pose proof (at_most_app (lit "episode") _ _ O2 (Z (lit "episode") eq_refl)) as P2.
  assert (Se : exists r, settled (sw_chain default_cfg) s (filter (part_ok s) (g :: g' :: l0)) = g :: g' :: r).
  { cbn [filter]. assert (Ok : part_ok s g = true) by (apply head_ok, V). assert (Ok' : part_ok s g' = true) by (apply count_ok, Vc). unfold grp, found in *. rewrite Ok, Ok'.
    apply settled_two.
    - apply one_unbroken; assumption.
    - apply one_unbroken; assumption.
    - change (seps_surround s (chain_parent (sw_chain default_cfg) s [g; g']) && ordering_validator s (range_separators default_cfg) (weak_separators default_cfg) (discrete_separators default_cfg) (max_range_gap default_cfg) (group_of s g ++ group_of s g') = true).
      rewrite one_valid by assumption. rewrite Bool.andb_true_r. apply seps_alone. exact A. }
  destruct Se as (r & Er).
  assert (Sh : forall m, In m (group_of s g ++ group_of s g') -> In (hide private_names m) (season_matches default_cfg s)).
  { intros m Im. unfold season_matches. apply in_flat_map. eexists. split; [exact Hr|]. assert (Eo : chain_one (sw_chain default_cfg) s (filter (part_ok s) (g :: g' :: l0)) = chain_parent (sw_chain default_cfg) s (g :: g' :: r) :: map (hide private_names) (kids_of s (g :: g' :: r))) by (unfold chain_one; refine (f_equal (fun z => match z with [] => [] | g2 :: l2 => chain_parent (sw_chain default_cfg) s (g2 :: l2) :: map (hide (ch_private (sw_chain default_cfg))) (kids_of s (g2 :: l2)) end) Er)). refine (eq_ind_r (In _) _ Eo). right. apply in_map. unfold kids_of. cbn [flat_map]. rewrite app_assoc. apply in_app_iff. left. exact Im. }
  split.
  - apply (hidden_shows _ private_names _ _ _ _ (sw_kid k y x y (lit "season") (numeral_of_text (slice x y s)))); try reflexivity; [|exact Ev]. apply Sh, in_app_iff. left. destruct (head_group s k j x y) as (pp & Eg & _). unfold g. rewrite Eg. right. left. reflexivity.
  - apply (hidden_shows _ private_names _ _ _ _ (sw_kid y b x' b (lit "count") (numeral_of_text (slice x' b s)))); try reflexivity; [|exact Evc]. apply Sh, in_app_iff. right. destruct (count_group s y x' b) as (pp & Eg & _). unfold g'. rewrite Eg. left. reflexivity.
Qed.
Print Assumptions C108_count.
(** ** a list of seasons: the text that says a range *)
Definition range_text (u : str) : Prop := In (lower u) (map lit ["-"; "~"; "to"; "a"]%string).
Lemma range_first s i j u c : reads s i j u -> range_text u -> exists l, outs s (sw_sep_re default_cfg) i c = (j, c) :: l.
Proof.
  intros R I. pose proof (reads_len s i j u R) as [Ej Lj]. assert (A : at_ s i = lower u ++ at_ s j).
  { rewrite <- (firstn_skipn (j - i) (at_ s i)), at_slice, at_skip. replace (i + (j - i)) with j by lia. rewrite (proj2 R). reflexivity. }
  assert (Ej' : j = i + List.length (lower u)) by (rewrite lower_length; lia).
  unfold sw_sep_re. cbn [outs]. rewrite outs_words by discriminate. rewrite A, filter_app. set (L := filter _ (all_discrete default_cfg)). rewrite map_app. generalize (map (fun w => (i + List.length w, c)) L) as L'. intros L'.
  generalize (at_ s j) as r. intros r. rewrite Ej'. unfold range_text in I. cbn [map In] in I. destruct I as [I|[I|[I|[I|[]]]]]; rewrite <- I; eexists; reflexivity.
Qed.
Lemma first_lead {A B} (f : A -> list B) x l y r : f x = y :: r -> flat_map f (x :: l) = y :: r ++ flat_map f l.
Proof. intros E. cbn [flat_map]. rewrite E. reflexivity. Qed.
Lemma best_first s a R i c j l o : outs s a i c = (j, c) :: l -> best s R j c = Some o -> best s (RSeq a R) i c = Some o.
Proof. unfold best. cbn [outs]. intros -> E. cbn [flat_map fst snd]. destruct (outs s R j c); [discriminate|]. exact E. Qed.
Lemma best_group s n a R i c j l o : outs s a i c = (j, c) :: l -> best s R j ((n, (i, j)) :: c) = Some o -> best s (RSeq (RGrp n a) R) i c = Some o.
Proof. unfold best. cbn [outs]. intros -> E. cbn [map flat_map fst snd]. destruct (outs s R j ((n, (i, j)) :: c)); [discriminate|]. exact E. Qed.
Lemma best_digits_at s x b c : x < b -> all_in s is_digit x b -> stops s is_digit b -> best s (RGrp 2 digits1) x c = Some (b, (2, (x, b)) :: c).
Proof.
  intros L D St. rewrite best_grp. pose proof (best_digits1 s x c) as H. destruct (best s digits1 x c) as [[j d]|].
  - destruct H as (-> & L2 & D2 & S2). assert (j = b) as ->; [|reflexivity]. destruct (Nat.lt_trichotomy j b) as [K|[K|K]]; [|exact K|].
    + destruct (D j ltac:(lia)) as (q & Eq & Dq). rewrite (S2 q Eq) in Dq. discriminate.
    + destruct (D2 b ltac:(lia)) as (q & Eq & Dq). rewrite (St q Eq) in Dq. discriminate.
  - exfalso. destruct (D x ltac:(lia)) as (q & Eq & Dq). rewrite (H q Eq) in Dq. discriminate.
Qed.
(** the third part of the chain *)
Lemma next_core s i j x b u : reads s i j u -> range_text u -> joined s j x -> x < b -> all_in s is_digit x b -> stops s is_digit b ->
  best s (RSeq (RGrp 1 (sw_sep_re default_cfg)) (RSeq dash_opt (RGrp 2 digits1))) i [] = Some (b, [(2, (x, b)); (1, (i, j))]).
Proof.
  intros R I J L D St. destruct (range_first s i j u [] R I) as (l & Eo). apply (best_group s 1 _ _ i [] j l _ Eo). destruct (D x ltac:(lia)) as (q & Eq & Dq). pose proof (nth_error_lt _ _ _ Eq).
  rewrite best_dash_then.
  - rewrite (after_dash_joined s j x J); [apply best_digits_at; assumption| |lia]. intros y Ey. rewrite Eq in Ey. injection Ey as <-. apply digit_nosep, Dq.
  - intros y Ey Sy. rewrite best_grp. pose proof (best_digits1 s j [(1, (i, j))]) as H1. destruct (best s digits1 j [(1, (i, j))]) as [[e d]|]; [|reflexivity]. exfalso. destruct H1 as (_ & L1 & D1 & _). destruct (D1 j ltac:(lia)) as (z & Ez & Dz). rewrite Ey in Ez. injection Ez as <-. exact (digit_nosep y Dz Sy).
Qed.
Lemma next_fails s i c : i <= List.length s -> (forall q, nth_error s i = Some q -> is_digit q = true) -> best s (RSeq (RGrp 1 (sw_sep_re default_cfg)) (RSeq dash_opt (RGrp 2 digits1))) i c = None.
Proof.
  intros L D. unfold best. destruct (outs s (RSeq (RGrp 1 (sw_sep_re default_cfg)) (RSeq dash_opt (RGrp 2 digits1))) i c) as [|[j d] l] eqn:E; [reflexivity|exfalso].
  assert (HM : M s (RSeq (RGrp 1 (sw_sep_re default_cfg)) (RSeq dash_opt (RGrp 2 digits1))) i c j d) by (apply outs_M; rewrite E; left; reflexivity).
  apply M_sq in HM as (j1 & e & H1 & H). apply M_group in H1 as (e1 & -> & H1). apply sep_M in H1 as (-> & u & R & B); [|exact L]. assert (Q : exists q r, u = q :: r /\ is_digit q = false).
    { destruct B as [B|(q & -> & S & _)].
      - destruct u as [|q r]; [exfalso; clear - B; cbn in B; repeat (destruct B as [B|B]; [discriminate|]); exact B|]. exists q, r. split; [reflexivity|]. destruct (is_digit q) eqn:Dq; [exfalso|reflexivity]. assert (to_lower q = q) as El by (unfold to_lower, is_upper, is_digit in *; destruct ((65 <=? q) && (q <=? 90))%N eqn:U; [lia|reflexivity]).
        change (lower (q :: r)) with (to_lower q :: lower r) in B. rewrite El in B. unfold is_digit in Dq. clear - B Dq. cbn in B. repeat (destruct B as [B|B]; [injection B as <- _; discriminate|]). exact B.
      - exists q, []. split; [reflexivity|]. destruct (is_digit q) eqn:Dq; [exfalso; exact (digit_nosep q Dq S)|reflexivity]. }
    destruct Q as (q & r & -> & Nq). apply reads_cons in R as [Eq _]. rewrite (D q Eq) in Nq. discriminate.
Qed.
Lemma next_reads s y b p u q d : reads s y b (p ++ u ++ q ++ d) -> maybe_sep p -> range_text u -> maybe_sep q -> number d -> p <> [] \/ q = [] \/ In (lower u) [lit "to"; lit "a"] -> stops s is_digit b ->
  exists i j x, joined s y i /\ reads s i j u /\ joined s j x /\ x = b - List.length d /\ reads s x b d /\ x < b <= List.length s /\ match_at s (next_re default_cfg) y = Some (b, [(2, (x, b)); (1, (i, j))]) /\ i < j /\ y <= i /\ j <= x.
Proof.
  intros R Hp Hu Hq Hd C St. apply reads_app in R as (i & Rp & R). apply reads_app in R as (j & Ru & R). apply reads_app in R as (x & Rq & Rd).
  pose proof (reads_len s y i p Rp) as [Ei Li]. pose proof (reads_len s i j u Ru) as [Ej Lj]. pose proof (reads_len s j x q Rq) as [Ex Lx]. pose proof (reads_len s x b d Rd) as [Eb Lb]. destruct (reads_number s x b d Rd Hd) as [Lxb D].
  assert (J1 : joined s y i) by (apply joined_text; [lia|]; eauto). assert (J2 : joined s j x) by (apply joined_text; [lia|]; eauto).
  assert (Hn : u <> []) by (intros ->; unfold range_text in Hu; cbn [lower map In] in Hu; repeat (destruct Hu as [Hu|Hu]; [discriminate|]); exact Hu).
  assert (Lu : i < j) by (destruct u; [congruence|]; cbn [List.length] in Ej; lia).
  exists i, j, x. split; [exact J1|]. split; [exact Ru|]. split; [exact J2|]. split; [lia|]. split; [exact Rd|]. split; [lia|]. split; [|lia].
  pose proof (next_core s i j x b u Ru Hu J2 Lxb D St) as Cr. rewrite best_match. unfold next_re. destruct Hp as [->|(c & -> & Sc)].
  - assert (i = y) by (cbn [List.length] in Ei; lia). clear Ei. subst i. clear Rp J1. assert (K : (exists z, nth_error s y = Some z /\ ~ In z seps) \/ (q = [] /\ List.length u = 1)).
    { destruct C as [C|C]; [congruence|]. unfold range_text in Hu. assert (T : In (lower u) [lit "to"; lit "a"] -> exists z, nth_error s y = Some z /\ ~ In z seps).
      { intros T. destruct u as [|z r]; [congruence|]. apply reads_cons in Ru as [Ez _]. exists z. split; [exact Ez|]. apply alpha_nosep. change (lower (z :: r)) with (to_lower z :: lower r) in T. assert (Az : to_lower z = 116%N \/ to_lower z = 97%N) by (destruct T as [T|[T|[]]]; injection T as T _; auto). clear - Az. unfold is_alpha, to_lower, is_upper, is_lower in *. destruct ((65 <=? z) && (z <=? 90))%N eqn:U; lia. }
      destruct C as [->|C]; [|left; exact (T C)]. cbn [map In] in Hu. destruct Hu as [Hu|[Hu|[Hu|[Hu|[]]]]].
      - right. split; [reflexivity|]. rewrite <- (lower_length u), <- Hu. reflexivity.
      - right. split; [reflexivity|]. rewrite <- (lower_length u), <- Hu. reflexivity.
      - left. apply T. left. exact Hu.
      - left. apply T. right. left. exact Hu. }
    destruct K as [(z & Ez & Nz)|[-> L1]].
    + rewrite best_dash_then; [|intros z' Ez' Sz'; exfalso; rewrite Ez in Ez'; injection Ez' as <-; exact (Nz Sz')]. replace (after_dash s y) with y; [exact Cr|]. unfold after_dash. rewrite Ez. destruct (cmem z seps_no_fs) eqn:Cz; [|reflexivity]. exfalso. apply no_fs_iff in Cz as (Cz & _). exact (Nz Cz).
    + assert (x = j) by (cbn [List.length] in Ex; lia). clear Ex. subst x. unfold best. cbn [outs dash_opt ropt dash flat_map app fst snd]. assert (Fa : outs s (RSeq (RGrp 1 (sw_sep_re default_cfg)) (RSeq dash_opt (RGrp 2 digits1))) (S y) [] = []).
      { assert (N : best s (RSeq (RGrp 1 (sw_sep_re default_cfg)) (RSeq dash_opt (RGrp 2 digits1))) (S y) [] = None).
        { apply next_fails; [lia|]. intros z Ez. assert (S y = j) by lia. destruct (D j ltac:(lia)) as (z' & Ez' & Dz). congruence. }
        unfold best in N. destruct (outs s (RSeq (RGrp 1 (sw_sep_re default_cfg)) (RSeq dash_opt (RGrp 2 digits1))) (S y) []); [reflexivity|discriminate]. }
      destruct (nth_error s y) as [z|]; [|cbn [flat_map app fst snd]; rewrite app_nil_r; exact Cr]. destruct (cmem z seps_no_fs); [|cbn [flat_map app fst snd]; rewrite app_nil_r; exact Cr]. change (hd_error (outs s (RSeq (RGrp 1 (sw_sep_re default_cfg)) (RSeq dash_opt (RGrp 2 digits1))) (S y) [] ++ outs s (RSeq (RGrp 1 (sw_sep_re default_cfg)) (RSeq dash_opt (RGrp 2 digits1))) y [] ++ []) = Some (b, [(2, (j, b)); (1, (y, j))])). rewrite Fa, app_nil_r. exact Cr.
  - apply reads_one in Rp as [-> Ec]. unfold best. cbn [outs dash_opt ropt dash flat_map app fst snd]. rewrite Ec. assert (cmem c seps_no_fs = true) as -> by (apply no_fs_iff; tauto). cbn [flat_map app fst snd].
    match goal with |- hd_error (?x ++ _) = _ => change x with (outs s (RSeq (RGrp 1 (sw_sep_re default_cfg)) (RSeq dash_opt (RGrp 2 digits1))) (S y) []) end. unfold best in Cr. destruct (outs s (RSeq (RGrp 1 (sw_sep_re default_cfg)) (RSeq dash_opt (RGrp 2 digits1))) (S y) []); [discriminate|exact Cr].
Qed.
Lemma tail_nothing s p r pos : pos <= List.length s -> match_at s (rx_re (pt_rx p)) pos = None -> fst (tails_found s pos (p :: r)) = fst (tails_found s pos r).
Proof.
  intros L H. assert (E : tail_found s pos p = []).
  { unfold tail_found, finditer_from. cbn [finditer_loop]. destruct (search s (rx_re (pt_rx p)) pos) as [[[x y] d]|] eqn:Es; [|destruct (pt_max p) as [[|n]|]; reflexivity].
    apply search_at in Es as (H1 & H2 & H3). cbn [run f_start fst]. destruct (Nat.eqb_spec x pos) as [->|_]; [congruence|]. destruct (pt_max p) as [[|n]|]; reflexivity. }
  cbn [tails_found]. rewrite E. change (end_of pos []) with pos. destruct (tails_found s pos r) as [gs e]. reflexivity.
Qed.
Lemma tail_many s p r pos e c : pos <= List.length s -> pt_max p = None -> match_at s (rx_re (pt_rx p)) pos = Some (e, c) -> exists l, fst (tails_found s pos (p :: r)) = (p, (pos, e, c)) :: l.
Proof.
  intros Lp Hp H. assert (E : exists l, tail_found s pos p = (pos, e, c) :: l).
  { unfold tail_found, finditer_from. rewrite Hp. cbn [finditer_loop limit]. destruct (search s (rx_re (pt_rx p)) pos) as [[[x y] d]|] eqn:Es.
    - apply search_at in Es as (H1 & H2 & H3). assert (x = pos) as ->. { destruct (Nat.eq_dec x pos); [assumption|]. rewrite (H3 pos ltac:(lia)) in H. discriminate. }
      rewrite H in H2. injection H2 as <- <-. cbn [run f_start fst]. rewrite Nat.eqb_refl. eauto.
    - exfalso. rewrite (search_none _ _ _ Es pos ltac:(lia)) in H. discriminate. }
  destruct E as (l & E). cbn [tails_found]. rewrite E. destruct (tails_found s (end_of pos ((pos, e, c) :: l)) r) as [gs z]. cbn [map app fst]. eauto.
Qed.
Lemma perm_filter {A} (f : A -> bool) l l' : Permutation.Permutation l l' -> Permutation.Permutation (filter f l) (filter f l').
Proof. induction 1; cbn [filter]; [constructor|destruct (f x); [constructor|]; assumption|destruct (f x), (f y); try apply Permutation.Permutation_refl; constructor|eapply Permutation.perm_trans; eassumption]. Qed.
Lemma filter_two (f : mt -> bool) l a b : filter f l = [a; b] -> mt_le b a = false -> forall l', l' = msorted l -> filter f l' = [a; b].
Proof.
  intros E Nle l' ->. assert (P : Permutation.Permutation (filter f (msorted l)) [a; b]). { rewrite <- E. apply perm_filter. unfold msorted. apply isort_perm. }
  apply Permutation.Permutation_sym, Permutation.Permutation_length_2_inv in P as [P|P]; [exact P|exfalso].
  assert (St : Sorted.StronglySorted (fun x y => mt_le x y = true) (filter f (msorted l))) by (apply CrcProofs.sorted_filter; apply msorted_sorted).
  rewrite P in St. inversion St as [|? ? _ F]. inversion F. congruence.
Qed.


Lemma in_made {A B} (f : A -> bool) (g : B -> A) l u : In u (filter f (map g l)) -> exists c, u = g c /\ In c l.
Proof. intros I. apply filter_In in I as [I _]. apply in_map_iff in I as (c & <- & Ic). eauto. Qed.
Lemma weak_eq : weak_separators default_cfg = map (fun c => [c]) (filter (fun c => negb (smem [c] (range_separators default_cfg))) seps_no_fs).
Proof. reflexivity. Qed.
Lemma weak_single u : In u (weak_separators default_cfg) -> exists c, u = [c] /\ cmem c seps_no_fs = true.
Proof. rewrite weak_eq. intros I. apply in_map_iff in I as (c & <- & Ic). apply filter_In in Ic as [Ic _]. exists c. split; [reflexivity|]. apply cmem_In. exact Ic. Qed.
Lemma range_not_weak u : range_text u -> In u (weak_separators default_cfg) -> In u (map lit ["-"; "~"; "to"; "a"]%string).
Proof.
  intros Hu Iw. apply weak_single in Iw as (c0 & -> & Q). apply no_fs_iff in Q as (Q & _).
  assert (El : to_lower c0 = c0). { unfold to_lower. destruct (is_upper c0) eqn:U; [|reflexivity]. exfalso. apply sep_noalpha in Q. unfold is_alpha in Q. rewrite U in Q. discriminate. }
  assert (E2 : lower [c0] = [c0]) by (cbn [lower map]; rewrite El; reflexivity). unfold range_text in Hu. rewrite E2 in Hu. exact Hu.
Qed.
Lemma two_valid s rs wk st gap kids a b sp u : named (lit "season") kids = [a; b] -> at_most_one (lit "episode") kids -> kids_ok (lit "season") kids -> m_start a < m_start b -> (Episodes.num a <= Episodes.num b)%Z ->
  named (lit "seasonSeparator") kids = [sp] -> slice (m_raw_start sp) (m_raw_end sp) s = u -> (In u wk -> In u rs) -> ordering_validator s rs wk st gap kids = true.
Proof.
  intros Na Ne Ok Lab Hab Nsp Eu Hu. unfold ordering_validator. rewrite (one_sorted _ _ Ne). cbn [negb]. rewrite (one_consecutive _ _ _ _ _ _ _ Ne).
  assert (D : zsorted (dict_values (lit "season") kids) = true).
  { unfold dict_values. rewrite (filter_two (has_name (lit "season")) kids a b Na); [|unfold mt_le; lia|reflexivity]. cbn [map no_repeat existsb]. destruct (Z.eqb_spec (Episodes.num b) (Episodes.num a)) as [E|E]; cbn [orb].
    - unfold zsorted. cbn [isort insert]. destruct (list_eq_dec Z.eq_dec _ _); congruence.
    - unfold zsorted. cbn [isort insert]. assert ((Episodes.num a <=? Episodes.num b)%Z = true) as -> by lia. destruct (list_eq_dec Z.eq_dec _ _); congruence. }
  rewrite D. cbn [negb andb]. apply is_consecutive_spec; [exact Ok|]. right. intros p c t _ (sep & (Is & _) & Esep & Et) Iw Nr. exfalso.
  assert (sep = sp). { assert (K : In sep (named (lit "seasonSeparator") kids)) by (apply filter_In; split; [exact Is|]; unfold has_name; rewrite Esep; apply str_eqb_refl). rewrite Nsp in K. destruct K as [K|[]]; auto. }
  subst sep. rewrite Eu in Et. subst t. exact (Nr (Hu Iw)).
Qed.
Lemma part_pair s k j x y n b i j' x' : exists p1 p2, group_of s (sw_head, (k, y, [(2, (x, y)); (1, (k, j))])) ++ group_of s (sw_next default_cfg, (n, b, [(2, (x', b)); (1, (i, j'))])) =
  [sw_kid k y k j (lit "seasonMarker") (MvStr (slice k j s)); sw_kid k y x y (lit "season") (numeral_of_text (slice x y s)); p1; sw_kid n b i j' (lit "seasonSeparator") (MvStr (slice i j' s)); sw_kid n b x' b (lit "season") (numeral_of_text (slice x' b s)); p2] /\
  m_name p1 = [] /\ m_name p2 = [] /\ m_start p1 = k /\ m_end p1 = y /\ m_start p2 = n /\ m_end p2 = b.
Proof. eexists. eexists. split; [reflexivity|]. repeat split. Qed.
(** ** C108: a range of seasons. The first separator is seen apart from the text of the range unless they are the same character *)
Theorem C108_range s k x y n b p u q d : season_written s k x y n -> reads s y b (p ++ u ++ q ++ d) -> maybe_sep p -> In (lower u) (map lit ["-"; "~"; "to"; "a"]%string) -> maybe_sep q -> number d ->
  p <> [] \/ q = [] \/ In (lower u) [lit "to"; lit "a"] -> (n <= value_of d <= n + 100)%Z -> alone s k b ->
  shows (season_matches default_cfg s) x y (lit "season") (MvInt n) /\ shows (season_matches default_cfg s) (b - List.length d) b (lit "season") (MvInt (value_of d)).
Proof.
  intros H R Hp Hu Hq Hd C Hn A. assert (Sb : stops s is_digit b) by (apply stops_sep, A). destruct (next_reads s y b p u q d R Hp Hu Hq Hd C Sb) as (i & j' & x' & J1 & Ru & J2 & Ex' & Rd & Lb & Mn & Lij & Lyi & Ljx).
  (* what is just after the first season *)
  assert (Fy : exists z, nth_error s y = Some z /\ is_digit z = false /\ to_lower z <> 111%N /\ to_lower z <> 115%N).
  { assert (Fu : forall z r, u = z :: r -> is_digit z = false /\ to_lower z <> 111%N /\ to_lower z <> 115%N).
    { intros z r ->. change (lower (z :: r)) with (to_lower z :: lower r) in Hu. assert (Q : In (to_lower z) [45; 126; 116; 97]%N) by (destruct Hu as [Hu|[Hu|[Hu|[Hu|[]]]]]; injection Hu as Hu _; rewrite <- Hu; cbn [In]; auto).
      split; [|cbn [In] in Q; lia]. unfold to_lower in Q. unfold is_digit. destruct (is_upper z) eqn:U; [unfold is_upper in U; lia|]. cbn [In] in Q. lia. }
    destruct Hp as [->|(c & -> & Sc & _)].
    - destruct u as [|z r]; [exfalso; clear - Hu; cbn [lower map In] in Hu; repeat (destruct Hu as [Hu|Hu]; [discriminate|]); exact Hu|]. cbn [app] in R. apply reads_cons in R as [Ez _]. exists z. split; [exact Ez|]. exact (Fu z r eq_refl).
    - cbn [app] in R. apply reads_cons in R as [Ez _]. exists c. split; [exact Ez|]. pose proof (sep_noalpha c Sc) as Nc. split; [destruct (is_digit c) eqn:Dc; [exfalso; exact (digit_nosep c Dc Sc)|reflexivity]|]. unfold is_alpha in Nc. unfold to_lower. destruct (is_upper c) eqn:U; [discriminate|]. unfold is_lower in Nc. cbn [orb] in Nc. lia. }
  destruct Fy as (z & Ez & Dz & Oz & Uz).
  assert (Sd : stops s is_digit y) by (intros c Hc; rewrite Ez in Hc; injection Hc as <-; exact Dz).
  destruct (season_parts s k x y n H Sd) as (j0 & W0 & Hm0 & L & V & Ev & Lk). destruct (season_reached s k x y n H Sd (proj1 A)) as (j & W & Hr). pose proof (word_alpha s season_words k j sw_letters W) as [Lkj _].
  assert (Lj : j <= x).
  { assert (G : In (sw_head, (k, y, [(2, (x, y)); (1, (k, j))])) ((sw_head, (k, y, [(2, (x, y)); (1, (k, j))])) :: fst (tails_found s y [sw_count; sw_next default_cfg]))) by (left; reflexivity).
    pose proof (loop_sound s (sw_chain default_cfg) _ _ _ Hr) as (h' & t & El & G1 & _). injection El as <- _. destruct G1 as [Gm Lk']. cbn [fst snd f_start] in Gm. unfold g_end in Gm. cbn [f_end fst snd] in Gm. apply (head_at s k y _ ltac:(lia)) in Gm as (j1 & x1 & _ & J & _ & Ed & _). injection Ed as <- <-. unfold joined in J. lia. }
  assert (Nc : match_at s count_re y = None).
  { destruct (match_at s count_re y) as [[e c]|] eqn:E; [exfalso|reflexivity]. apply (count_at s y e c ltac:(lia)) in E as (j1 & x1 & (w & Rw & Iw) & _). destruct w as [|c0 r]; [destruct Iw as [Iw|[Iw|[]]]; discriminate|]. apply reads_cons in Rw as [E0 _]. rewrite Ez in E0. injection E0 as <-.
    change (lower (z :: r)) with (to_lower z :: lower r) in Iw. destruct Iw as [Iw|[Iw|[]]]; injection Iw as Iw _; congruence. }
  destruct (tail_many s (sw_next default_cfg) [] y b [(2, (x', b)); (1, (i, j'))] ltac:(lia) eq_refl Mn) as (l0 & El). rewrite <- (tail_nothing s sw_count [sw_next default_cfg] y ltac:(lia) Nc) in El. unfold grp, found in *. rewrite El in Hr. clear El.
  assert (Evd : numeral_of_text (slice x' b s) = MvInt (value_of d)) by (unfold numeral_of_text; rewrite (proj2 Rd), (proj1 (written_digits d Hd)); reflexivity).
  destruct (part_pair s k j x y y b i j' x') as (p1 & p2 & Eg & N1 & N2 & S1 & T1 & S2 & T2).
  set (g := (sw_head, (k, y, [(2, (x, y)); (1, (k, j))]))) in *. set (g' := (sw_next default_cfg, (y, b, [(2, (x', b)); (1, (i, j'))]))) in *. destruct (head_once s k j x y) as [O1 O2]. fold g in O1, O2.
  assert (Hk : forall nm, has_name nm p1 = str_eqb [] nm /\ has_name nm p2 = str_eqb [] nm) by (intros nm; unfold has_name; rewrite N1, N2; auto).
  assert (Ns : named (lit "season") (group_of s g ++ group_of s g') = [sw_kid k y x y (lit "season") (numeral_of_text (slice x y s)); sw_kid y b x' b (lit "season") (numeral_of_text (slice x' b s))]).
  { rewrite Eg, named_filter. cbn [filter]. rewrite (proj1 (Hk _)), (proj2 (Hk _)). reflexivity. }
  assert (Np : named (lit "seasonSeparator") (group_of s g ++ group_of s g') = [sw_kid y b i j' (lit "seasonSeparator") (MvStr (slice i j' s))]).
  { rewrite Eg, named_filter. cbn [filter]. rewrite (proj1 (Hk _)), (proj2 (Hk _)). reflexivity. }
  assert (Ne : named (lit "episode") (group_of s g ++ group_of s g') = []).
  { rewrite Eg, named_filter. cbn [filter]. rewrite (proj1 (Hk _)), (proj2 (Hk _)). reflexivity. }
  assert (Ko : kids_ok (lit "season") (group_of s g ++ group_of s g')).
  { split.
    - intros m I. rewrite Eg in I. cbn [In] in I. destruct I as [<-|[<-|[<-|[<-|[<-|[<-|[]]]]]]]; cbn [sw_kid m_start m_end]; lia.
    - intros m1 m2 I1 I2 E1 E2 _. assert (Q : forall m, In m (group_of s g ++ group_of s g') -> m_name m = sepname (lit "season") -> m = sw_kid y b i j' (lit "seasonSeparator") (MvStr (slice i j' s))).
      { intros m I E. assert (K : In m (named (lit "seasonSeparator") (group_of s g ++ group_of s g'))) by (apply filter_In; split; [exact I|]; unfold has_name; rewrite E; reflexivity). rewrite Np in K. destruct K as [K|[]]; auto. }
      rewrite (Q m1 I1 E1), (Q m2 I2 E2). reflexivity. }
  assert (Se : exists r, settled (sw_chain default_cfg) s (filter (part_ok s) (g :: g' :: l0)) = g :: g' :: r).
  { cbn [filter]. assert (Ok : part_ok s g = true) by (apply head_ok, V). assert (Ok' : part_ok s g' = true) by (apply next_ok; [lia|]; apply digits_iff; [lia|lia|]; rewrite (proj2 Rd); exact Hd). unfold grp, found in *. rewrite Ok, Ok'.
    apply settled_two.
    - apply one_unbroken; assumption.
    - change (chain_breaker 100 100 (group_of s g ++ group_of s g') = false). unfold chain_breaker. assert (T : forall a c, Episodes.num a = n -> Episodes.num c = value_of d -> too_far 100 [a; c] = false) by (intros a c Ha Hc; unfold too_far; cbn [rev app]; rewrite Ha, Hc; apply Z.ltb_ge; lia). assert (T0 : forall l, l = [] -> too_far 100 l = false) by (intros l ->; reflexivity). rewrite (T0 _ Ne). apply (eq_ind_r (fun l => too_far 100 l = false)) with (2 := Ns). apply T; unfold Episodes.num, sw_kid; cbn [m_value]; [rewrite Ev|rewrite Evd]; reflexivity.
    - change (seps_surround s (chain_parent (sw_chain default_cfg) s [g; g']) && ordering_validator s (range_separators default_cfg) (weak_separators default_cfg) (discrete_separators default_cfg) (max_range_gap default_cfg) (group_of s g ++ group_of s g') = true).
      apply Bool.andb_true_iff. split; [apply seps_alone; exact A|]. apply (two_valid s _ _ _ _ _ _ _ (sw_kid y b i j' (lit "seasonSeparator") (MvStr (slice i j' s))) u Ns); [unfold at_most_one; rewrite Ne; apply Nat.le_0_l|exact Ko|cbn [sw_kid m_start]; lia| |exact Np|exact (proj2 Ru)|exact (range_not_weak u Hu)].
      unfold Episodes.num, sw_kid. cbn [m_value]. rewrite Ev, Evd. lia. }
  destruct Se as (r & Er).
  assert (Sh : forall m, In m (group_of s g ++ group_of s g') -> In (hide private_names m) (season_matches default_cfg s)).
  { intros m Im. unfold season_matches. apply in_flat_map. eexists. split; [exact Hr|]. assert (Eo : chain_one (sw_chain default_cfg) s (filter (part_ok s) (g :: g' :: l0)) = chain_parent (sw_chain default_cfg) s (g :: g' :: r) :: map (hide private_names) (kids_of s (g :: g' :: r))) by (unfold chain_one; refine (f_equal (fun z => match z with [] => [] | g2 :: l2 => chain_parent (sw_chain default_cfg) s (g2 :: l2) :: map (hide (ch_private (sw_chain default_cfg))) (kids_of s (g2 :: l2)) end) Er)). refine (eq_ind_r (In _) _ Eo). right. apply in_map. unfold kids_of. cbn [flat_map]. rewrite app_assoc. apply in_app_iff. left. exact Im. }
  split.
  - apply (hidden_shows _ private_names _ _ _ _ (sw_kid k y x y (lit "season") (numeral_of_text (slice x y s)))); try reflexivity; [|exact Ev]. apply Sh. rewrite Eg. right. left. reflexivity.
  - rewrite <- Ex'. apply (hidden_shows _ private_names _ _ _ _ (sw_kid y b x' b (lit "season") (numeral_of_text (slice x' b s)))); try reflexivity; [|exact Evd]. apply Sh. rewrite Eg. do 4 right. left. reflexivity.
Qed.
Print Assumptions C108_range.
(** ** the hypotheses are met *)
Example C108_example_found : exists k x y, season_written (lit "Show.Saison.IV.720p") k x y 4 /\ alone (lit "Show.Saison.IV.720p") k y /\ shows (season_matches default_cfg (lit "Show.Saison.IV.720p")) 12 14 (lit "season") (MvInt 4).
Proof.
  assert (A : alone (lit "Show.Saison.IV.720p") 12 14) by (apply (seps_alone _ (simple 12 14 [] (MvInt 0) [])); reflexivity).
  assert (W : season_written (lit "Show.Saison.IV.720p") 5 12 14 4).
  { exists (lit "Saison"), (lit "."), (lit "IV"). split; [split; [cbn; lia|reflexivity]|]. split; [right; right; left; reflexivity|]. split; [right; exists 46%N; split; [reflexivity|]; split; [apply cmem_In; reflexivity|split; discriminate]|]. split; [reflexivity|]. split; [|right; exact A].
    apply in_roman; [lia|reflexivity]. }
  assert (A2 : alone (lit "Show.Saison.IV.720p") 5 14) by (apply (seps_alone _ (simple 5 14 [] (MvInt 0) [])); reflexivity).
  exists 5, 12, 14. split; [exact W|]. split; [exact A2|]. exact (C108_found _ _ _ _ _ W A2).
Qed.

Example C108_example_count : exists k x y x' b, season_written (lit "Show Season 2of five") k x y 2 /\ count_written (lit "Show Season 2of five") y x' b 5 /\ alone (lit "Show Season 2of five") k b.
Proof.
  exists 5, 12, 13, 16, 20. split; [|split].
  - exists (lit "Season"), (lit " "), (lit "2"). split; [split; [cbn; lia|reflexivity]|]. split; [left; reflexivity|]. split; [right; exists 32%N; split; [reflexivity|]; split; [apply cmem_In; reflexivity|split; discriminate]|]. split; [reflexivity|].
    assert (Nu : number (lit "2")) by (split; [discriminate|]; intros c [<-|[]]; cbn; lia). split; [exact (in_digits (lit "2") Nu ltac:(cbn; lia))|left; exact Nu].
  - exists (lit "of"), (lit " "), (lit "five"). split; [split; [cbn; lia|reflexivity]|]. split; [left; reflexivity|]. split; [right; exists 32%N; split; [reflexivity|]; split; [apply cmem_In; reflexivity|split; discriminate]|]. split; [reflexivity|].
    split; [apply in_words; apply (nth_error_In _ 6); vm_compute; reflexivity|right; apply (seps_alone _ (simple 16 20 [] (MvInt 0) [])); reflexivity].
  - apply (seps_alone _ (simple 5 20 [] (MvInt 0) [])); reflexivity.
Qed.
(** ** limits *)
Theorem C108_limit :
  (exists s k x y b, season_written s k x y 1 /\ reads s y b (lit "- 5") /\ alone s k b /\ shows (season_matches default_cfg s) x y (lit "season") (MvInt 1) /\ ~ exists z e, shows (season_matches default_cfg s) z e (lit "season") (MvInt 5)) /\
  (exists s k x y b, season_written s k x y 2 /\ reads s y b (lit " of 5") /\ alone s k b /\ shows (season_matches default_cfg s) x y (lit "season") (MvInt 2) /\ ~ exists z e, shows (season_matches default_cfg s) z e (lit "count") (MvInt 5)).
Proof.
  assert (Nu : forall c, (48 <= c <= 57)%N -> number [c]) by (intros c Hc; split; [discriminate|]; intros c' [<-|[]]; exact Hc).
  split.
  - exists (lit "Season 1- 5"), 0, 7, 8, 11. assert (W : season_written (lit "Season 1- 5") 0 7 8 1).
    { exists (lit "Season"), (lit " "), (lit "1"). split; [split; [cbn; lia|reflexivity]|]. split; [left; reflexivity|]. split; [right; exists 32%N; split; [reflexivity|]; split; [apply cmem_In; reflexivity|split; discriminate]|]. split; [reflexivity|].
      split; [exact (in_digits (lit "1") (Nu 49%N ltac:(lia)) ltac:(cbn; lia))|left; exact (Nu 49%N ltac:(lia))]. }
    split; [exact W|]. split; [split; [cbn; lia|reflexivity]|]. split; [apply (seps_alone _ (simple 0 11 [] (MvInt 0) [])); reflexivity|]. split; [apply (C108_found _ 0 _ _ _ W); apply (seps_alone _ (simple 0 8 [] (MvInt 0) [])); reflexivity|].
    intros (z & e & m & I & _ & _ & _ & Ev & Pm). assert (K : In m (filter (fun m => negb (m_private m)) (season_matches default_cfg (lit "Season 1- 5")))) by (apply filter_In; rewrite Pm; auto).
    apply (in_map (fun m => (m_start m, m_end m, m_name m, m_value m))) in K. change (In (m_start m, m_end m, m_name m, m_value m) (seen_seasons (lit "Season 1- 5"))) in K. assert (E5 : seen_seasons (lit "Season 1- 5") = [(7, 8, lit "season", MvInt 1)]) by (vm_compute; reflexivity). rewrite E5 in K. rewrite Ev in K. destruct K as [K|[]]. discriminate K.
  - exists (lit "Season 2 of 5"), 0, 7, 8, 13. assert (W : season_written (lit "Season 2 of 5") 0 7 8 2).
    { exists (lit "Season"), (lit " "), (lit "2"). split; [split; [cbn; lia|reflexivity]|]. split; [left; reflexivity|]. split; [right; exists 32%N; split; [reflexivity|]; split; [apply cmem_In; reflexivity|split; discriminate]|]. split; [reflexivity|].
      split; [exact (in_digits (lit "2") (Nu 50%N ltac:(lia)) ltac:(cbn; lia))|left; exact (Nu 50%N ltac:(lia))]. }
    split; [exact W|]. split; [split; [cbn; lia|reflexivity]|]. split; [apply (seps_alone _ (simple 0 13 [] (MvInt 0) [])); reflexivity|]. split; [apply (C108_found _ 0 _ _ _ W); apply (seps_alone _ (simple 0 8 [] (MvInt 0) [])); reflexivity|].
    intros (z & e & m & I & _ & _ & _ & Ev & Pm). assert (K : In m (filter (fun m => negb (m_private m)) (season_matches default_cfg (lit "Season 2 of 5")))) by (apply filter_In; rewrite Pm; auto).
    apply (in_map (fun m => (m_start m, m_end m, m_name m, m_value m))) in K. change (In (m_start m, m_end m, m_name m, m_value m) (seen_seasons (lit "Season 2 of 5"))) in K. assert (E5 : seen_seasons (lit "Season 2 of 5") = [(7, 8, lit "season", MvInt 2)]) by (vm_compute; reflexivity). rewrite E5 in K. rewrite Ev in K. destruct K as [K|[]]. discriminate K.
Qed.
Print Assumptions C108_limit.
